(** C105: a query means what its JSON says. *)
From Verif Require Import Bytes BytesProofs TxModel HexModel ApiModel JsonModel ApiProps.
From Verif Require NetModel Web3Model HexProps.
From stdpp Require Import base list.
From Coq Require Import String Ascii Lia.
Local Open Scope N_scope.

(* ---------------------------------------------------------------------- *)
(** * What the Ethereum JSON-RPC says *)

(** a JSON string that writes the value [x] *)
Definition written (rd : text -> option N) (j : json) (x : N) : Prop := exists t, j = JStr t /\ rd t = Some x.
(** "address": one address, or a list of which one must be the log's; null and an empty list stand for any *)
Definition addr_selects (rd : text -> option N) (j : json) (a : N) : Prop :=
  j = JNull \/ written rd j a \/ exists l, j = JArr l /\ (l = [] \/ exists x, In x l /\ written rd x a).
(** one position of "topics": null for any, one topic, or alternatives; no alternatives, or null among them, stand for any *)
Definition topic_selects (rd : text -> option N) (j : json) (t : N) : Prop :=
  j = JNull \/ written rd j t \/ exists l, j = JArr l /\ (l = [] \/ In JNull l \/ exists x, In x l /\ written rd x t).
(** "topics": the log has a topic for every position *)
Definition topics_select (rd : text -> option N) (j : json) (ts : list N) : Prop :=
  j = JNull \/ exists l, j = JArr l /\ Forall2 (topic_selects rd) l (take (List.length l) ts).
(** the object as a whole: what is not given does not restrict *)
Definition selects (h160 h256 : text -> option N) (l : list (text * json)) (a : N) (ts : list N) : Prop :=
  (forall j, In (nm "address", j) l -> addr_selects h160 j a) /\ (forall j, In (nm "topics", j) l -> topics_select h256 j ts).
(** no position of "topics" is an empty list *)
Definition no_empty (l : list (text * json)) : Prop := forall lt, In (nm "topics", JArr lt) l -> ~ In (JArr []) lt.
(** a member of type Option: what is written, or nothing when it is missing or null *)
Definition gives {A} (d : json -> option A) (l : list (text * json)) (k : text) (o : option A) : Prop :=
  match o with
  | Some x => exists j, In (k, j) l /\ j <> JNull /\ d j = Some x
  | None => forall j, In (k, j) l -> j = JNull
  end.

(* ---------------------------------------------------------------------- *)
(** * Members *)
Lemma mem_In k names : mem k names = true <-> In k names.
Proof.
  unfold mem. rewrite existsb_exists. split.
  - intros (x & H & E). apply beqb_eq in E. by subst.
  - intros H. exists k. split; [done|]. by apply beqb_eq.
Qed.
Lemma repeated_NoDup l : repeated l = false <-> List.NoDup l.
Proof.
  induction l as [|k r IH]; cbn [repeated]; [split; [constructor|done]|]. rewrite orb_false_iff, IH. split.
  - intros [M D]. constructor; [|done]. intros I%mem_In. congruence.
  - inversion 1 as [|? ? I D]; subst. split; [|done]. destruct (mem k r) eqn:E; [|done]. by apply mem_In in E.
Qed.
Lemma member_In (A : Type) k (l : list (text * A)) x : member k l = Some x -> In (k, x) l.
Proof.
  unfold member. destruct (List.find (fun kv => beqb (fst kv) k) l) as [[k' x']|] eqn:E; cbn; [|discriminate]. intros [= <-].
  apply find_some in E as [I E]. cbn in E. apply beqb_eq in E. by subst.
Qed.
Lemma member_None (A : Type) k (l : list (text * A)) x : member k l = None -> ~ In (k, x) l.
Proof.
  unfold member. destruct (List.find (fun kv => beqb (fst kv) k) l) as [[k' x']|] eqn:E; cbn; [discriminate|]. intros _ I.
  apply (find_none _ _ E) in I. cbn in I. rewrite (proj2 (beqb_eq k k) eq_refl) in I. discriminate.
Qed.
(** only one member of a known name *)
Lemma filter_all (A : Type) (P : A -> bool) l : (forall x, In x l -> P x = true) -> List.filter P l = l.
Proof. induction l as [|x r IH]; cbn; [done|]. intros H. rewrite (H x) by (by left). rewrite IH; [done|]. intros y I. apply H. by right. Qed.
Definition once (names : list text) (l : list (text * json)) : Prop := List.NoDup (List.filter (fun k => mem k names) (List.map fst l)).
Lemma once_In names l k x y : once names l -> In k names -> In (k, x) l -> In (k, y) l -> x = y.
Proof.
  unfold once. intros D K. induction l as [|[k' z] r IH]; [done|]. cbn [List.map List.filter fst] in D. intros [E1|I1] [E2|I2].
  - congruence.
  - exfalso. injection E1 as -> ->. rewrite (proj2 (mem_In k names) K) in D. inversion D as [|? ? N _]; subst. apply N.
    apply filter_In. split; [|by apply mem_In]. apply in_map_iff. exists (k, y). done.
  - exfalso. injection E2 as -> ->. rewrite (proj2 (mem_In k names) K) in D. inversion D as [|? ? N _]; subst. apply N.
    apply filter_In. split; [|by apply mem_In]. apply in_map_iff. exists (k, x). done.
  - apply IH; [|done..]. destruct (mem k' names); [by inversion D|done].
Qed.
Lemma member_iff names l k x : once names l -> In k names -> member k l = Some x <-> In (k, x) l.
Proof.
  intros D K. split; [apply member_In|]. intros I. destruct (member k l) as [y|] eqn:E; [|by apply (member_None _ _ _ x) in E].
  f_equal. apply member_In in E. by apply (once_In names l k).
Qed.
Lemma fields_obj names deny l get : fields names deny (JObj l) = Some get <->
  get = (fun k => member k l) /\ once names l /\ (deny = true -> forall k j, In (k, j) l -> In k names).
Proof.
  cbn [fields]. destruct (forallb _ l) eqn:A.
  - rewrite andb_false_r. rewrite forallb_forall in A. destruct (repeated _) eqn:R.
    + split; [discriminate|]. intros (_ & D & _). apply repeated_NoDup in D. congruence.
    + apply repeated_NoDup in R. split; [|by intros (-> & _)]. intros [= <-]. split; [done|]. split; [done|]. intros _ k j I.
      apply mem_In. exact (A _ I).
  - destruct deny; cbn [andb negb].
    + split; [discriminate|]. intros (_ & _ & H). exfalso. assert (X : forallb (fun kv : text * json => mem (fst kv) names) l = true); [|congruence].
      apply forallb_forall. intros [k j] I. apply mem_In. by apply (H eq_refl k j).
    + destruct (repeated _) eqn:R.
      * split; [discriminate|]. intros (_ & D & _). apply repeated_NoDup in D. congruence.
      * apply repeated_NoDup in R. split; [intros [= <-]; done|by intros (-> & _)].
Qed.
Lemma opt_field_iff (A : Type) (d : json -> option A) names l k o : once names l -> In k names ->
  opt_field d (fun k => member k l) k = Some o <-> gives d l k o.
Proof.
  intros D K. unfold opt_field. destruct (member k l) as [j|] eqn:E.
  - pose proof (proj1 (member_iff names l k j D K) E) as I. unfold j_opt, gives. destruct o as [x|].
    + split.
      * intros H. exists j. split; [done|]. destruct j; try discriminate H; (split; [discriminate|]).
        all: match goal with |- ?t = _ => destruct t eqn:F end; cbn in H; congruence.
      * intros (j' & I' & Hn & F). rewrite (once_In names l k j j' D K I I') in *. rewrite F. destruct j'; done.
    + split.
      * intros H j' I'. rewrite (once_In names l k j' j D K I' I). destruct j; [done|..].
        all: match goal with H : option_map _ ?t = _ |- _ => destruct t; discriminate H end.
      * intros H. by rewrite (H j I).
  - unfold gives. destruct o as [x|].
    + split; [discriminate|]. intros (j & I & _). by apply (member_None _ _ _ j) in E.
    + split; [|done]. intros _ j I. by apply (member_None _ _ _ j) in E.
Qed.

(* ---------------------------------------------------------------------- *)
(** * Log filters *)
Lemma j_all_spec (A : Type) (d : json -> option A) l xs : j_all d l = Some xs <-> Forall2 (fun j x => d j = Some x) l xs.
Proof.
  revert xs. induction l as [|j r IH]; intros xs; cbn [j_all].
  - split; [intros [= <-]; constructor|by inversion 1].
  - destruct (d j) as [x|] eqn:E; [destruct (j_all d r) as [ys|] eqn:R|].
    + split; [intros [= <-]; constructor; [done|by apply IH]|]. inversion 1 as [|? ? ? ? H1 H2]; subst. apply IH in H2. congruence.
    + split; [discriminate|]. inversion 1 as [|? ? ? ? H1 H2]; subst. apply IH in H2. congruence.
    + split; [discriminate|]. inversion 1 as [|? ? ? ? H1 H2]; subst. congruence.
Qed.
Lemma j_str_written rd j x : j_str rd j = Some x <-> written rd j x.
Proof. unfold written. destruct j; cbn; split; try discriminate; try (by intros (? & ? & ?)); [eauto|]. intros (? & [= <-] & ?). done. Qed.

Lemma multi_type_sel rd j o a : multi_type (j_str rd) j = Some o ->
  (default [] o = [] \/ a ∈ default [] o) <-> addr_selects rd j a.
Proof.
  unfold multi_type, multi_of. intros H. destruct j as [|b|n|t|l|l]; try discriminate H.
  - injection H as <-. split; [by left|by left].
  - cbn [j_str j_vec] in H. destruct (rd t) as [x|] eqn:E; [|discriminate]. injection H as <-. cbn [default from_option id]. unfold addr_selects, written. split.
    + intros [?|I]; [done|]. apply elem_of_list_singleton in I as ->. right; left. eauto.
    + intros [?|[(t' & [= <-] & F)|(l & ? & _)]]; [done| |done]. right. rewrite E in F. injection F as ->. by apply elem_of_list_singleton.
  - cbn [j_str j_vec] in H. destruct (j_all (j_str rd) l) as [xs|] eqn:E; [|discriminate]. injection H as <-. cbn [default from_option id]. apply j_all_spec in E. unfold addr_selects. split.
    + intros X. right; right. exists l. split; [done|]. destruct X as [->|I]; [left; by inversion E|]. right.
      apply elem_of_list_lookup in I as [i Hi]. destruct (Forall2_lookup_r _ _ _ _ _ E Hi) as (x & Hx & W). exists x. split; [|by apply j_str_written].
      apply elem_of_list_In. by apply elem_of_list_lookup_2 in Hx.
    + intros [?|[(t & ? & _)|(l' & [= <-] & [->|(x & I & W)])]]; [done|done| |].
      * left. by inversion E.
      * right. apply elem_of_list_In, elem_of_list_lookup in I as [i Hi]. destruct (Forall2_lookup_l _ _ _ _ _ E Hi) as (y & Hy & F).
        apply j_str_written in W. rewrite W in F. injection F as ->. by apply elem_of_list_lookup_2 in Hy.
Qed.
Lemma nest_type_sel rd j o t : j <> JArr [] -> nest_type (j_str rd) j = Some o -> pos_match o t <-> topic_selects rd j t.
Proof.
  unfold nest_type, multi_of. intros Hne H. destruct j as [|b|n|s|l|l]; try discriminate H.
  - injection H as <-. split; [by left|done].
  - cbn [j_str j_vec] in H. destruct (rd s) as [x|] eqn:E; [|discriminate]. injection H as <-. unfold topic_selects, written, pos_match. split.
    + intros [I|I]; apply elem_of_list_singleton in I; [discriminate|]. injection I as ->. right; left. eauto.
    + intros [?|[(t' & [= <-] & F)|(l & ? & _)]]; [done| |done]. right. rewrite E in F. injection F as ->. by apply elem_of_list_singleton.
  - cbn [j_str j_vec] in H. destruct (j_all (j_opt (j_str rd)) l) as [xs|] eqn:E; [|discriminate]. injection H as <-. apply j_all_spec in E. unfold topic_selects, pos_match. split.
    + intros X. right; right. exists l. split; [done|]. right. destruct X as [I|I].
      * left. apply elem_of_list_lookup in I as [i Hi]. destruct (Forall2_lookup_r _ _ _ _ _ E Hi) as (x & Hx & W).
        apply elem_of_list_In. assert (x = JNull) as <-; [|by apply elem_of_list_lookup_2 in Hx].
        destruct x; [done|..]; unfold j_opt in W; match goal with W : option_map _ ?t = _ |- _ => destruct t; discriminate W end.
      * right. apply elem_of_list_lookup in I as [i Hi]. destruct (Forall2_lookup_r _ _ _ _ _ E Hi) as (x & Hx & W). exists x.
        split; [apply elem_of_list_In; by apply elem_of_list_lookup_2 in Hx|]. apply j_str_written.
        destruct x; unfold j_opt in W; try discriminate W. match goal with W : option_map _ ?t = _ |- _ => destruct t; [|discriminate W] end. cbn in W. congruence.
    + intros [?|[(s & ? & _)|(l' & [= <-] & [->|[I|(x & I & W)]])]]; [done|done|done| |].
      * left. apply elem_of_list_In, elem_of_list_lookup in I as [i Hi]. destruct (Forall2_lookup_l _ _ _ _ _ E Hi) as (y & Hy & F).
        injection F as <-. by apply elem_of_list_lookup_2 in Hy.
      * right. apply elem_of_list_In, elem_of_list_lookup in I as [i Hi]. destruct (Forall2_lookup_l _ _ _ _ _ E Hi) as (y & Hy & F).
        destruct W as (s & -> & W). cbn in F. rewrite W in F. injection F as <-. by apply elem_of_list_lookup_2 in Hy.
Qed.
Lemma nest_types_sel rd l ts lt : ~ In (JArr []) l -> Forall2 (fun j x => nest_type (j_str rd) j = Some x) l ts ->
  Forall2 pos_match ts (take (List.length ts) lt) <-> Forall2 (topic_selects rd) l (take (List.length l) lt).
Proof.
  intros Hne E. revert lt. induction E as [|j x l ts Hx E IH]; intros lt; [cbn; split; constructor|].
  cbn [List.length]. destruct lt as [|t lt]; cbn [take].
  - split; inversion 1.
  - rewrite !Forall2_cons. rewrite (nest_type_sel rd j x t); [|intros ->; apply Hne; by left|done]. rewrite IH; [done|].
    intros I. apply Hne. by right.
Qed.

Section Props.
  Variables (h160 h256 u64 u256 : text -> option N) (acl : json -> option (list (N * list N))).
  Notation web3_filter := (web3_filter h160 h256).
  Notation logger_filter := (logger_filter h160 h256).
  Notation ws_filter := (ws_filter h160 h256).
  Notation call_of_json := (call_of_json h160 u64 u256 acl).

  Lemma addr_field_sel names l o a : once names l -> In (nm "address") names -> addr_field h160 (fun k => member k l) = Some o ->
    (default [] o = [] \/ a ∈ default [] o) <-> forall j, In (nm "address", j) l -> addr_selects h160 j a.
  Proof using.
    intros D K. unfold addr_field. destruct (member (nm "address") l) as [j|] eqn:E.
    - pose proof (proj1 (member_iff names l _ j D K) E) as I. intros H. rewrite (multi_type_sel h160 j o a H). split; [|intros X; by apply X].
      intros X j' I'. by rewrite (once_In names l _ j' j D K I' I).
    - intros [= <-]. cbn. split; [|by left]. intros _ j I. by apply (member_None _ _ _ j) in E.
  Qed.
  Lemma topics_field_sel names l o lt : once names l -> In (nm "topics") names -> no_empty l -> topics_field h256 (fun k => member k l) = Some o ->
    Forall2 pos_match (default [] o) (take (List.length (default [] o)) lt) <-> forall j, In (nm "topics", j) l -> topics_select h256 j lt.
  Proof using.
    intros D K Hne. unfold topics_field, opt_field. destruct (member (nm "topics") l) as [j|] eqn:E.
    - pose proof (proj1 (member_iff names l _ j D K) E) as I. intros H.
      assert (X : Forall2 pos_match (default [] o) (take (List.length (default [] o)) lt) <-> topics_select h256 j lt).
      { unfold topics_select. unfold j_opt in H. destruct j as [|b|n|s|lj|lj]; try discriminate H.
        - injection H as <-. cbn. split; [by left|constructor].
        - cbn [j_vec] in H. destruct (j_all _ lj) as [ts|] eqn:F; [|discriminate H]. injection H as <-. apply j_all_spec in F. cbn [default from_option id].
          rewrite (nest_types_sel h256 lj ts lt (Hne lj I) F). split; [intros X; right; by exists lj|]. by intros [?|(l' & [= <-] & X)]. }
      rewrite X. split; [|intros Y; by apply Y]. intros Y j' I'. by rewrite (once_In names l _ j' j D K I' I).
    - intros [= <-]. cbn. split; [|constructor]. intros _ j I. by apply (member_None _ _ _ j) in E.
  Qed.

  Definition filter_names : list text := [nm "fromBlock"; nm "toBlock"; nm "blockHash"; nm "address"; nm "topics"].
  Lemma web3_filter_inv l f : web3_filter (JObj l) = Some f ->
    once filter_names l /\ (forall k j, In (k, j) l -> In k filter_names) /\ gives api_block_id l (nm "fromBlock") (wf_from f) /\
    gives api_block_id l (nm "toBlock") (wf_to f) /\ gives (j_str h256) l (nm "blockHash") (wf_hash f) /\
    addr_field h160 (fun k => member k l) = Some (wf_addr f) /\ topics_field h256 (fun k => member k l) = Some (wf_topics f).
  Proof using.
    unfold JsonModel.web3_filter. fold filter_names. destruct (fields filter_names true (JObj l)) as [get|] eqn:E; [|discriminate].
    apply fields_obj in E as (-> & D & A).
    destruct (opt_field api_block_id _ (nm "fromBlock")) as [fr|] eqn:E1; [|discriminate].
    destruct (opt_field api_block_id _ (nm "toBlock")) as [to|] eqn:E2; [|discriminate].
    destruct (opt_field (j_str h256) _ (nm "blockHash")) as [h|] eqn:E3; [|discriminate].
    destruct (addr_field h160 _) as [a|] eqn:E4; [|discriminate]. destruct (topics_field h256 _) as [ts|] eqn:E5; [|discriminate].
    intros [= <-]. cbn [wf_from wf_to wf_hash wf_addr wf_topics].
    split; [done|]. split; [exact (A eq_refl)|].
    split; [apply (opt_field_iff _ _ filter_names); [done|by left|done]|].
    split; [apply (opt_field_iff _ _ filter_names); [done|by right; left|done]|].
    split; [apply (opt_field_iff _ _ filter_names); [done|by right; right; left|done]|]. done.
  Qed.

  (** An accepted filter of eth_getLogs matches exactly the logs that its JSON selects, as long as no position of "topics" is an empty list. *)
  Theorem C105_matches_partial l f a ts : web3_filter (JObj l) = Some f -> no_empty l ->
    log_match (default [] (wf_addr f)) (default [] (wf_topics f)) a ts <-> selects h160 h256 l a ts.
  Proof using.
    intros H Hne. apply web3_filter_inv in H as (D & _ & _ & _ & _ & Ha & Ht). unfold log_match, selects.
    rewrite (addr_field_sel filter_names l _ a D ltac:(right; right; right; by left) Ha).
    rewrite (topics_field_sel filter_names l _ ts D ltac:(do 4 right; by left) Hne Ht). done.
  Qed.
  (** The blocks it asks for are those that are written; missing and null members do not restrict. *)
  Theorem C105_blocks l f : web3_filter (JObj l) = Some f ->
    gives api_block_id l (nm "fromBlock") (wf_from f) /\ gives api_block_id l (nm "toBlock") (wf_to f) /\ gives (j_str h256) l (nm "blockHash") (wf_hash f).
  Proof using. intros H. by apply web3_filter_inv in H as (_ & _ & H1 & H2 & H3 & _). Qed.
  (** Together: the answer to eth_getLogs. *)
  Theorem C105_answer_partial c range l f res : wf_chain c -> web3_filter (JObj l) = Some f -> no_empty l -> few_topics f -> wf_hash f = None ->
    get_logs c range f = Ok res -> N.of_nat (List.length res) <= MAX_LOG_NUM ->
    forall w, w ∈ res <-> exists b i r j e, b ∈ in_range c (wf_from f) (wf_to f) /\ flatten (receipts_of c b) !! i = Some r /\ ar_logs r !! j = Some e /\
      selects h160 h256 l (al_addr e) (al_topics e) /\
      w = WLog (al_addr e) (al_topics e) (al_data e) (ar_bhash r) (ar_number r) (ar_tx r) (N.of_nat i) (N.of_nat j).
  Proof using.
    intros Hc H Hne Hf Hh Hr Hm w. pose proof (C50_range c range f Hc Hf Hh) as X. cbn zeta in X. rewrite Hr in X. destruct X as (_ & _ & rest & Hw & Hrest).
    assert (rest = []) as ->. { destruct rest; [done|]. exfalso. assert (MAX_LOG_NUM < N.of_nat (List.length res)) by (apply Hrest; discriminate). lia. }
    rewrite app_nil_r in Hw. rewrite <- Hw. unfold want. rewrite C50_entries. split.
    - intros (b & i & r & j & e & Hb & Hi & Hj & Hl & ->). exists b, i, r, j, e. repeat (split; [done|]). split; [|done]. by apply (C105_matches_partial l f).
    - intros (b & i & r & j & e & Hb & Hi & Hj & Hl & ->). exists b, i, r, j, e. repeat (split; [done|]). split; [|done]. by apply (C105_matches_partial l f).
  Qed.

  (** The same JSON selects the same logs in eth_getLogs, in a filter of eth_newFilter and in a subscription, and a filter of eth_newFilter has the same range. *)
  Theorem C105_same l f : web3_filter (JObj l) = Some f ->
    ws_filter (JObj l) = Some (wf_addr f, take 4 (default [] (wf_topics f))) /\
    forall g, logger_filter (JObj l) = Some g -> g = lfilter_of (wf_from f) (wf_to f) (wf_addr f) (wf_topics f).
  Proof using.
    unfold JsonModel.web3_filter, JsonModel.ws_filter, JsonModel.logger_filter. fold filter_names. intros H.
    destruct (fields filter_names true (JObj l)) as [get|] eqn:E; [|discriminate H]. apply fields_obj in E as (-> & D & A). specialize (A eq_refl).
    destruct (opt_field api_block_id _ (nm "fromBlock")) as [fr|] eqn:E1; [|discriminate H].
    destruct (opt_field api_block_id _ (nm "toBlock")) as [to|] eqn:E2; [|discriminate H].
    destruct (opt_field (j_str h256) _ (nm "blockHash")) as [h|]; [|discriminate H].
    destruct (addr_field h160 _) as [a|] eqn:E4; [|discriminate H]. destruct (topics_field h256 _) as [ts|] eqn:E5; [|discriminate H].
    injection H as <-. cbn [wf_from wf_to wf_hash wf_addr wf_topics]. split.
    - assert (X : fields [nm "address"; nm "topics"] false (JObj l) = Some (fun k => member k l)).
      { apply fields_obj. split; [done|]. split; [|discriminate]. unfold once in *. clear -D.
        assert (S : forall k, mem k [nm "address"; nm "topics"] = true -> mem k filter_names = true).
        { intros k I%mem_In. apply mem_In. cbn [In filter_names] in *. tauto. }
        revert D. generalize (List.map fst l). intros ks D. induction ks as [|k r IH]; [constructor|]. cbn [List.filter] in *.
        destruct (mem k [nm "address"; nm "topics"]) eqn:M.
        - rewrite (S k M) in D. inversion D as [|? ? N D']; subst. constructor; [|by apply IH]. intros I. apply N. apply filter_In in I as [I _].
          apply filter_In. split; [done|by apply S].
        - apply IH. destruct (mem k filter_names); [by inversion D|done]. }
      rewrite X, E4, E5. done.
    - intros g. destruct (fields _ true (JObj l)) as [get|] eqn:E; [|discriminate]. apply fields_obj in E as (-> & _ & _).
      cbn beta. rewrite E1, E2, E4, E5. destruct (match fr with Some BPending => true | _ => false end); [discriminate|].
      destruct (match to with Some BEarliest | Some (BNum 0) => true | _ => false end); [discriminate|]. congruence.
  Qed.

  (** Nothing is ignored: an accepted filter or call has only members that are read, each at most once. *)
  Theorem C105_known l f : web3_filter (JObj l) = Some f -> List.NoDup (List.map fst l) /\ forall k j, In (k, j) l -> In k filter_names.
  Proof using.
    intros H. apply web3_filter_inv in H as (D & A & _). split; [|done]. unfold once in D. rewrite filter_all in D; [done|].
    intros k I. apply in_map_iff in I as ([k' j] & <- & I). apply mem_In. by apply (A k' j).
  Qed.
  Theorem C105_known_filter l g : logger_filter (JObj l) = Some g ->
    List.NoDup (List.map fst l) /\ forall k j, In (k, j) l -> In k [nm "fromBlock"; nm "toBlock"; nm "address"; nm "topics"].
  Proof using.
    unfold JsonModel.logger_filter. destruct (fields _ true (JObj l)) as [get|] eqn:E; [|discriminate]. apply fields_obj in E as (_ & D & A). intros _.
    split; [|exact (A eq_refl)]. unfold once in D. rewrite filter_all in D; [done|].
    intros k I. apply in_map_iff in I as ([k' j] & <- & I). apply mem_In. by apply (A eq_refl k' j).
  Qed.

  (** A call means what is written: it is accepted exactly if its members are known ones, each at most once, and the values are those of the members. *)
  Theorem C105_call l q : call_of_json (JObj l) = Some q <->
    List.NoDup (List.map fst l) /\ (forall k j, In (k, j) l -> In k call_names) /\
    gives (j_str u64) l (nm "type") (rq_type q) /\ gives (j_str h160) l (nm "from") (rq_from q) /\ gives (j_str h160) l (nm "to") (rq_to q) /\
    gives (j_str u64) l (nm "gasPrice") (rq_price q) /\ gives (j_str u64) l (nm "maxFeePerGas") (rq_max_fee q) /\ gives (j_str u64) l (nm "gas") (rq_gas q) /\
    gives (j_str u256) l (nm "value") (rq_value q) /\ gives (j_str hex_from_str) l (nm "data") (rq_data q) /\ gives (j_str u256) l (nm "nonce") (rq_nonce q) /\
    gives acl l (nm "accessList") (rq_access q) /\ gives (j_str u64) l (nm "chainId") (rq_chain q) /\
    gives (j_str u256) l (nm "maxPriorityFeePerGas") (rq_priority q).
  Proof using.
    unfold JsonModel.call_of_json. split.
    - destruct (fields call_names true (JObj l)) as [get|] eqn:E; [|discriminate]. apply fields_obj in E as (-> & D & A). specialize (A eq_refl). intros H.
      repeat match type of H with match opt_field ?d ?g ?k with _ => _ end = _ => let F := fresh "F" in destruct (opt_field d g k) eqn:F; [|discriminate H];
        apply (opt_field_iff _ _ call_names _ _ _ D) in F; [|apply mem_In; vm_compute; reflexivity] end.
      injection H as <-. cbn [rq_type rq_from rq_to rq_price rq_max_fee rq_gas rq_value rq_data rq_nonce rq_access rq_chain rq_priority].
      split; [|done]. unfold once in D. rewrite filter_all in D; [done|].
      intros k I. apply in_map_iff in I as ([k' j] & <- & I). apply mem_In. by apply (A k' j).
    - intros (D & A & F1 & F2 & F3 & F4 & F5 & F6 & F7 & F8 & F9 & F10 & F11 & F12).
      assert (O : once call_names l).
      { unfold once. rewrite filter_all; [done|]. intros k I. apply in_map_iff in I as ([k' j] & <- & I). apply mem_In. by apply (A k' j). }
      rewrite (proj2 (fields_obj call_names true l _) (conj eq_refl (conj O (fun _ => A)))).
      apply (opt_field_iff _ _ call_names _ _ _ O) in F1, F2, F3, F4, F5, F6, F7, F8, F9, F10, F11, F12; try (apply mem_In; vm_compute; reflexivity).
      rewrite F1, F2, F3, F4, F5, F6, F7, F8, F9, F10, F11, F12. by destruct q.
  Qed.

  (** The order of the members does not matter. *)
  Lemma gives_perm (A : Type) (d : json -> option A) l l' k o : Permutation l l' -> gives d l k o -> gives d l' k o.
  Proof using.
    intros P. unfold gives. destruct o as [x|].
    - intros (j & I & H). exists j. split; [|done]. by apply (Permutation_in _ P).
    - intros H j I. apply H. by apply (Permutation_in _ (Permutation_sym P)).
  Qed.
  Theorem C105_order_call l l' : Permutation l l' -> call_of_json (JObj l) = call_of_json (JObj l').
  Proof using.
    assert (X : forall l l' q, Permutation l l' -> call_of_json (JObj l) = Some q -> call_of_json (JObj l') = Some q).
    { clear l l'. intros l l' q P. rewrite !C105_call. intros (D & A & H). split; [|split].
      - apply (Permutation_NoDup (l := List.map fst l)); [by apply Permutation_map|done].
      - intros k j I. apply (A k j). by apply (Permutation_in _ (Permutation_sym P)).
      - repeat match type of H with _ /\ _ => let F := fresh "F" in destruct H as [F H]; split; [by apply (gives_perm _ _ l)|] end. by apply (gives_perm _ _ l). }
    intros P. destruct (call_of_json (JObj l)) as [q|] eqn:E; [symmetry; by apply (X l l' q P)|].
    destruct (call_of_json (JObj l')) as [q|] eqn:E'; [|done]. apply (X l' l q (Permutation_sym P)) in E'. congruence.
  Qed.
  Lemma fields_perm names deny l l' : Permutation l l' ->
    match fields names deny (JObj l), fields names deny (JObj l') with
    | Some g, Some g' => forall k, In k names -> g k = g' k
    | None, None => True
    | _, _ => False
    end.
  Proof using.
    assert (X : forall l l' g, Permutation l l' -> fields names deny (JObj l) = Some g -> exists g', fields names deny (JObj l') = Some g' /\ forall k, In k names -> g k = g' k).
    { clear l l'. intros l l' g P H. apply fields_obj in H as (-> & D & A). exists (fun k => member k l').
      assert (D' : once names l').
      { unfold once in *. refine (Permutation_NoDup _ D). clear -P. induction P; cbn [List.map List.filter].
        - done.
        - destruct (mem _ names); [by constructor|done].
        - destruct (mem (fst y) names), (mem (fst x) names); try done. constructor.
        - by etransitivity. }
      split.
      - apply fields_obj. split; [done|]. split; [done|]. intros Hd k j I. apply (A Hd k j). by apply (Permutation_in _ (Permutation_sym P)).
      - intros k K. destruct (member k l') as [x|] eqn:E.
        + apply (member_iff names l k x D K). apply (Permutation_in _ (Permutation_sym P)). by apply (member_iff names l' k x D' K).
        + destruct (member k l) as [x|] eqn:E'; [|done]. apply (member_None _ _ _ x) in E. exfalso. apply E. apply (Permutation_in _ P). by apply member_In. }
    intros P. destruct (fields names deny (JObj l)) as [g|] eqn:E.
    - destruct (X l l' g P E) as (g' & -> & H). done.
    - destruct (fields names deny (JObj l')) as [g|] eqn:E'; [|done]. destruct (X l' l g (Permutation_sym P) E') as (g' & F & _). congruence.
  Qed.
  Theorem C105_order l l' : Permutation l l' ->
    web3_filter (JObj l) = web3_filter (JObj l') /\ logger_filter (JObj l) = logger_filter (JObj l') /\ ws_filter (JObj l) = ws_filter (JObj l').
  Proof using.
    intros P. unfold JsonModel.web3_filter, JsonModel.logger_filter, JsonModel.ws_filter, addr_field, topics_field, opt_field. split; [|split].
    - match goal with |- context [fields ?n ?d (JObj l)] => pose proof (fields_perm n d l l' P) as X; destruct (fields n d (JObj l)) as [g|], (fields n d (JObj l')) as [g'|]; try done end.
      rewrite !X by (apply mem_In; vm_compute; reflexivity). done.
    - match goal with |- context [fields ?n ?d (JObj l)] => pose proof (fields_perm n d l l' P) as X; destruct (fields n d (JObj l)) as [g|], (fields n d (JObj l')) as [g'|]; try done end.
      rewrite !X by (apply mem_In; vm_compute; reflexivity). done.
    - match goal with |- context [fields ?n ?d (JObj l)] => pose proof (fields_perm n d l l' P) as X; destruct (fields n d (JObj l)) as [g|], (fields n d (JObj l')) as [g'|]; try done end.
      rewrite !X by (apply mem_In; vm_compute; reflexivity). done.
  Qed.
End Props.

Lemma fields_array names l : List.NoDup names -> List.length l = List.length names ->
  fields names true (JArr l) = fields names true (JObj (combine names l)).
Proof.
  intros D L. cbn [fields]. rewrite (proj2 (Nat.eqb_eq _ _) L).
  assert (A : forallb (fun kv : text * json => mem (fst kv) names) (combine names l) = true).
  { apply forallb_forall. intros [k j] I. apply mem_In. by apply in_combine_l in I. }
  rewrite A. cbn [andb negb].
  assert (M : List.map fst (combine names l) = names).
  { clear D A. revert l L. induction names as [|k r IH]; intros [|j l] L; try done. cbn. f_equal. apply IH. by injection L. }
  rewrite M, filter_all; [|intros k I; by apply mem_In]. by rewrite (proj2 (repeated_NoDup names) D).
Qed.

(** Filters and calls may also be written as the array of all their members, with the same meaning. *)
Theorem C105_array h160 h256 u64 u256 acl l :
  (List.length l = 5%nat -> web3_filter h160 h256 (JArr l) = web3_filter h160 h256 (JObj (combine filter_names l))) /\
  (List.length l = 12%nat -> call_of_json h160 u64 u256 acl (JArr l) = call_of_json h160 u64 u256 acl (JObj (combine call_names l))).
Proof.
  split; intros L; [unfold web3_filter; fold filter_names|unfold call_of_json]; (rewrite fields_array; [done|apply repeated_NoDup; vm_compute; reflexivity|done]).
Qed.

(** The blocks: what "fromBlock" and "toBlock" may be. *)
Theorem C105_block_id j i : block_id j = Some i ->
  (exists t, j = JStr t /\ bid_of_str t = Some i) \/
  (exists k t, j = JObj [(k, JStr t)] /\
    ((k = nm "blockNumber" /\ exists n, i = Web3Model.BNum n /\ NetModel.parse_u64 16 (skipn 2 t) = Some n) \/
     (k = nm "blockHash" /\ exists h, i = Web3Model.BHash h /\ hex_from_str t = Some h /\ List.length h = 32%nat))).
Proof.
  unfold block_id. destruct j as [|b|n|t|l|l]; try discriminate.
  - intros H. left. eauto.
  - destruct l as [|[k v] [|kv r]]; cbn [List.map fst snd].
    + discriminate.
    + intros H. right. exists k. unfold bid_of_map, bid_key_of in H. destruct (beqb k (nm "blockNumber")) eqn:E1.
      * apply beqb_eq in E1. destruct v as [| | |t| |]; try discriminate H. exists t. split; [done|]. left. split; [done|].
        destruct (starts P0x t); [|discriminate H]. destruct (NetModel.parse_u64 16 (skipn 2 t)) as [n|]; [|discriminate H]. injection H as <-. by exists n.
      * destruct (beqb k (nm "blockHash")) eqn:E2; [|discriminate H]. apply beqb_eq in E2.
        destruct v as [| | |t| |]; try discriminate H. exists t. split; [done|]. right. split; [done|].
        destruct (hex_from_str t) as [h|]; [|discriminate H]. destruct (List.length h =? 32)%nat eqn:L; [|discriminate H]. injection H as <-.
        exists h. split; [done|]. split; [done|]. by apply Nat.eqb_eq.
    + intros H. exfalso. cbn in H. destruct (bid_key_of k); destruct v; discriminate H.
Qed.

(* ---------------------------------------------------------------------- *)
(** * Examples and findings *)

(** readers of fixed-width hashes and numbers for the examples *)
Definition rd_hash (n : nat) (t : text) : option N :=
  match hex_from_str t with Some b => if Nat.eqb (List.length b) n then Some (be_val b) else None | None => None end.
Definition rd_num (t : text) : option N := if starts P0x t then NetModel.parse_u64 16 (skipn 2 t) else None.
Definition no_acl (j : json) : option (list (N * list N)) := match j with JArr [] => Some [] | _ => None end.
Definition t160 (n : N) : json := JStr (hex_text (be_fixed 20 n)).
Definition t256 (n : N) : json := JStr (hex_text (be_fixed 32 n)).
Notation x_filter := (web3_filter (rd_hash 20) (rd_hash 32)).
Notation x_call := (call_of_json (rd_hash 20) rd_num rd_num no_acl).

Definition ex_json : list (text * json) :=
  [(nm "topics", JArr [t256 1; JArr [t256 2; t256 3]]); (nm "fromBlock", JStr (nm "earliest")); (nm "toBlock", JNull); (nm "address", JArr [t160 7])].
Example C105_example : x_filter (JObj ex_json) = Some ex_filter /\ no_empty ex_json /\ few_topics ex_filter /\ wf_hash ex_filter = None /\ wf_chain ex_chain /\
  get_logs ex_chain 100 ex_filter = Ok [WLog 7 [1; 2] 0 101 1 11 0 0; WLog 7 [1; 3; 4; 5] 0 101 1 12 1 0; WLog 7 [1; 2; 6] 0 102 2 21 0 1] /\
  logger_filter (rd_hash 20) (rd_hash 32) (JObj ex_json) = Some (lfilter_of (Some BEarliest) None (Some [7]) (Some [Some [Some 1]; Some [Some 2; Some 3]])) /\
  subscribe (rd_hash 20) (rd_hash 32) [JStr (nm "logs"); JObj ex_json] = Some (SLogs (Some [7], [Some [Some 1]; Some [Some 2; Some 3]])).
Proof.
  split; [vm_compute; reflexivity|]. split.
  { intros lt I I'. unfold ex_json in I. cbn [In] in I. destruct I as [E|[E|[E|[E|[]]]]]; try (vm_compute in E; discriminate E).
    injection E as <-. destruct I' as [E|[E|[]]]; vm_compute in E; discriminate E. }
  split; [cbv; lia|]. split; [done|]. split; [apply ex_chain_wf|]. split; [vm_compute; reflexivity|]. split; vm_compute; reflexivity.
Qed.
Definition ex_call_json : list (text * json) :=
  [(nm "to", t160 9); (nm "from", t160 8); (nm "data", JStr (nm "0x0102")); (nm "gas", JStr (nm "0x5208")); (nm "value", JNull); (nm "gasPrice", JStr (nm "0x0a"))].
Example C105_call_example :
  x_call (JObj ex_call_json) = Some (CallRequest None (Some 8) (Some 9) (Some 10) None (Some 21000) None (Some [1; 2]) None None None None) /\
  x_call (JObj (rev ex_call_json)) = x_call (JObj ex_call_json) /\ x_call (JObj ((nm "to", t160 8) :: ex_call_json)) = None.
Proof. split; [|split]; vm_compute; reflexivity. Qed.

(** The bounds of a filter that are written as text: the tags, and numbers. *)
Theorem C105_bound t b : api_block_id (JStr t) = Some b <->
  (t = nm "latest" /\ b = BLatest) \/ (t = nm "earliest" /\ b = BEarliest) \/ (t = nm "pending" /\ b = BPending) \/
  (exists d n, t = nm "0x" ++ d /\ NetModel.parse_u64 16 d = Some n /\ b = BNum n).
Proof.
  unfold api_block_id, block_id, bid_of_str. change LATEST with (nm "latest"). change EARLIEST with (nm "earliest"). change PENDING with (nm "pending").
  destruct (beqb t (nm "latest")) eqn:E1; [apply beqb_eq in E1 as ->|].
  { cbn [option_map api_bid]. split.
    - intros [= <-]. by left.
    - intros [[_ ->]|[[X _]|[[X _]|(d & n & X & _)]]]; [done|..]; vm_compute in X; discriminate X. }
  destruct (beqb t (nm "earliest")) eqn:E2; [apply beqb_eq in E2 as ->|].
  { cbn [option_map api_bid]. split.
    - intros [= <-]. right. by left.
    - intros [[X _]|[[_ ->]|[[X _]|(d & n & X & _)]]]; [|done|..]; vm_compute in X; discriminate X. }
  destruct (beqb t (nm "pending")) eqn:E3; [apply beqb_eq in E3 as ->|].
  { cbn [option_map api_bid]. split.
    - intros [= <-]. right. right. by left.
    - intros [[X _]|[[X _]|[[_ ->]|(d & n & X & _)]]]; [| |done|]; vm_compute in X; discriminate X. }
  assert (N1 : t <> nm "latest") by (intros ->; rewrite (proj2 (beqb_eq _ _) eq_refl) in E1; discriminate E1).
  assert (N2 : t <> nm "earliest") by (intros ->; rewrite (proj2 (beqb_eq _ _) eq_refl) in E2; discriminate E2).
  assert (N3 : t <> nm "pending") by (intros ->; rewrite (proj2 (beqb_eq _ _) eq_refl) in E3; discriminate E3).
  split.
  - destruct (starts P0x t) eqn:S; [|discriminate]. destruct (NetModel.parse_u64 16 (skipn 2 t)) as [n|] eqn:P; [|discriminate]. cbn. intros [= <-].
    do 3 right. exists (skipn 2 t), n. split; [|done]. apply HexProps.starts_spec in S as [r ->]. reflexivity.
  - intros [[X _]|[[X _]|[[X _]|(d & n & -> & P & ->)]]]; try done. assert (S : starts P0x (nm "0x" ++ d) = true) by (apply HexProps.starts_spec; by exists d).
    rewrite S. cbn [nm]. change (skipn 2 (nm "0x" ++ d)) with d. by rewrite P.
Qed.

(** Subscriptions: the kind that is named; logs with a filter, which must be there. *)
Theorem C105_subscribe h160 h256 m r s : subscribe h160 h256 (JStr m :: r) = Some s <->
  (m = nm "newHeads" /\ s = SHeads) \/ (m = nm "syncing" /\ s = SSyncing) \/
  (m = nm "logs" /\ exists j q f, r = j :: q /\ ws_filter h160 h256 j = Some f /\ s = SLogs f).
Proof.
  unfold subscribe. destruct (beqb m (nm "newHeads")) eqn:E1; [apply beqb_eq in E1 as ->|].
  { split; [intros [= <-]; by left|]. intros [[_ ->]|[[X _]|[X _]]]; [done|..]; vm_compute in X; discriminate X. }
  assert (N1 : m <> nm "newHeads") by (intros ->; rewrite (proj2 (beqb_eq _ _) eq_refl) in E1; discriminate E1).
  destruct (beqb m (nm "syncing")) eqn:E2; [apply beqb_eq in E2 as ->|].
  { split; [intros [= <-]; right; by left|]. intros [[X _]|[[_ ->]|[X _]]]; [|done|]; vm_compute in X; discriminate X. }
  assert (N2 : m <> nm "syncing") by (intros ->; rewrite (proj2 (beqb_eq _ _) eq_refl) in E2; discriminate E2).
  destruct (beqb m (nm "logs")) eqn:E3; [apply beqb_eq in E3 as ->|].
  - split.
    + intros H. right. right. split; [done|]. destruct r as [|j q]; [discriminate H|]. destruct (ws_filter h160 h256 j) as [f|] eqn:F; [|discriminate H].
      injection H as <-. by exists j, q, f.
    + intros [[X _]|[[X _]|(_ & j & q & f & -> & F & ->)]]; [done|done|]. by rewrite F.
  - assert (N3 : m <> nm "logs") by (intros ->; rewrite (proj2 (beqb_eq _ _) eq_refl) in E3; discriminate E3).
    split; [discriminate|]. intros [[X _]|[[X _]|[X _]]]; done.
Qed.
Theorem C105_subscribe_named h160 h256 j r : (forall m, j <> JStr m) -> subscribe h160 h256 (j :: r) = None.
Proof. intros H. destruct j; try done. by destruct (H t). Qed.

(** What the call is made with is what the members say. *)
Theorem C105_call_made h160 u64 u256 acl l q : call_of_json h160 u64 u256 acl (JObj l) = Some q ->
  let c := read_request q in
  gives (fun j => option_map addr_bytes (j_str h160 j)) l (nm "from") (Web3Model.cq_from c) /\
  gives (fun j => option_map addr_bytes (j_str h160 j)) l (nm "to") (Web3Model.cq_to c) /\
  gives (j_str u64) l (nm "gasPrice") (Web3Model.cq_price c) /\ gives (j_str u64) l (nm "maxFeePerGas") (Web3Model.cq_max_fee c) /\
  gives (j_str u64) l (nm "gas") (Web3Model.cq_gas c) /\ gives (j_str u256) l (nm "value") (Web3Model.cq_value c) /\
  gives (j_str hex_from_str) l (nm "data") (Web3Model.cq_data c) /\ gives (j_str u64) l (nm "chainId") (Web3Model.cq_chain c).
Proof.
  intros H. apply C105_call in H as (_ & _ & _ & F & T & P & M & G & V & D & _ & _ & C & _). cbn zeta. unfold read_request. cbn.
  assert (X : forall k o, gives (j_str h160) l k o -> gives (fun j => option_map addr_bytes (j_str h160 j)) l k (option_map addr_bytes o)).
  { intros k [x|] Y; cbn in *; [|done]. destruct Y as (j & I & N & E). exists j. split; [done|]. split; [done|]. by rewrite E. }
  split; [by apply X|]. split; [by apply X|]. done.
Qed.

(** Finding: an empty list of alternatives for a position of "topics" stands for any topic in other nodes; here no log matches. *)
Theorem C105_empty_refuted : exists l f a ts, x_filter (JObj l) = Some f /\ selects (rd_hash 20) (rd_hash 32) l a ts /\
  ~ log_match (default [] (wf_addr f)) (default [] (wf_topics f)) a ts.
Proof.
  exists [(nm "topics", JArr [JArr []])]. eexists. exists 7, [1]. split; [vm_compute; reflexivity|]. split.
  - split.
    + intros j [E|[]]. vm_compute in E. discriminate E.
    + intros j [E|[]]. injection E as <-. right. exists [JArr []]. split; [done|]. constructor; [|constructor]. right; right. exists []. split; [done|]. by left.
  - intros [_ H]. cbn in H. inversion H as [|? ? ? ? P _]; subst. destruct P as [P|P]; by apply elem_of_nil in P.
Qed.
(** Finding: "blockHash" may be given together with "fromBlock" and "toBlock" (an error in EIP-234); the range is then ignored and logs of a block outside of it
    are returned. *)
Theorem C105_both_refuted : exists l f w, x_filter (JObj l) = Some f /\ wf_from f = Some (BNum 2) /\ wf_to f = Some (BNum 2) /\
  get_logs ex_chain 100 f = Ok [w] /\ wl_number w = 1.
Proof.
  exists [(nm "blockHash", t256 101); (nm "fromBlock", JStr (nm "0x2")); (nm "toBlock", JStr (nm "0x2")); (nm "address", t160 8)]. eexists _, _.
  split; [vm_compute; reflexivity|]. split; [reflexivity|]. split; [reflexivity|]. split; vm_compute; reflexivity.
Qed.
(** Finding: the filter of a subscription may have members that are not known; a misspelt "topics" subscribes to all logs. *)
Theorem C105_typo_refuted : exists l, x_filter (JObj l) = None /\
  subscribe (rd_hash 20) (rd_hash 32) [JStr (nm "logs"); JObj l] = Some (SLogs (None, [])).
Proof. exists [(nm "topic", JArr [t256 1])]. split; vm_compute; reflexivity. Qed.
(** Finding: a call with the standard member "input" is refused, whatever else it says. *)
Theorem C105_input_refuted h160 u64 u256 acl l j : In (nm "input", j) l -> call_of_json h160 u64 u256 acl (JObj l) = None.
Proof.
  intros I. destruct (call_of_json h160 u64 u256 acl (JObj l)) as [q|] eqn:E; [|done]. exfalso.
  apply C105_call in E as (_ & A & _). apply A, mem_In in I. vm_compute in I. discriminate I.
Qed.
(** Finding: a block by hash with "requireCanonical" (EIP-1898), and the tags "safe" and "finalized", are refused. *)
Theorem C105_canonical_refuted k h j : block_id (JObj [(nm "blockHash", h); (k, j)]) = None.
Proof. unfold block_id. cbn [List.map fst snd]. unfold bid_of_map. change (bid_key_of (nm "blockHash")) with KHash. by destruct h. Qed.
Theorem C105_tags_refuted : block_id (JStr (nm "safe")) = None /\ block_id (JStr (nm "finalized")) = None.
Proof. split; vm_compute; reflexivity. Qed.
(** Finding: "accessList", "nonce", "type" and "maxPriorityFeePerGas" are accepted but the call is the same without them. *)
Theorem C105_ignored_refuted : exists l l' q q', x_call (JObj l) = Some q /\ x_call (JObj l') = Some q' /\ l <> l' /\ q <> q' /\ read_request q = read_request q'.
Proof.
  exists ex_call_json, ((nm "nonce", JStr (nm "0x7")) :: (nm "accessList", JArr []) :: (nm "type", JStr (nm "0x1")) :: ex_call_json). eexists _, _.
  split; [vm_compute; reflexivity|]. split; [vm_compute; reflexivity|]. split; [discriminate|]. split; [discriminate|reflexivity].
Qed.

Print Assumptions C105_bound.
Print Assumptions C105_subscribe.
Print Assumptions C105_subscribe_named.
Print Assumptions C105_call_made.
Print Assumptions C105_matches_partial.
Print Assumptions C105_blocks.
Print Assumptions C105_answer_partial.
Print Assumptions C105_same.
Print Assumptions C105_known.
Print Assumptions C105_known_filter.
Print Assumptions C105_call.
Print Assumptions C105_order_call.
Print Assumptions C105_order.
Print Assumptions C105_array.
Print Assumptions C105_block_id.
Print Assumptions C105_empty_refuted.
Print Assumptions C105_both_refuted.
Print Assumptions C105_typo_refuted.
Print Assumptions C105_input_refuted.
Print Assumptions C105_canonical_refuted.
Print Assumptions C105_tags_refuted.
Print Assumptions C105_ignored_refuted.
