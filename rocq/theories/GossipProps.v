(** C103: how far an accepted transaction spreads. *)
From Verif Require Import NetModel NetProps GossipModel.
From stdpp Require Import base gmap list sets fin_sets.
From Coq Require Import Lia.
#[local] Open Scope N_scope.

(* ---------------------------------------------------------------------- *)
(** * The broadcaster *)

Lemma ball_push c e : ball (bpush c e) ≡ₚ snd e :: ball c.
Proof.
  unfold ball, bpush. destruct e as [o t]. cbn [fst snd]. destruct (c !! o) as [l|] eqn:E; cbn [default].
  - rewrite <- (map_to_list_delete c o l E), <- insert_delete_insert, map_to_list_insert by apply lookup_delete.
    cbn [map concat snd]. rewrite <- app_assoc. cbn [app]. symmetry. apply Permutation_middle.
  - rewrite map_to_list_insert by exact E. reflexivity.
Qed.

Lemma vals_keys (c : bcache) : map (fun o => default [] (c !! o)) (map fst (map_to_list c)) = map snd (map_to_list c).
Proof.
  rewrite map_map. apply map_ext_in. intros [o l] I. apply elem_of_list_In, elem_of_map_to_list in I. cbn. rewrite I. reflexivity.
Qed.

Lemma picks_ok_spec ps c pk : picks_ok ps c pk = true ->
  map pk_origin pk ≡ₚ map fst (map_to_list c) /\ forall p, p ∈ pk -> pk_start p < 3 /\ pk_sessions p ≡ₚ ps.
Proof.
  unfold picks_ok. rewrite andb_true_iff. intros [A B]. apply bool_decide_eq_true in A. split; [exact A|].
  intros p I. rewrite forallb_forall in B. specialize (B p (proj1 (elem_of_list_In _ _) I)). apply andb_true_iff in B as [B C].
  apply bool_decide_eq_true in C. apply N.ltb_lt in B. auto.
Qed.

Lemma concat_perm {A} (l l' : list (list A)) : l ≡ₚ l' -> concat l ≡ₚ concat l'.
Proof.
  induction 1; cbn [concat].
  - reflexivity.
  - by rewrite IHPermutation.
  - rewrite !app_assoc. apply Permutation_app_tail, Permutation_app_comm.
  - etrans; eassumption.
Qed.

Lemma casts_all ps c pk : picks_ok ps c pk = true -> concat (map snd (casts c pk)) ≡ₚ ball c.
Proof.
  intros H. apply picks_ok_spec in H as [A _]. unfold ball, casts. rewrite map_map. cbn [snd].
  rewrite <- (vals_keys c), <- (map_map pk_origin (fun o => default [] (c !! o))). apply concat_perm, Permutation_map, A.
Qed.

Lemma in_posts n c pk s d b : (s, d, b) ∈ posts n c pk <->
  s = n /\ exists p, p ∈ pk /\ b = default [] (c !! pk_origin p) /\ d ∈ gossip_targets (pk_start p) (pk_origin p) (pk_sessions p).
Proof.
  unfold posts. rewrite elem_of_list_In, in_concat. split.
  - intros (l & L & I). apply in_map_iff in L as (p & <- & P). apply in_map_iff in I as (x & [= <- <- <-] & X). split; [reflexivity|].
    exists p. rewrite !elem_of_list_In. auto.
  - intros (-> & p & P & -> & D). exists (map (fun d0 => (n, d0, default [] (c !! pk_origin p))) (gossip_targets (pk_start p) (pk_origin p) (pk_sessions p))).
    split; [apply in_map_iff; exists p; split; [reflexivity|by apply elem_of_list_In]|]. apply in_map_iff. exists d. split; [reflexivity|by apply elem_of_list_In].
Qed.

Lemma in_ball c t : t ∈ ball c <-> exists o b, c !! o = Some b /\ t ∈ b.
Proof.
  unfold ball. rewrite elem_of_list_In, in_concat. split.
  - intros (l & L & I). apply in_map_iff in L as ([o b] & <- & M). apply elem_of_list_In, elem_of_map_to_list in M. exists o, b. rewrite elem_of_list_In. auto.
  - intros (o & b & M & I). exists b. split; [|by apply elem_of_list_In]. apply in_map_iff. exists (o, b). split; [reflexivity|].
    apply elem_of_list_In, elem_of_map_to_list, M.
Qed.

Lemma picked ps c pk o b : picks_ok ps c pk = true -> c !! o = Some b -> exists p, p ∈ pk /\ pk_origin p = o.
Proof.
  intros H M. apply picks_ok_spec in H as [A _]. assert (I : o ∈ map pk_origin pk).
  { rewrite A. apply elem_of_list_In, in_map_iff. exists (o, b). split; [reflexivity|]. apply elem_of_list_In, elem_of_map_to_list, M. }
  apply elem_of_list_In, in_map_iff in I as (p & E & P). exists p. rewrite elem_of_list_In. auto.
Qed.

Lemma bpush_lookup c e o b : bpush c e !! o = Some b -> (o = fst e /\ b = default [] (c !! o) ++ [snd e]) \/ (o <> fst e /\ c !! o = Some b).
Proof.
  unfold bpush. destruct (decide (fst e = o)) as [<-|Ne].
  - rewrite lookup_insert. intros [= <-]. auto.
  - rewrite lookup_insert_ne by exact Ne. auto.
Qed.

Lemma drop_nth_in {A} (i : nat) (l : list A) x : x ∈ drop_nth i l -> x ∈ l.
Proof.
  revert i. induction l as [|y l IH]; intros [|i] H; cbn [drop_nth] in H; [exact H|exact H|by right|].
  apply elem_of_cons in H as [->|H]; [left|right; by eapply IH].
Qed.
Lemma drop_nth_perm {A} (i : nat) (l : list A) x : l !! i = Some x -> l ≡ₚ x :: drop_nth i l.
Proof.
  revert i. induction l as [|y l IH]; intros [|i] H; [discriminate H|discriminate H|cbn in H; injection H as ->; reflexivity|].
  cbn [drop_nth]. cbn in H. rewrite (IH i H) at 1. apply Permutation_swap.
Qed.

(* ---------------------------------------------------------------------- *)
(** * Runs *)

Lemma upd_same f n x : upd f n x n = x.
Proof. unfold upd. by rewrite N.eqb_refl. Qed.
Lemma upd_other f n x m : m <> n -> upd f n x m = f m.
Proof. intros H. unfold upd. by destruct (N.eqb_spec m n). Qed.
Lemma upd_cases f n x m : (m = n /\ upd f n x m = x) \/ (m <> n /\ upd f n x m = f m).
Proof. destruct (decide (m = n)) as [->|Ne]; [left|right]; split; auto; [apply upd_same|by apply upd_other]. Qed.

Lemma run_app peers size fits st es es' : run peers size fits st (es ++ es') =
  match run peers size fits st es with Some st' => run peers size fits st' es' | None => None end.
Proof. revert st. induction es as [|e es IH]; intros st; [reflexivity|]. cbn [run app]. destruct (step peers size fits st e); [apply IH|reflexivity]. Qed.

(** An invariant holds along a run. *)
Lemma run_inv peers size fits (P : net -> Prop) (Q : event -> Prop) st es st' :
  (forall s e s', P s -> Q e -> step peers size fits s e = Some s' -> P s') -> P st -> (forall e, e ∈ es -> Q e) -> run peers size fits st es = Some st' -> P st'.
Proof.
  intros IN. revert st. induction es as [|e es IH]; intros st H HQ R; cbn [run] in R; [by injection R as <-|].
  destruct (step peers size fits st e) as [s1|] eqn:S1; [|discriminate R]. eapply (IH s1); [|intros x X; apply HQ; by right|exact R].
  eapply IN; [exact H|apply HQ; by left|exact S1].
Qed.

Lemma receive_spec b src ts : receive b src ts =
  BNode (b_known b) (b_adm b ++ map (fun t => (Some src, t)) (List.filter (fun t => negb (bool_decide (t ∈ b_known b))) ts)) (b_queue b) (b_cache b) (b_casts b).
Proof.
  unfold receive. revert b. induction ts as [|t ts IH]; intros b; cbn [fold_left List.filter map].
  - destruct b. cbn. by rewrite app_nil_r.
  - unfold begin at 2. destruct (bool_decide (t ∈ b_known b)); cbn [negb]; [apply IH|]. rewrite IH. cbn [b_known b_adm b_queue b_cache b_casts map].
    by rewrite <- app_assoc.
Qed.

(** Everything the broadcaster of a node was ever given. *)
Definition given (b : bnode) : list N := map snd (b_queue b) ++ ball (b_cache b) ++ concat (map snd (b_casts b)).

(** What one step does to one node: it starts admissions, ends one, or passes things through the broadcaster. *)
Inductive nstep : bnode -> bnode -> Prop :=
  | ns_same b : nstep b b
  | ns_begin b new : (forall o t, (o, t) ∈ new -> t ∉ b_known b) -> nstep b (BNode (b_known b) (b_adm b ++ new) (b_queue b) (b_cache b) (b_casts b))
  | ns_refuse b i : nstep b (BNode (b_known b) (drop_nth i (b_adm b)) (b_queue b) (b_cache b) (b_casts b))
  | ns_accept b i o t : b_adm b !! i = Some (o, t) ->
      nstep b (BNode ({[t]} ∪ b_known b) (drop_nth i (b_adm b)) (b_queue b ++ [(o, t)]) (b_cache b) (b_casts b))
  | ns_move b b' : b_known b' = b_known b -> b_adm b' = b_adm b -> given b' ≡ₚ given b -> nstep b b'.

Lemma given_push e q b : b_queue b = e :: q -> given (BNode (b_known b) (b_adm b) q (bpush (b_cache b) e) (b_casts b)) ≡ₚ given b.
Proof.
  intros E. unfold given. cbn [b_queue b_cache b_casts]. rewrite E, ball_push. cbn [map app]. symmetry. apply Permutation_middle.
Qed.
Lemma given_flush peers n b pk b' ms : flush peers n b pk = Some (b', ms) -> given b' ≡ₚ given b /\ b_known b' = b_known b /\ b_adm b' = b_adm b.
Proof.
  unfold flush. destruct (picks_ok (peers n) (b_cache b) pk) eqn:P; [|intros H; discriminate H]. intros [= <- <-]. split; [|auto].
  unfold given. cbn [b_queue b_cache b_casts]. rewrite map_app, concat_app, (casts_all _ _ _ P). change (ball ∅) with (@nil N). cbn [app].
  apply Permutation_app_head, Permutation_app_comm.
Qed.

Lemma step_nstep peers size fits st e st' m : step peers size fits st e = Some st' -> nstep (n_nodes st m) (n_nodes st' m).
Proof.
  destruct e as [n t|n i ok|n ps|n ps|i|i]; cbn [step]; intros H.
  - injection H as <-. cbn [n_nodes]. destruct (upd_cases (n_nodes st) n (begin (n_nodes st n) None t) m) as [[-> ->]|[_ ->]]; [|constructor].
    unfold begin. case_bool_decide; [constructor|]. apply ns_begin. intros o x X. apply elem_of_list_singleton in X. by injection X as -> ->.
  - unfold finish in H. destruct (b_adm (n_nodes st n) !! i) as [[o t]|] eqn:A; [|discriminate H]. injection H as <-. cbn [n_nodes].
    match goal with |- context [upd ?f ?k ?x m] => destruct (upd_cases f k x m) as [[-> ->]|[_ ->]] end; [|constructor].
    destruct ok; [by apply ns_accept|apply ns_refuse].
  - unfold take_next in H. destruct (b_queue (n_nodes st n)) as [|e q] eqn:Q; [discriminate H|]. cbn [b_cache] in H.
    destruct (blen (bpush (b_cache (n_nodes st n)) e) =? size).
    + destruct (flush _ _ _ _) as [[b ms]|] eqn:F; [|discriminate H]. injection H as <-. cbn [n_nodes].
      destruct (upd_cases (n_nodes st) n b m) as [[-> ->]|[_ ->]]; [|constructor]. apply given_flush in F as (F & K & A). cbn [b_known b_adm] in *.
      apply ns_move; [exact K|exact A|]. etrans; [exact F|]. by apply given_push.
    + injection H as <-. cbn [n_nodes]. match goal with |- context [upd ?f ?k ?x m] => destruct (upd_cases f k x m) as [[-> ->]|[_ ->]] end; [|constructor].
      apply ns_move; [reflexivity|reflexivity|]. by apply given_push.
  - destruct (flush _ _ _ _) as [[b ms]|] eqn:F; [|discriminate H]. injection H as <-. cbn [n_nodes].
    destruct (upd_cases (n_nodes st) n b m) as [[-> ->]|[_ ->]]; [|constructor]. apply given_flush in F as (F & K & A). by apply ns_move.
  - destruct (n_flight st !! i) as [[[s d] ts]|]; [|discriminate H]. injection H as <-. cbn [n_nodes]. destruct (fits ts); [|constructor].
    match goal with |- context [upd ?f ?k ?x m] => destruct (upd_cases f k x m) as [[-> ->]|[_ ->]] end; [|constructor].
    rewrite receive_spec. apply ns_begin. intros o x X. apply elem_of_list_In, in_map_iff in X as (y & [= _ ->] & Y). apply filter_In in Y as [_ Y].
    by case_bool_decide.
  - destruct (n_flight st !! i) as [x|]; [|discriminate H]. injection H as <-. constructor.
Qed.

(** The broadcaster passes on exactly what the node accepted. *)
Theorem C103_given peers size fits es st n t : run peers size fits net_new es = Some st ->
  (t ∈ b_known (n_nodes st n) <-> t ∈ given (n_nodes st n)).
Proof.
  intros R. revert n t.
  apply (run_inv peers size fits (fun st => forall n t, t ∈ b_known (n_nodes st n) <-> t ∈ given (n_nodes st n)) (fun _ => True) net_new es st); [|intros n t; cbn; set_solver|auto|exact R].
  intros s e s' IH _ S1 n t. apply (step_nstep _ _ _ _ _ _ n) in S1. specialize (IH n t). revert IH S1. generalize (n_nodes s n) (n_nodes s' n). intros b b' IH NS.
  inversion NS as [b0|b0 new A|b0 i|b0 i o x A|b0 b1 A B C]; subst; cbn [b_known] in *; [exact IH|exact IH|exact IH| |].
  - unfold given in *. cbn [b_queue b_cache b_casts] in *. rewrite map_app, elem_of_union, elem_of_singleton, IH. rewrite !elem_of_app. cbn [map snd].
    rewrite elem_of_list_singleton. tauto.
  - rewrite A, C. exact IH.
Qed.

(** No two admissions of the same transaction run at the same time at a node. *)
Definition calm (st : net) : Prop := forall n, NoDup (map snd (b_adm (n_nodes st n))).
Fixpoint calm_run peers size fits (st : net) (es : list event) : Prop :=
  calm st /\ match es with [] => True | e :: es' => match step peers size fits st e with Some st' => calm_run peers size fits st' es' | None => True end end.

(** Then every transaction is given to the broadcaster, and so broadcast, at most once by a node. *)
Theorem C103_once peers size fits es st n : run peers size fits net_new es = Some st -> calm_run peers size fits net_new es -> NoDup (given (n_nodes st n)).
Proof.
  intros R C.
  assert (G : forall es s, (forall n, NoDup (given (n_nodes s n)) /\ (forall t, t ∈ given (n_nodes s n) <-> t ∈ b_known (n_nodes s n)) /\ forall o t, (o, t) ∈ b_adm (n_nodes s n) -> t ∉ b_known (n_nodes s n)) ->
     calm_run peers size fits s es -> run peers size fits s es = Some st -> NoDup (given (n_nodes st n))).
  { clear R C es. induction es as [|e es IH]; intros s I C R; cbn [run] in R; [injection R as <-; apply I|]. cbn [calm_run] in C. destruct C as [C0 C].
    destruct (step peers size fits s e) as [s1|] eqn:S1; [|discriminate R]. apply (IH s1); [|exact C|exact R]. intros m. pose proof (step_nstep _ _ _ _ _ _ m S1) as NS.
    assert (D : NoDup (map snd (b_adm (n_nodes s1 m)))) by (destruct es; cbn [calm_run] in C; apply C).
    specialize (C0 m). destruct (I m) as (I1 & I2 & I3). clear - NS D C0 I1 I2 I3. revert NS D C0 I1 I2 I3. generalize (n_nodes s m) (n_nodes s1 m). intros b b' NS D C0 I1 I2 I3.
    inversion NS as [b0|b0 new A|b0 i|b0 i o x A|b0 b1 A B C]; subst; cbn [b_known b_adm] in *.
    - auto.
    - split; [exact I1|]. split; [exact I2|]. intros o t X. apply elem_of_app in X as [X|X]; [by eapply I3|by eapply A].
    - split; [exact I1|]. split; [exact I2|]. intros o t X. apply drop_nth_in in X. by eapply I3.
    - pose proof (drop_nth_perm _ _ _ A) as PM. assert (X : x ∉ b_known b) by (apply (I3 o); rewrite PM; left).
      assert (E : given (BNode ({[x]} ∪ b_known b) (drop_nth i (b_adm b)) (b_queue b ++ [(o, x)]) (b_cache b) (b_casts b)) ≡ₚ x :: given b).
      { unfold given. cbn [b_queue b_cache b_casts]. rewrite map_app, <- app_assoc. cbn [map snd app]. symmetry. apply Permutation_middle. }
      split; [rewrite E; constructor; [by rewrite I2|exact I1]|]. split; [intros t; rewrite E, elem_of_cons, I2; set_solver|].
      intros o' t' T. rewrite not_elem_of_union, not_elem_of_singleton. split; [|by eapply I3, drop_nth_in].
      rewrite PM in C0. cbn [map snd] in C0. apply NoDup_cons in C0 as [C0 _]. intros ->. apply C0. apply elem_of_list_In, in_map_iff. exists (o', x). split; [reflexivity|by apply elem_of_list_In].
    - rewrite C. split; [exact I1|]. split; [intros t; rewrite C, A; apply I2|]. intros o t. rewrite A, B. apply I3. }
  apply (G es net_new); [|exact C|exact R]. intros m. cbn. split; [constructor|]. split; [set_solver|]. intros o t X. by apply elem_of_nil in X.
Qed.

(** With a positive batch size no batch is longer than that, and fewer than that many transactions wait. *)
Theorem C103_batch peers size fits es st n : 0 < size -> run peers size fits net_new es = Some st ->
  blen (b_cache (n_nodes st n)) < size /\ forall o b, (o, b) ∈ b_casts (n_nodes st n) -> N.of_nat (length b) <= size.
Proof.
  intros Z R. revert n.
  apply (run_inv peers size fits (fun st => forall n, blen (b_cache (n_nodes st n)) < size /\ forall o b, (o, b) ∈ b_casts (n_nodes st n) -> N.of_nat (length b) <= size) (fun _ => True) net_new es st);
    [|intros n; cbn; split; [exact Z|intros o b X; by apply elem_of_nil in X]|auto|exact R].
  assert (FL : forall n b pk b' ms, blen (b_cache b) <= size -> (forall o l, (o, l) ∈ b_casts b -> N.of_nat (length l) <= size) -> flush peers n b pk = Some (b', ms) ->
    blen (b_cache b') < size /\ forall o l, (o, l) ∈ b_casts b' -> N.of_nat (length l) <= size).
  { intros n b pk b' ms L K. unfold flush. destruct (picks_ok (peers n) (b_cache b) pk) eqn:P; [|intros H; discriminate H]. intros [= <- <-]. cbn [b_cache b_casts]. split; [exact Z|].
    intros o l X. apply elem_of_app in X as [X|X]; [by eapply K|]. pose proof (casts_all _ _ _ P) as CA. apply Permutation_length in CA. unfold blen in L.
    assert (length l <= length (concat (map snd (casts (b_cache b) pk))))%nat; [|lia].
    apply elem_of_list_In in X. apply (in_map snd) in X. cbn [snd] in X. apply in_split in X as (l1 & l2 & E). rewrite E, concat_app, app_length. cbn [concat]. rewrite app_length. lia. }
  intros s e s' IH _ S1 m. destruct e as [n t|n i ok|n ps|n ps|i|i]; cbn [step] in S1.
  - injection S1 as <-. cbn [n_nodes]. match goal with |- context [upd ?f ?k ?x m] => destruct (upd_cases f k x m) as [[-> ->]|[_ ->]] end; [|apply IH].
    unfold begin. case_bool_decide; cbn [b_cache b_casts]; apply IH.
  - unfold finish in S1. destruct (b_adm (n_nodes s n) !! i) as [[o t]|] eqn:A; [|discriminate S1]. injection S1 as <-. cbn [n_nodes].
    match goal with |- context [upd ?f ?k ?x m] => destruct (upd_cases f k x m) as [[-> ->]|[_ ->]] end; [|apply IH]. destruct ok; cbn [b_cache b_casts]; apply IH.
  - unfold take_next in S1. destruct (b_queue (n_nodes s n)) as [|e q] eqn:Q; [discriminate S1|]. cbn [b_cache] in S1. destruct (IH n) as [I1 I2].
    assert (L : blen (bpush (b_cache (n_nodes s n)) e) = blen (b_cache (n_nodes s n)) + 1).
    { unfold blen. rewrite (Permutation_length (ball_push _ _)). cbn [length]. lia. }
    destruct (N.eqb_spec (blen (bpush (b_cache (n_nodes s n)) e)) size) as [EQ|NE].
    + destruct (flush _ _ _ _) as [[b ms]|] eqn:F; [|discriminate S1]. injection S1 as <-. cbn [n_nodes].
      destruct (upd_cases (n_nodes s) n b m) as [[-> ->]|[_ ->]]; [|apply IH]. apply FL in F; [exact F|cbn [b_cache]; lia|exact I2].
    + injection S1 as <-. cbn [n_nodes]. match goal with |- context [upd ?f ?k ?x m] => destruct (upd_cases f k x m) as [[-> ->]|[_ ->]] end; [|apply IH].
      cbn [b_cache b_casts]. split; [lia|exact I2].
  - destruct (flush _ _ _ _) as [[b ms]|] eqn:F; [|discriminate S1]. injection S1 as <-. cbn [n_nodes].
    destruct (upd_cases (n_nodes s) n b m) as [[-> ->]|[_ ->]]; [|apply IH]. destruct (IH n) as [I1 I2]. apply FL in F; [exact F|lia|exact I2].
  - destruct (n_flight s !! i) as [[[a d] ts]|]; [|discriminate S1]. injection S1 as <-. cbn [n_nodes]. destruct (fits ts); [|apply IH].
    match goal with |- context [upd ?f ?k ?x m] => destruct (upd_cases f k x m) as [[-> ->]|[_ ->]] end; [|apply IH]. rewrite receive_spec. cbn [b_cache b_casts]. apply IH.
  - destruct (n_flight s !! i) as [x|]; [|discriminate S1]. injection S1 as <-. apply IH.
Qed.

(* ---------------------------------------------------------------------- *)
(** * Who gets a transaction *)

(** Nothing is under way: no admission runs, and nothing waits in a broadcaster or in the network. *)
Definition quiet (st : net) : Prop :=
  n_flight st = [] /\ forall n, b_adm (n_nodes st n) = [] /\ b_queue (n_nodes st n) = [] /\ b_cache (n_nodes st n) = ∅.

(** Nothing goes wrong: no message is lost and no node refuses a transaction. *)
Definition reliable (e : event) : Prop := match e with Lose _ => False | Finish _ _ ok => ok = true | _ => True end.

Definition knows (st : net) (t n : N) : bool := bool_decide (t ∈ b_known (n_nodes st n)).

(** Where a transaction waits in a node, with the session it came from. *)
Definition waits (b : bnode) (o : option N) (t : N) : Prop := (o, t) ∈ b_queue b \/ exists l, b_cache b !! o = Some l /\ t ∈ l.

(** The transaction is at a node or on its way to it. *)
Definition reached (st : net) (t d : N) : Prop :=
  t ∈ b_known (n_nodes st d) \/ (exists o, (o, t) ∈ b_adm (n_nodes st d)) \/ exists s ts, (s, d, ts) ∈ n_flight st /\ t ∈ ts.

Section Inv.
  Variable peers : N -> list N.
  Variable size : N.
  Variable fits : list N -> bool.

  (** Sources are nodes that know the transaction. *)
  Definition sourced (st : net) : Prop :=
    (forall n p t, (Some p, t) ∈ b_adm (n_nodes st n) -> t ∈ b_known (n_nodes st p)) /\
    (forall n o t, waits (n_nodes st n) o t -> t ∈ b_known (n_nodes st n) /\ forall p, o = Some p -> t ∈ b_known (n_nodes st p)) /\
    (forall s d ts t, (s, d, ts) ∈ n_flight st -> t ∈ ts -> t ∈ b_known (n_nodes st s)).

  (** What a node that knows the transaction has done about it. *)
  Definition told (st : net) (n t : N) : Prop :=
    exists o i ss, i < 3 /\ ss ≡ₚ peers n /\ (forall p, o = Some p -> t ∈ b_known (n_nodes st p)) /\
      forall d, d ∈ gossip_targets i o ss -> reached st t d.
  Definition handled (st : net) : Prop :=
    forall n t, t ∈ b_known (n_nodes st n) -> (exists o, waits (n_nodes st n) o t) \/ told st n t.

  Lemma waits_given b t : (exists o, waits b o t) <-> t ∈ map snd (b_queue b) ++ ball (b_cache b).
  Proof.
    rewrite elem_of_app, in_ball. unfold waits. split.
    - intros [o [H|(l & L & T)]]; [left; apply elem_of_list_In, in_map_iff; exists (o, t); split; [reflexivity|by apply elem_of_list_In]|right; eauto].
    - intros [H|(o & l & L & T)]; [|exists o; right; eauto]. apply elem_of_list_In, in_map_iff in H as ([o x] & <- & H). exists o. left. by apply elem_of_list_In.
  Qed.

  (** The steps of the broadcaster on what waits. *)
  Lemma waits_push b e q o t : b_queue b = e :: q ->
    waits (BNode (b_known b) (b_adm b) q (bpush (b_cache b) e) (b_casts b)) o t <-> waits b o t.
  Proof.
    intros Q. unfold waits. cbn [b_queue b_cache]. rewrite Q, elem_of_cons. split.
    - intros [H|(l & L & T)]; [auto|]. apply bpush_lookup in L as [[-> ->]|[_ L]]; [|eauto]. apply elem_of_app in T as [T|T].
      + destruct (b_cache b !! e.1) as [l|] eqn:E; [right; eauto|by apply elem_of_nil in T].
      + apply elem_of_list_singleton in T as ->. left. left. by destruct e.
    - intros [[<-|H]|(l & L & T)]; [right|by left|right].
      + exists (default [] (b_cache b !! o) ++ [t]). split; [unfold bpush; cbn [fst snd]; by rewrite lookup_insert|]. apply elem_of_app. right. by apply elem_of_list_singleton.
      + unfold bpush. destruct (decide (e.1 = o)) as [<-|Ne].
        * rewrite lookup_insert, L. eexists. split; [reflexivity|]. cbn [default]. apply elem_of_app. by left.
        * rewrite lookup_insert_ne by exact Ne. eauto.
  Qed.

  (** A flush sends what was in the cache. *)
  Lemma flush_spec n b pk b' ms : flush peers n b pk = Some (b', ms) ->
    b_known b' = b_known b /\ b_adm b' = b_adm b /\ b_queue b' = b_queue b /\ b_cache b' = ∅ /\
    (forall o l, b_cache b !! o = Some l -> exists i ss, i < 3 /\ ss ≡ₚ peers n /\ forall d, d ∈ gossip_targets i o ss -> (n, d, l) ∈ ms) /\
    (forall s d ts, (s, d, ts) ∈ ms -> s = n /\ forall t, t ∈ ts -> exists o, waits b o t).
  Proof.
    unfold flush. destruct (picks_ok (peers n) (b_cache b) pk) eqn:P; [|intros H; discriminate H]. intros [= <- <-]. cbn [b_known b_adm b_queue b_cache].
    split; [reflexivity|]. split; [reflexivity|]. split; [reflexivity|]. split; [reflexivity|]. split.
    - intros o l L. destruct (picked _ _ _ _ _ P L) as (p & PI & <-). destruct (picks_ok_spec _ _ _ P) as [_ OK]. destruct (OK p PI) as [A B].
      exists (pk_start p), (pk_sessions p). split; [exact A|]. split; [exact B|]. intros d D. apply in_posts. split; [reflexivity|]. exists p. rewrite L. auto.
    - intros s d ts H. apply in_posts in H as (-> & p & PI & -> & D). split; [reflexivity|]. intros t T. exists (pk_origin p). right.
      destruct (b_cache b !! pk_origin p) as [l|]; [eauto|by apply elem_of_nil in T].
  Qed.

  (** Both branches of the broadcaster's loop. *)
  Definition moved (n : N) (b b' : bnode) (ms : list (N * N * list N)) : Prop :=
    b_known b' = b_known b /\ b_adm b' = b_adm b /\ (forall o t, waits b' o t -> waits b o t) /\
    (forall o t, waits b o t -> waits b' o t \/ exists i ss, i < 3 /\ ss ≡ₚ peers n /\ forall d, d ∈ gossip_targets i o ss -> exists ts, (n, d, ts) ∈ ms /\ t ∈ ts) /\
    (forall s d ts, (s, d, ts) ∈ ms -> s = n /\ forall t, t ∈ ts -> exists o, waits b o t).

  Lemma flush_moved n b b0 pk b' ms : (forall o t, waits b0 o t <-> waits b o t) -> b_known b0 = b_known b -> b_adm b0 = b_adm b ->
    flush peers n b0 pk = Some (b', ms) -> moved n b b' ms.
  Proof.
    intros W K A F. apply flush_spec in F as (K' & A' & Q & C & S1 & S2). split; [by rewrite K'|]. split; [by rewrite A'|].
    assert (W' : forall o t, waits b' o t -> waits b0 o t).
    { intros o t [H|(l & L & _)]; [left; by rewrite <- Q|]. rewrite C, lookup_empty in L. discriminate L. }
    split; [intros o t H; by apply W, W'|]. split.
    - intros o t H. apply W in H as [H|(l & L & T)]; [left; left; by rewrite Q|]. right. destruct (S1 o l L) as (i & ss & I & SS & D). exists i, ss. eauto 6.
    - intros s d ts H. destruct (S2 s d ts H) as [-> H2]. split; [reflexivity|]. intros t T. destruct (H2 t T) as [o O]. exists o. by apply W.
  Qed.

  Lemma take_moved n b pk b' ms : take_next peers size n b pk = Some (b', ms) -> moved n b b' ms.
  Proof.
    unfold take_next. destruct (b_queue b) as [|e q] eqn:Q; [intros H; discriminate H|]. cbn [b_cache].
    pose proof (fun o t => waits_push b e q o t Q) as W.
    destruct (_ =? size).
    - apply flush_moved; [exact W|reflexivity|reflexivity].
    - intros [= <- <-]. split; [reflexivity|]. split; [reflexivity|]. split; [intros o t H; by apply W|]. split; [intros o t H; left; by apply W|].
      intros s d ts H. by apply elem_of_nil in H.
  Qed.
  Lemma tick_moved n b pk b' ms : flush peers n b pk = Some (b', ms) -> moved n b b' ms.
  Proof. apply flush_moved; reflexivity. Qed.

  (** Every step is one of four. *)
  Inductive kind (st : net) : event -> net -> Prop :=
    | k_submit n t : kind st (Submit n t) (Net (upd (n_nodes st) n (begin (n_nodes st n) None t)) (n_flight st))
    | k_finish n i ok b : finish (n_nodes st n) i ok = Some b -> kind st (Finish n i ok) (Net (upd (n_nodes st) n b) (n_flight st))
    | k_move e n b ms : (forall m x, e <> Submit m x) -> moved n (n_nodes st n) b ms -> kind st e (Net (upd (n_nodes st) n b) (n_flight st ++ ms))
    | k_deliver i s d ts : n_flight st !! i = Some (s, d, ts) -> fits ts = true ->
        kind st (Deliver i) (Net (upd (n_nodes st) d (receive (n_nodes st d) s ts)) (drop_nth i (n_flight st)))
    | k_vanish e i s d ts : n_flight st !! i = Some (s, d, ts) -> (e = Lose i \/ fits ts = false) -> (forall m x, e <> Submit m x) -> kind st e (Net (n_nodes st) (drop_nth i (n_flight st))).

  Lemma step_kind st e st' : step peers size fits st e = Some st' -> kind st e st'.
  Proof.
    destruct e as [n t|n i ok|n ps|n ps|i|i]; cbn [step]; intros H.
    - injection H as <-. constructor.
    - destruct (finish (n_nodes st n) i ok) as [b|] eqn:F; [|discriminate H]. injection H as <-. by constructor.
    - destruct (take_next _ _ _ _ _) as [[b ms]|] eqn:F; [|discriminate H]. injection H as <-. apply k_move; [intros; discriminate|]. by apply take_moved in F.
    - destruct (flush _ _ _ _) as [[b ms]|] eqn:F; [|discriminate H]. injection H as <-. apply k_move; [intros; discriminate|]. by apply tick_moved in F.
    - destruct (n_flight st !! i) as [[[s d] ts]|] eqn:L; [|discriminate H]. injection H as <-. destruct (fits ts) eqn:F; [by apply k_deliver|].
      eapply k_vanish; [exact L|by right|intros; discriminate].
    - destruct (n_flight st !! i) as [[[s d] ts]|] eqn:L; [|discriminate H]. injection H as <-. eapply k_vanish; [exact L|by left|intros; discriminate].
  Qed.

  Lemma known_grows st e st' n t : step peers size fits st e = Some st' -> t ∈ b_known (n_nodes st n) -> t ∈ b_known (n_nodes st' n).
  Proof.
    intros S1 T. apply (step_nstep _ _ _ _ _ _ n) in S1. revert S1 T. generalize (n_nodes st n) (n_nodes st' n). intros b b' NS T.
    inversion NS as [b0|b0 new A|b0 i|b0 i o x A|b0 b1 A B C]; subst; cbn [b_known]; [exact T|exact T|exact T|set_solver|by rewrite A].
  Qed.

  (** The admissions after a delivery. *)
  Lemma receive_adm b s ts o t : (o, t) ∈ b_adm (receive b s ts) <-> (o, t) ∈ b_adm b \/ (o = Some s /\ t ∈ ts /\ t ∉ b_known b).
  Proof.
    rewrite receive_spec. cbn [b_adm]. rewrite elem_of_app. split.
    - intros [H|H]; [by left|right]. apply elem_of_list_In, in_map_iff in H as (y & [= <- <-] & Y). apply filter_In in Y as [Y1 Y2]. rewrite elem_of_list_In.
      split; [reflexivity|]. split; [exact Y1|]. by case_bool_decide.
    - intros [H|(-> & T & K)]; [by left|right]. apply elem_of_list_In, in_map_iff. exists t. split; [reflexivity|]. apply filter_In. rewrite <- elem_of_list_In.
      split; [exact T|]. by rewrite bool_decide_eq_false_2.
  Qed.
  Lemma begin_adm b o t o' t' : (o', t') ∈ b_adm (begin b o t) -> (o', t') ∈ b_adm b \/ (o' = o /\ t' = t).
  Proof. unfold begin. case_bool_decide; [auto|]. cbn [b_adm]. rewrite elem_of_app, elem_of_list_singleton. intros [X|X]; [auto|]. injection X as -> ->. auto. Qed.
  Lemma begin_waits b o t o' t' : waits (begin b o t) o' t' <-> waits b o' t'.
  Proof. unfold begin. by case_bool_decide. Qed.
  Lemma receive_waits b s ts o' t' : waits (receive b s ts) o' t' <-> waits b o' t'.
  Proof. by rewrite receive_spec. Qed.
  Lemma begin_known b o t : b_known (begin b o t) = b_known b.
  Proof. unfold begin. by case_bool_decide. Qed.
  Lemma receive_known b s ts : b_known (receive b s ts) = b_known b.
  Proof. by rewrite receive_spec. Qed.

  Lemma finish_spec b i ok b' : finish b i ok = Some b' -> exists o t, b_adm b !! i = Some (o, t) /\ b_adm b' = drop_nth i (b_adm b) /\
    b_known b' = (if ok then {[t]} ∪ b_known b else b_known b) /\ forall o' t', waits b' o' t' <-> waits b o' t' \/ (ok = true /\ o' = o /\ t' = t).
  Proof.
    unfold finish. destruct (b_adm b !! i) as [[o t]|]; [|intros H; discriminate H]. intros [= <-]. exists o, t. split; [reflexivity|].
    destruct ok; (split; [reflexivity|]); (split; [reflexivity|]); intros o' t'; unfold waits; cbn [b_queue b_cache].
    - rewrite elem_of_app, elem_of_list_singleton. split; [intros [[H|H]|H]; auto; injection H as -> ->; auto|].
      intros [[H|H]|(_ & -> & ->)]; auto.
    - split; [auto|]. intros [H|(H & _)]; [exact H|discriminate H].
  Qed.

  Lemma sourced_step st e st' : sourced st -> step peers size fits st e = Some st' -> sourced st'.
  Proof.
    intros (A & W & F) S1. pose proof (fun n t => known_grows _ _ _ n t S1) as G. apply step_kind in S1. destruct S1 as [n t|n i ok b FI|e n b ms _ M|i s d ts L FT|e i s d ts L _ _].
    - cbn [n_nodes n_flight] in *. split; [|split]; cbn [n_nodes n_flight].
      + intros m p x. match goal with |- context [upd ?f ?k ?y m] => destruct (upd_cases f k y m) as [[-> E]|[_ E]] end; rewrite E; intros H; apply G; [|by eapply A].
        apply begin_adm in H as [H|[H _]]; [by eapply A|discriminate H].
      + intros m o x. match goal with |- context [upd ?f ?k ?y m] => destruct (upd_cases f k y m) as [[-> E]|[_ E]] end; rewrite E; intros H.
        * apply begin_waits in H. rewrite begin_known. destruct (W n o x H) as [W1 W2]. split; [exact W1|]. intros p P. apply G. by apply W2.
        * destruct (W m o x H) as [W1 W2]. split; [exact W1|]. intros p P. apply G. by apply W2.
      + intros s d ts x H T. apply G. by eapply F.
    - cbn [n_nodes n_flight] in *. apply finish_spec in FI as (o & t & LA & AD & KN & WA). split; [|split]; cbn [n_nodes n_flight].
      + intros m p x. match goal with |- context [upd ?f ?k ?y m] => destruct (upd_cases f k y m) as [[-> E]|[_ E]] end; rewrite E; intros H; apply G; [|by eapply A].
        rewrite AD in H. apply drop_nth_in in H. by eapply A.
      + intros m o' x. match goal with |- context [upd ?f ?k ?y m] => destruct (upd_cases f k y m) as [[-> E]|[_ E]] end; rewrite E; intros H.
        * apply WA in H as [H|(-> & -> & ->)].
          -- destruct (W n o' x H) as [W1 W2]. split; [rewrite <- E; by apply G|]. intros p P. apply G. by apply W2.
          -- rewrite KN. split; [set_solver|]. intros p ->. apply G. eapply A. by eapply elem_of_list_lookup_2.
        * destruct (W m o' x H) as [W1 W2]. split; [exact W1|]. intros p P. apply G. by apply W2.
      + intros s d ts x H T. apply G. by eapply F.
    - cbn [n_nodes n_flight] in *. destruct M as (K & AD & W1 & _ & MS). split; [|split]; cbn [n_nodes n_flight].
      + intros m p x. match goal with |- context [upd ?f ?k ?y m] => destruct (upd_cases f k y m) as [[-> E]|[_ E]] end; rewrite E; intros H; apply G; [|by eapply A].
        rewrite AD in H. by eapply A.
      + intros m o' x. match goal with |- context [upd ?f ?k ?y m] => destruct (upd_cases f k y m) as [[-> E]|[_ E]] end; rewrite E; intros H.
        * apply W1 in H. destruct (W n o' x H) as [X1 X2]. rewrite K. split; [exact X1|]. intros p P. apply G. by apply X2.
        * destruct (W m o' x H) as [X1 X2]. split; [exact X1|]. intros p P. apply G. by apply X2.
      + intros s d ts x H T. apply G. apply elem_of_app in H as [H|H]; [by eapply F|]. destruct (MS s d ts H) as [-> H2]. destruct (H2 x T) as [o O]. exact (proj1 (W n o x O)).
    - cbn [n_nodes n_flight] in *. apply elem_of_list_lookup_2 in L as LI. split; [|split]; cbn [n_nodes n_flight].
      + intros m p x. match goal with |- context [upd ?f ?k ?y m] => destruct (upd_cases f k y m) as [[-> E]|[_ E]] end; rewrite E; intros H; apply G; [|by eapply A].
        apply receive_adm in H as [H|([= ->] & T & _)]; [by eapply A|by eapply F].
      + intros m o' x. match goal with |- context [upd ?f ?k ?y m] => destruct (upd_cases f k y m) as [[-> E]|[_ E]] end; rewrite E; intros H.
        * apply receive_waits in H. rewrite receive_known. destruct (W d o' x H) as [X1 X2]. split; [exact X1|]. intros p P. apply G. by apply X2.
        * destruct (W m o' x H) as [X1 X2]. split; [exact X1|]. intros p P. apply G. by apply X2.
      + intros s' d' ts' x H T. apply G. apply drop_nth_in in H. by eapply F.
    - cbn [n_nodes n_flight] in *. split; [exact A|]. split; [exact W|]. intros s' d' ts' x H T. apply drop_nth_in in H. by eapply F.
  Qed.

  (** In reliable steps nothing that is on its way is forgotten. *)
  Hypothesis all_fit : forall ts, fits ts = true.
  Lemma reached_step st e st' t d : reliable e -> step peers size fits st e = Some st' -> reached st t d -> reached st' t d.
  Proof.
    intros RE S1 H. pose proof (fun n t => known_grows _ _ _ n t S1) as G. apply step_kind in S1.
    destruct H as [H|[(o & H)|(s & ts & H & T)]]; [left; by apply G| |].
    - destruct S1 as [n x|n i ok b FI|e n b ms _ M|i s0 d0 ts0 L FT|e i s0 d0 ts0 L _ _]; unfold reached; cbn [n_nodes n_flight].
      + right. left. exists o. match goal with |- context [upd ?f ?k ?y d] => destruct (upd_cases f k y d) as [[-> E]|[_ E]] end; rewrite E; [|exact H].
        unfold begin. case_bool_decide; [exact H|]. cbn [b_adm]. apply elem_of_app. by left.
      + match goal with |- context [upd ?f ?k ?y d] => destruct (upd_cases f k y d) as [[-> E]|[_ E]] end; rewrite E; [|right; left; by exists o].
        apply finish_spec in FI as (o' & t' & LA & AD & KN & _). cbn in RE. subst ok. pose proof (drop_nth_perm _ _ _ LA) as PM. rewrite PM in H.
        apply elem_of_cons in H as [[= -> ->]|H]; [left; rewrite KN; set_solver|]. right. left. exists o. by rewrite AD.
      + right. left. exists o. match goal with |- context [upd ?f ?k ?y d] => destruct (upd_cases f k y d) as [[-> E]|[_ E]] end; rewrite E; [|exact H].
        destruct M as (_ & -> & _). exact H.
      + right. left. exists o. match goal with |- context [upd ?f ?k ?y d] => destruct (upd_cases f k y d) as [[-> E]|[_ E]] end; rewrite E; [|exact H].
        apply receive_adm. by left.
      + right. left. by exists o.
    - destruct S1 as [n x|n i ok b FI|e n b ms _ M|i s0 d0 ts0 L FT|e i s0 d0 ts0 L V _]; unfold reached; cbn [n_nodes n_flight].
      + right. right. eauto.
      + right. right. eauto.
      + right. right. exists s, ts. split; [apply elem_of_app; by left|exact T].
      + rewrite (drop_nth_perm _ _ _ L) in H. apply elem_of_cons in H as [[= -> -> ->]|H]; [|right; right; eauto].
        rewrite upd_same, receive_known. destruct (decide (t ∈ b_known (n_nodes st d0))) as [K|K]; [by left|]. right. left. exists (Some s0). apply receive_adm. auto.
      + destruct V as [->|V]; [destruct RE|]. by rewrite all_fit in V.
  Qed.

  Lemma told_step st e st' n t : reliable e -> step peers size fits st e = Some st' -> told st n t -> told st' n t.
  Proof.
    intros RE S1 (o & i & ss & I & SS & O & D). exists o, i, ss. split; [exact I|]. split; [exact SS|]. split; [intros p P; eapply known_grows; [exact S1|by apply O]|].
    intros d X. eapply reached_step; [exact RE|exact S1|by apply D].
  Qed.

  Lemma handled_step st e st' : sourced st -> handled st -> reliable e -> step peers size fits st e = Some st' -> handled st'.
  Proof.
    intros SO H RE S1 n t T. pose proof (fun n t => told_step _ _ _ n t RE S1) as TS. pose proof (fun n t => known_grows _ _ _ n t S1) as G. pose proof (sourced_step _ _ _ SO S1) as SO'.
    apply step_kind in S1.
    destruct S1 as [m x|m i ok b FI|e m b ms _ M|i s0 d0 ts0 L FT|e i s0 d0 ts0 L V _]; cbn [n_nodes n_flight] in *.
    - match type of T with context [upd ?f ?k ?y n] => destruct (upd_cases f k y n) as [[-> E]|[_ E]] end; rewrite E in *.
      + rewrite begin_known in T. destruct (H m t T) as [[o W]|W]; [left; exists o; by apply begin_waits|right; by apply TS].
      + destruct (H n t T) as [W|W]; [by left|right; by apply TS].
    - apply finish_spec in FI as (o' & t' & LA & AD & KN & WA). match type of T with context [upd ?f ?k ?y n] => destruct (upd_cases f k y n) as [[-> E]|[_ E]] end; rewrite E in *.
      + cbn in RE. subst ok. rewrite KN in T. apply elem_of_union in T as [T|T].
        * apply elem_of_singleton in T as ->. left. exists o'. apply WA. auto.
        * destruct (H m t T) as [[o W]|W]; [left; exists o; apply WA; by left|right; by apply TS].
      + destruct (H n t T) as [W|W]; [by left|right; by apply TS].
    - match type of T with context [upd ?f ?k ?y n] => destruct (upd_cases f k y n) as [[-> E]|[_ E]] end; rewrite E in *.
      + destruct M as (K & AD & W1 & W2 & MS). rewrite K in T. destruct (H m t T) as [[o W]|W]; [|right; by apply TS].
        destruct (W2 o t W) as [W'|(i & ss & I & SS & D)]; [left; by exists o|]. right. exists o, i, ss. split; [exact I|]. split; [exact SS|].
        destruct SO as (_ & SW & _). destruct (SW m o t W) as [_ O]. split; [intros p P; apply G; by apply O|].
        intros d X. destruct (D d X) as (ts & Y & Z). right. right. exists m, ts. cbn [n_flight]. split; [apply elem_of_app; by right|exact Z].
      + destruct (H n t T) as [W|W]; [by left|right; by apply TS].
    - match type of T with context [upd ?f ?k ?y n] => destruct (upd_cases f k y n) as [[-> E]|[_ E]] end; rewrite E in *.
      + rewrite receive_known in T. destruct (H d0 t T) as [[o W]|W]; [left; exists o; by apply receive_waits|right; by apply TS].
      + destruct (H n t T) as [W|W]; [by left|right; by apply TS].
    - destruct (H n t T) as [W|W]; [by left|right; by apply TS].
  Qed.
End Inv.

Lemma init_sourced : sourced net_new.
Proof.
  split; [|split].
  - intros n p t H. by apply elem_of_nil in H.
  - intros n o t [H|(l & L & _)]; [by apply elem_of_nil in H|]. change (b_cache (n_nodes net_new n)) with (∅ : bcache) in L. rewrite lookup_empty in L. discriminate L.
  - intros s d ts t H. by apply elem_of_nil in H.
Qed.

Lemma filter_count {A} (f : A -> bool) (l l' : list A) : NoDup l' -> (forall x, x ∈ l' -> x ∈ l /\ f x = true) -> (length l' <= length (List.filter f l))%nat.
Proof.
  intros D H. apply submseteq_length. apply NoDup_submseteq; [exact D|]. intros x X. destruct (H x X) as [A1 A2]. apply elem_of_list_In, filter_In.
  split; [by apply elem_of_list_In|exact A2].
Qed.

Lemma sub_in {A} (l k : list A) x : l `sublist_of` k -> x ∈ l -> x ∈ k.
Proof. intros H X. eapply elem_of_submseteq; [exact X|by apply sublist_submseteq]. Qed.
Lemma sub_nodup {A} (l k : list A) : l `sublist_of` k -> NoDup k -> NoDup l.
Proof.
  induction 1 as [|x l k H IH|x l k H IH]; intros D; [constructor| |]; apply NoDup_cons in D as [D1 D2]; [|by apply IH].
  constructor; [|by apply IH]. intros X. apply D1. by eapply sub_in.
Qed.
Lemma eligible_none ss : length (eligible None ss) = length ss.
Proof. induction ss as [|s ss IH]; cbn; [reflexivity|]. f_equal. exact IH. Qed.
Lemma eligible_out p ss : p ∉ ss -> length (eligible (Some p) ss) = length ss.
Proof.
  induction ss as [|s ss IH]; intros H; [reflexivity|]. apply not_elem_of_cons in H as [H1 H2]. cbn [eligible List.filter]. destruct (N.eqb_spec p s); [contradiction|]. cbn [negb length].
  f_equal. apply IH, H2.
Qed.
Lemma eligible_in p ss : NoDup ss -> p ∈ ss -> length ss = S (length (eligible (Some p) ss)).
Proof.
  induction ss as [|s ss IH]; intros D H; [by apply elem_of_nil in H|]. apply NoDup_cons in D as [D1 D2]. cbn [eligible List.filter length]. destruct (N.eqb_spec p s) as [->|Ne]; cbn [negb].
  - f_equal. symmetry. by apply eligible_out.
  - cbn [length]. f_equal. apply IH; [exact D2|]. by apply elem_of_cons in H as [->|H].
Qed.

(** When nothing goes wrong and everything has come to rest, a node that has the transaction has at least two thirds, rounded down, of its peers
    having it too. *)
Theorem C103_spread_partial peers size fits es st n t : (forall ts, fits ts = true) -> NoDup (peers n) ->
  run peers size fits net_new es = Some st -> (forall e, e ∈ es -> reliable e) -> quiet st -> t ∈ b_known (n_nodes st n) ->
  2 * N.of_nat (length (peers n)) / 3 <= N.of_nat (length (List.filter (knows st t) (peers n))).
Proof.
  intros FT ND R RE QU T.
  assert (H : sourced st /\ handled peers st).
  { refine (run_inv peers size fits (fun s => sourced s /\ handled peers s) reliable net_new es st _ _ RE R).
    - intros s e s' [S0 H0] RL S1. split; [by eapply sourced_step|by eapply handled_step].
    - split; [exact init_sourced|]. intros m x X. cbn in X. set_solver. }
  destruct H as [_ H]. destruct QU as [FL QU]. destruct (H n t T) as [[o [W|(l & L & _)]]|(o & i & ss & I & SS & O & D)].
  - destruct (QU n) as (_ & Q & _). rewrite Q in W. by apply elem_of_nil in W.
  - destruct (QU n) as (_ & _ & C). rewrite C, lookup_empty in L. discriminate L.
  - assert (K : forall d, d ∈ gossip_targets i o ss -> t ∈ b_known (n_nodes st d)).
    { intros d X. destruct (D d X) as [K|[(o' & A)|(s & ts & F & _)]]; [exact K| |].
      - destruct (QU d) as (A' & _). rewrite A' in A. by apply elem_of_nil in A.
      - rewrite FL in F. by apply elem_of_nil in F. }
    assert (NS : NoDup ss) by (by rewrite SS). destruct (C49_gossip i o ss) as [SUB NO]. assert (NT : NoDup (gossip_targets i o ss)) by (by eapply sub_nodup).
    assert (IN : forall d, d ∈ gossip_targets i o ss -> d ∈ peers n /\ knows st t d = true).
    { intros d X. split; [rewrite <- SS; by eapply sub_in|]. unfold knows. apply bool_decide_eq_true_2, K, X. }
    pose proof (C49_gossip_reaches i o ss I) as GR. rewrite <- (Permutation_length SS).
    assert (CASE : (exists p, o = Some p /\ p ∈ ss) \/ length (eligible o ss) = length ss).
    { destruct o as [p|]; [|right; apply eligible_none]. destruct (decide (p ∈ ss)); [left; eauto|right; by apply eligible_out]. }
    destruct CASE as [(p & -> & P)|E].
    + assert (LE : (length (p :: gossip_targets i (Some p) ss) <= length (List.filter (knows st t) (peers n)))%nat).
      { apply filter_count.
        - constructor; [|exact NT]. intros X. eapply (NO p); [reflexivity|by apply elem_of_list_In].
        - intros d X. apply elem_of_cons in X as [->|X]; [|by apply IN]. split; [by rewrite <- SS|]. apply bool_decide_eq_true_2. by apply O. }
      cbn [length] in LE. rewrite (eligible_in p ss NS P). revert GR LE. generalize (length (eligible (Some p) ss)). intros k GR LE. rewrite Nat2N.inj_succ.
      pose proof (N.div_mod (2 * N.of_nat k) 3 ltac:(done)). pose proof (N.mod_lt (2 * N.of_nat k) 3 ltac:(done)).
      assert (2 * N.succ (N.of_nat k) / 3 <= 2 * N.of_nat k / 3 + 1); [|lia].
      apply N.lt_succ_r. apply N.div_lt_upper_bound; [done|]. lia.
    + rewrite E in GR. etrans; [exact GR|]. assert (LE : (length (gossip_targets i o ss) <= length (List.filter (knows st t) (peers n)))%nat) by (by apply filter_count). lia.
Qed.

(** So in a network where all are connected at least two thirds of the other nodes get it. *)
Theorem C103_mesh_partial peers size fits es st L n t : (forall ts, fits ts = true) -> NoDup L -> (forall m, m ∈ L -> peers m = List.filter (fun x => negb (x =? m)) L) ->
  run peers size fits net_new es = Some st -> (forall e, e ∈ es -> reliable e) -> quiet st -> n ∈ L -> t ∈ b_known (n_nodes st n) ->
  1 + 2 * (N.of_nat (length L) - 1) / 3 <= N.of_nat (length (List.filter (knows st t) L)).
Proof.
  intros FT ND PE R RE QU NL T.
  assert (EQ : forall l, List.filter (fun x => negb (x =? n)) l = eligible (Some n) l).
  { intros l. unfold eligible. apply filter_ext. intros x. by rewrite N.eqb_sym. }
  assert (PN : peers n = eligible (Some n) L) by (rewrite PE by exact NL; apply EQ).
  assert (NP : NoDup (peers n)). { rewrite PN. unfold eligible. apply NoDup_ListNoDup, List.NoDup_filter. by apply NoDup_ListNoDup. }
  pose proof (C103_spread_partial peers size fits es st n t FT NP R RE QU T) as S1.
  pose proof (eligible_in n L ND NL) as EL. rewrite <- PN in EL. rewrite EL, Nat2N.inj_succ.
  replace (N.succ (N.of_nat (length (peers n))) - 1) with (N.of_nat (length (peers n))) by lia.
  assert (LE : (length (n :: List.filter (knows st t) (peers n)) <= length (List.filter (knows st t) L))%nat); [|cbn [length] in LE; lia].
  apply filter_count.
  - constructor.
    + intros X. apply elem_of_list_In, filter_In in X as [X _]. rewrite PN in X. unfold eligible in X. apply filter_In in X as [_ X]. by rewrite N.eqb_refl in X.
    + apply NoDup_ListNoDup, List.NoDup_filter. by apply NoDup_ListNoDup.
  - intros d X. apply elem_of_cons in X as [->|X].
    + split; [exact NL|]. by apply bool_decide_eq_true_2.
    + apply elem_of_list_In, filter_In in X as [X1 X2]. split; [|exact X2]. rewrite PN in X1. unfold eligible in X1. apply filter_In in X1 as [X1 _]. by apply elem_of_list_In.
Qed.

(** Where transactions come from: a property of (node, transaction) pairs that submissions have and deliveries keep. *)
Lemma from_inv peers size fits (P : N -> N -> Prop) es st : 
  (forall n t, Submit n t ∈ es -> P n t) -> (forall s d ts t, fits ts = true -> t ∈ ts -> P s t -> P d t) ->
  run peers size fits net_new es = Some st -> forall n t, t ∈ b_known (n_nodes st n) -> P n t.
Proof.
  intros SU DE R.
  assert (H : sourced st /\ (forall n t, t ∈ b_known (n_nodes st n) -> P n t) /\ forall n o t, (o, t) ∈ b_adm (n_nodes st n) -> P n t).
  { refine (run_inv peers size fits (fun s => sourced s /\ (forall n t, t ∈ b_known (n_nodes s n) -> P n t) /\ forall n o t, (o, t) ∈ b_adm (n_nodes s n) -> P n t)
      (fun e => e ∈ es) net_new es st _ _ (fun e H => H) R).
    - intros s e s' (S0 & K & A) EI S1. split; [by eapply sourced_step|]. apply step_kind in S1.
      destruct S1 as [m x|m i ok b FI|e m b ms _ M|i s0 d0 ts0 L FT|e i s0 d0 ts0 L V _]; cbn [n_nodes n_flight] in *.
      + split.
        * intros n t. match goal with |- context [upd ?f ?k ?y n] => destruct (upd_cases f k y n) as [[-> E]|[_ E]] end; rewrite E; [rewrite begin_known|]; apply K.
        * intros n o t. match goal with |- context [upd ?f ?k ?y n] => destruct (upd_cases f k y n) as [[-> E]|[_ E]] end; rewrite E; [|apply A].
          intros X. apply begin_adm in X as [X|[-> ->]]; [by eapply A|]. by apply SU.
      + apply finish_spec in FI as (o' & t' & LA & AD & KN & _). split.
        * intros n t. match goal with |- context [upd ?f ?k ?y n] => destruct (upd_cases f k y n) as [[-> E]|[_ E]] end; rewrite E; [rewrite KN|apply K].
          destruct ok; [|apply K]. intros X. apply elem_of_union in X as [X|X]; [|by apply K]. apply elem_of_singleton in X as ->. eapply A. by eapply elem_of_list_lookup_2.
        * intros n o t. match goal with |- context [upd ?f ?k ?y n] => destruct (upd_cases f k y n) as [[-> E]|[_ E]] end; rewrite E; [|apply A].
          rewrite AD. intros X. apply drop_nth_in in X. by eapply A.
      + destruct M as (KN & AD & _). split.
        * intros n t. match goal with |- context [upd ?f ?k ?y n] => destruct (upd_cases f k y n) as [[-> E]|[_ E]] end; rewrite E; [rewrite KN|]; apply K.
        * intros n o t. match goal with |- context [upd ?f ?k ?y n] => destruct (upd_cases f k y n) as [[-> E]|[_ E]] end; rewrite E; [rewrite AD|]; apply A.
      + split.
        * intros n t. match goal with |- context [upd ?f ?k ?y n] => destruct (upd_cases f k y n) as [[-> E]|[_ E]] end; rewrite E; [rewrite receive_known|]; apply K.
        * intros n o t. match goal with |- context [upd ?f ?k ?y n] => destruct (upd_cases f k y n) as [[-> E]|[_ E]] end; rewrite E; [|apply A].
          intros X. apply receive_adm in X as [X|(-> & X & _)]; [by eapply A|]. eapply DE; [exact FT|exact X|]. apply K. destruct S0 as (_ & _ & S0). eapply S0; [by eapply elem_of_list_lookup_2|exact X].
      + split; [exact K|exact A].
    - split; [exact init_sourced|]. split; cbn; [set_solver|]. intros n o t X. by apply elem_of_nil in X. }
  apply H.
Qed.

(** Nodes only have transactions that were submitted somewhere. *)
Theorem C103_only peers size fits es st n t : run peers size fits net_new es = Some st -> t ∈ b_known (n_nodes st n) -> exists m, Submit m t ∈ es.
Proof. intros R. apply (from_inv peers size fits (fun _ t => exists m, Submit m t ∈ es) es st); [eauto|auto|exact R]. Qed.

(** A transaction that no message can carry stays where it was submitted. *)
Theorem C103_unsendable peers size fits es st n t : (forall ts, t ∈ ts -> fits ts = false) ->
  run peers size fits net_new es = Some st -> t ∈ b_known (n_nodes st n) -> Submit n t ∈ es.
Proof.
  intros NF R T. refine (from_inv peers size fits (fun n x => x = t -> Submit n t ∈ es) es st _ _ R n t T eq_refl).
  - by intros m x X ->.
  - intros s d ts x F X _ ->. by rewrite (NF ts X) in F.
Qed.

(** Nothing about the transaction is under way. *)
Definition silent (st : net) (t : N) : Prop :=
  (forall n o, (o, t) ∉ b_adm (n_nodes st n)) /\ (forall n o, ~ waits (n_nodes st n) o t) /\ forall s d ts, (s, d, ts) ∈ n_flight st -> t ∉ ts.

(** Then nothing that happens later makes another node get it, not even submitting it again to a node that has it. *)
Theorem C103_final peers size fits st t es st' : silent st t -> (forall n, Submit n t ∈ es -> t ∈ b_known (n_nodes st n)) ->
  run peers size fits st es = Some st' -> forall n, t ∈ b_known (n_nodes st' n) <-> t ∈ b_known (n_nodes st n).
Proof.
  intros SI SU R.
  assert (H : silent st' t /\ forall n, t ∈ b_known (n_nodes st' n) <-> t ∈ b_known (n_nodes st n)); [|apply H].
  refine (run_inv peers size fits (fun s => silent s t /\ forall n, t ∈ b_known (n_nodes s n) <-> t ∈ b_known (n_nodes st n)) (fun e => e ∈ es) st es st' _ _ (fun e H => H) R); [|by split].
  intros s e s' [(A & W & F) K] EI S1. apply step_kind in S1.
  destruct S1 as [m x|m i ok b FI|e m b ms _ M|i s0 d0 ts0 L FT|e i s0 d0 ts0 L V _]; unfold silent; cbn [n_nodes n_flight] in *.
  - assert (B : begin (n_nodes s m) None x = n_nodes s m \/ x <> t).
    { destruct (decide (x = t)) as [->|Ne]; [left|by right]. unfold begin. rewrite bool_decide_eq_true_2; [reflexivity|]. apply K, SU, EI. }
    split; [split; [|split; [|exact F]]|].
    + intros n o. match goal with |- context [upd ?f ?k ?y n] => destruct (upd_cases f k y n) as [[-> E]|[_ E]] end; rewrite E; [|apply A]. destruct B as [->|B]; [apply A|].
      intros X. apply begin_adm in X as [X|[_ X]]; [by eapply A|by apply B].
    + intros n o. match goal with |- context [upd ?f ?k ?y n] => destruct (upd_cases f k y n) as [[-> E]|[_ E]] end; rewrite E; [rewrite begin_waits|]; apply W.
    + intros n. match goal with |- context [upd ?f ?k ?y n] => destruct (upd_cases f k y n) as [[-> E]|[_ E]] end; rewrite E; [rewrite begin_known|]; apply K.
  - apply finish_spec in FI as (o' & t' & LA & AD & KN & WA). assert (Ne : t' <> t). { intros ->. eapply A. by eapply elem_of_list_lookup_2. }
    split; [split; [|split; [|exact F]]|].
    + intros n o. match goal with |- context [upd ?f ?k ?y n] => destruct (upd_cases f k y n) as [[-> E]|[_ E]] end; rewrite E; [|apply A]. rewrite AD. intros X. apply drop_nth_in in X. by eapply A.
    + intros n o. match goal with |- context [upd ?f ?k ?y n] => destruct (upd_cases f k y n) as [[-> E]|[_ E]] end; rewrite E; [|apply W].
      rewrite WA. intros [X|(_ & _ & X)]; [by eapply W|by symmetry in X].
    + intros n. match goal with |- context [upd ?f ?k ?y n] => destruct (upd_cases f k y n) as [[-> E]|[_ E]] end; rewrite E; [|apply K]. rewrite KN. destruct ok; [|apply K]. rewrite <- K. set_solver.
  - destruct M as (KN & AD & W1 & _ & MS). split; [split; [|split]|].
    + intros n o. match goal with |- context [upd ?f ?k ?y n] => destruct (upd_cases f k y n) as [[-> E]|[_ E]] end; rewrite E; [rewrite AD|]; apply A.
    + intros n o. match goal with |- context [upd ?f ?k ?y n] => destruct (upd_cases f k y n) as [[-> E]|[_ E]] end; rewrite E; [|apply W]. intros X. by eapply W, W1.
    + intros s0 d ts X. apply elem_of_app in X as [X|X]; [by eapply F|]. destruct (MS s0 d ts X) as [_ H2]. intros T. destruct (H2 t T) as [o O]. by eapply W.
    + intros n. match goal with |- context [upd ?f ?k ?y n] => destruct (upd_cases f k y n) as [[-> E]|[_ E]] end; rewrite E; [rewrite KN|]; apply K.
  - split; [split; [|split]|].
    + intros n o. match goal with |- context [upd ?f ?k ?y n] => destruct (upd_cases f k y n) as [[-> E]|[_ E]] end; rewrite E; [|apply A].
      intros X. apply receive_adm in X as [X|(_ & X & _)]; [by eapply A|]. eapply F; [by eapply elem_of_list_lookup_2|exact X].
    + intros n o. match goal with |- context [upd ?f ?k ?y n] => destruct (upd_cases f k y n) as [[-> E]|[_ E]] end; rewrite E; [rewrite receive_waits|]; apply W.
    + intros s1 d ts X. apply drop_nth_in in X. by eapply F.
    + intros n. match goal with |- context [upd ?f ?k ?y n] => destruct (upd_cases f k y n) as [[-> E]|[_ E]] end; rewrite E; [rewrite receive_known|]; apply K.
  - split; [|exact K]. split; [exact A|]. split; [exact W|]. intros s1 d ts X. apply drop_nth_in in X. by eapply F.
Qed.

(* ---------------------------------------------------------------------- *)
(** * No network is safe *)

(** The sessions of a node asked in an order, and with a start, that leave [v] out. *)
Definition avoiding (v : N) (ps : list N) : list N := if bool_decide (v ∈ ps) then v :: eligible (Some v) ps else ps.
Lemma avoiding_perm v ps : NoDup ps -> avoiding v ps ≡ₚ ps.
Proof.
  unfold avoiding. case_bool_decide as V; [|reflexivity]. revert V. induction ps as [|s ps IH]; intros V D; [by apply elem_of_nil in V|].
  apply NoDup_cons in D as [D1 D2]. cbn [eligible List.filter]. destruct (N.eqb_spec v s) as [->|Ne]; cbn [negb].
  - f_equiv. clear - D1. induction ps as [|x ps IH]; [reflexivity|]. apply not_elem_of_cons in D1 as [D1 D2]. cbn [List.filter]. destruct (N.eqb_spec s x); [contradiction|]. cbn [negb].
    f_equiv. by apply IH.
  - rewrite Permutation_swap. f_equiv. apply IH; [|exact D2]. by apply elem_of_cons in V as [->|V].
Qed.
Lemma avoiding_misses v ps o : v ∉ gossip_targets 2 o (avoiding v ps).
Proof.
  unfold avoiding. case_bool_decide as V.
  - assert (N1 : forall i, v ∉ gossip_targets i o (eligible (Some v) ps)).
    { intros i X. destruct (C49_gossip i o (eligible (Some v) ps)) as [S1 _]. eapply sub_in in X; [|exact S1]. apply elem_of_list_In, filter_In in X as [_ X]. by rewrite N.eqb_refl in X. }
    rewrite gossip_step. change (2 <? 2) with false. destruct o as [p|]; [destruct (p =? v)|]; apply N1.
  - intros X. apply V. destruct (C49_gossip 2 o ps) as [S1 _]. by eapply sub_in.
Qed.

Definition ignorant (l : list N) (t : N) (st : net) : nat := length (List.filter (fun n => negb (knows st t n)) l).
Lemma ignorant_cons n l t st : ignorant (n :: l) t st = ((if knows st t n then 0 else 1) + ignorant l t st)%nat.
Proof. unfold ignorant. cbn [List.filter]. by destruct (knows st t n). Qed.
Lemma ignorant_le l t st st' : (forall m, t ∈ b_known (n_nodes st m) -> t ∈ b_known (n_nodes st' m)) -> (ignorant l t st' <= ignorant l t st)%nat.
Proof.
  intros H. induction l as [|n l IH]; [reflexivity|]. rewrite !ignorant_cons. unfold knows. specialize (H n).
  destruct (decide (t ∈ b_known (n_nodes st n))) as [A|A].
  - rewrite !bool_decide_eq_true_2 by auto. exact IH.
  - rewrite (bool_decide_eq_false_2 _ A). destruct (bool_decide _); lia.
Qed.
Lemma ignorant_lt l t st st' d : (forall m, t ∈ b_known (n_nodes st m) -> t ∈ b_known (n_nodes st' m)) -> d ∈ l -> t ∉ b_known (n_nodes st d) -> t ∈ b_known (n_nodes st' d) ->
  (ignorant l t st' < ignorant l t st)%nat.
Proof.
  intros H DL D1 D2. induction l as [|n l IH]; [by apply elem_of_nil in DL|]. rewrite !ignorant_cons. unfold knows. apply elem_of_cons in DL as [->|DL].
  - rewrite (bool_decide_eq_true_2 _ D2), (bool_decide_eq_false_2 _ D1). pose proof (ignorant_le l t st st' H). lia.
  - specialize (IH DL). specialize (H n). destruct (decide (t ∈ b_known (n_nodes st n))) as [A|A].
    + rewrite !bool_decide_eq_true_2 by auto. exact IH.
    + rewrite (bool_decide_eq_false_2 _ A). destruct (bool_decide _); lia.
Qed.

Section Missed.
  Variable peers : N -> list N.
  Variable size : N.
  Variable fits : list N -> bool.
  Variable L : list N.
  Variables v t : N.
  Hypothesis size_not_one : size <> 1.
  Hypothesis peers_nodup : forall n, NoDup (peers n).
  Hypothesis closed : forall n m, n ∈ L -> m ∈ peers n -> m ∈ L.
  #[local] Notation run := (run peers size fits).

  (** Between two messages: nothing runs, and the messages under way are for others. *)
  Definition resting (st : net) : Prop :=
    (forall n, b_adm (n_nodes st n) = [] /\ b_queue (n_nodes st n) = [] /\ b_cache (n_nodes st n) = ∅) /\
    (forall s d ts, (s, d, ts) ∈ n_flight st -> ts = [t] /\ d <> v /\ d ∈ L) /\ t ∉ b_known (n_nodes st v).
  Definition good (e : event) : Prop := match e with Submit _ _ => False | _ => reliable e end.

  (** A node with the transaction in its admission passes it on without [v]. *)
  Lemma accepts st n o : n ∈ L -> n <> v ->
    (forall m, m <> n -> b_adm (n_nodes st m) = [] /\ b_queue (n_nodes st m) = [] /\ b_cache (n_nodes st m) = ∅) ->
    b_adm (n_nodes st n) = [(o, t)] -> b_queue (n_nodes st n) = [] -> b_cache (n_nodes st n) = ∅ ->
    (forall s d ts, (s, d, ts) ∈ n_flight st -> ts = [t] /\ d <> v /\ d ∈ L) -> t ∉ b_known (n_nodes st v) ->
    exists es st', run st es = Some st' /\ (forall e, e ∈ es -> good e) /\ resting st' /\ t ∈ b_known (n_nodes st' n) /\ forall m, m <> n -> b_known (n_nodes st' m) = b_known (n_nodes st m).
  Proof.
    intros NL NV OT A Q C FL KV. set (pk := [Pick o 2 (avoiding v (peers n))]).
    exists [Finish n 0 true; Take n []; Tick n pk]. cbn [run step]. unfold finish. rewrite A. cbn [lookup list_lookup]. rewrite Q. cbn [app n_nodes n_flight].
    rewrite upd_same. unfold take_next. cbn [b_queue b_known b_adm b_cache b_casts]. rewrite C.
    assert (BL : blen (bpush ∅ (o, t)) = 1). { unfold blen. rewrite (Permutation_length (ball_push _ _)). reflexivity. }
    rewrite BL. destruct (N.eqb_spec 1 size) as [E|_]; [by symmetry in E|]. cbn [n_nodes n_flight]. rewrite upd_same. unfold flush. cbn [b_queue b_known b_adm b_cache b_casts].
    assert (PU : bpush ∅ (o, t) = {[o := [t]]}). { unfold bpush. cbn [fst snd]. rewrite lookup_empty. reflexivity. }
    assert (OK : picks_ok (peers n) (bpush ∅ (o, t)) pk = true).
    { unfold picks_ok, pk. rewrite PU, map_to_list_singleton. cbn [map fst pk_origin forallb pk_start pk_sessions]. rewrite !bool_decide_eq_true_2; [reflexivity|by apply avoiding_perm|reflexivity]. }
    rewrite OK. eexists. split; [reflexivity|]. split.
    { intros e X. apply elem_of_cons in X as [->|X]; [reflexivity|]. apply elem_of_cons in X as [->|X]; [exact I|]. apply elem_of_list_singleton in X as ->. exact I. }
    cbn [n_nodes n_flight drop_nth]. split; [|split].
    - split; [|split]; cbn [n_nodes n_flight].
      + intros m. match goal with |- context [upd ?f ?k ?y m] => destruct (upd_cases f k y m) as [[-> E]|[Ne E]] end; rewrite E; cbn [b_adm b_queue b_cache]; [auto|].
        rewrite !upd_other by exact Ne. by apply OT.
      + intros s d ts X. rewrite app_nil_r in X. apply elem_of_app in X as [X|X]; [by eapply FL|]. apply in_posts in X as (-> & p & P & -> & D). apply elem_of_list_singleton in P as ->.
        cbn [pk_origin pk_start pk_sessions] in *. rewrite PU, lookup_singleton. cbn [default]. split; [reflexivity|]. split; [intros ->; by apply avoiding_misses in D|].
        apply (closed n); [exact NL|]. rewrite <- (avoiding_perm v (peers n) (peers_nodup n)). destruct (C49_gossip 2 o (avoiding v (peers n))) as [S1 _]. by eapply sub_in.
      + rewrite !upd_other by (intros X; by apply NV). exact KV.
    - rewrite upd_same. cbn [b_known]. set_solver.
    - intros m Ne. by rewrite !upd_other by exact Ne.
  Qed.

  (** One message is dealt with. *)
  Lemma one_message st s d fl : resting st -> n_flight st = (s, d, [t]) :: fl ->
    exists es st', run st es = Some st' /\ (forall e, e ∈ es -> good e) /\ resting st' /\
      ((n_flight st' = fl /\ forall m, b_known (n_nodes st' m) = b_known (n_nodes st m)) \/
       (d ∈ L /\ t ∉ b_known (n_nodes st d) /\ t ∈ b_known (n_nodes st' d) /\ forall m, m <> d -> b_known (n_nodes st' m) = b_known (n_nodes st m))).
  Proof.
    intros (E & FL & KV) F. assert (D : d <> v /\ d ∈ L) by (eapply FL; rewrite F; left).
    assert (FL' : forall s d ts, (s, d, ts) ∈ fl -> ts = [t] /\ d <> v /\ d ∈ L) by (intros a b c X; apply (FL a); rewrite F; by right).
    assert (ST : step peers size fits st (Deliver 0) = Some (Net (if fits [t] then upd (n_nodes st) d (receive (n_nodes st d) s [t]) else n_nodes st) fl)).
    { cbn [step]. rewrite F. reflexivity. }
    assert (NOP : (if fits [t] then upd (n_nodes st) d (receive (n_nodes st d) s [t]) else n_nodes st) = n_nodes st \/ fits [t] = true) by (destruct (fits [t]); auto).
    destruct (fits [t]) eqn:FT.
    - destruct (decide (t ∈ b_known (n_nodes st d))) as [K|K].
      + assert (RC : receive (n_nodes st d) s [t] = n_nodes st d). { unfold receive. cbn [fold_left]. unfold begin. by rewrite bool_decide_eq_true_2. }
        assert (SAME : forall m, upd (n_nodes st) d (receive (n_nodes st d) s [t]) m = n_nodes st m).
        { intros m. destruct (upd_cases (n_nodes st) d (receive (n_nodes st d) s [t]) m) as [[-> ->]|[_ ->]]; [exact RC|reflexivity]. }
        eexists [Deliver 0], _. split; [cbn [run]; rewrite ST; reflexivity|]. split; [intros e X; apply elem_of_list_singleton in X as ->; exact I|]. cbn [n_nodes n_flight]. split.
        * split; [|split]; cbn [n_nodes n_flight]; [intros m; rewrite SAME; apply E|exact FL'|by rewrite SAME].
        * left. split; [reflexivity|]. intros m. by rewrite SAME.
      + destruct (E d) as (EA & EQ & EC).
        assert (RC : receive (n_nodes st d) s [t] = BNode (b_known (n_nodes st d)) [(Some s, t)] [] ∅ (b_casts (n_nodes st d))).
        { unfold receive. cbn [fold_left]. unfold begin. rewrite bool_decide_eq_false_2 by exact K. by rewrite EA, EQ, EC. }
        destruct (accepts (Net (upd (n_nodes st) d (receive (n_nodes st d) s [t])) fl) d (Some s)) as (es & st' & R & G & RS & KD & KM); cbn [n_nodes n_flight].
        * apply D. * apply D.
        * intros m Ne. rewrite upd_other by exact Ne. apply E.
        * rewrite upd_same, RC. reflexivity. * rewrite upd_same, RC. reflexivity. * rewrite upd_same, RC. reflexivity.
        * exact FL'. * rewrite upd_other by (intros X; by apply (proj1 D)). exact KV.
        * exists (Deliver 0 :: es), st'. split; [cbn [run]; rewrite ST; exact R|]. split; [intros e X; apply elem_of_cons in X as [->|X]; [exact I|by apply G]|]. split; [exact RS|].
          right. split; [apply D|]. split; [exact K|]. split; [exact KD|]. intros m Ne. rewrite KM by exact Ne. cbn [n_nodes]. by rewrite upd_other.
    - eexists [Deliver 0], _. split; [cbn [run]; rewrite ST; reflexivity|]. split; [intros e X; apply elem_of_list_singleton in X as ->; exact I|]. cbn [n_nodes n_flight]. split.
      + split; [|split]; cbn [n_nodes n_flight]; [exact E|exact FL'|exact KV].
      + left. auto.
  Qed.

  (** All messages are dealt with. *)
  Lemma all_messages k : forall st, (ignorant L t st < k)%nat -> resting st ->
    exists es st', run st es = Some st' /\ (forall e, e ∈ es -> good e) /\ resting st' /\ n_flight st' = [] /\ forall m, t ∈ b_known (n_nodes st m) -> t ∈ b_known (n_nodes st' m).
  Proof.
    induction k as [|k IH]; [lia|]. intros st. remember (length (n_flight st)) as j eqn:J. revert st J. induction j as [|j IHj]; intros st J IG RS.
    - exists [], st. cbn [run]. split; [reflexivity|]. split; [intros e X; by apply elem_of_nil in X|]. split; [exact RS|]. split; [|auto]. destruct (n_flight st); [reflexivity|discriminate J].
    - destruct (n_flight st) as [|[[s d] ts] fl] eqn:F; [discriminate J|].
      assert (ts = [t]) as ->. { destruct RS as (_ & FL & _). eapply FL. rewrite F. left. }
      destruct (one_message st s d fl RS F) as (es & st1 & R1 & G1 & RS1 & [[F1 K1]|(DL & D1 & D2 & K1)]).
      + destruct (IHj st1) as (es2 & st2 & R2 & G2 & RS2 & F2 & K2).
        * rewrite F1. cbn in J. lia.
        * assert (ignorant L t st1 <= ignorant L t st)%nat; [|lia]. apply ignorant_le. intros m. by rewrite K1.
        * exact RS1.
        * exists (es ++ es2), st2. rewrite run_app, R1. split; [exact R2|]. split; [intros e X; apply elem_of_app in X as [X|X]; auto|]. split; [exact RS2|]. split; [exact F2|].
          intros m M. apply K2. by rewrite K1.
      + assert (MON : forall m, t ∈ b_known (n_nodes st m) -> t ∈ b_known (n_nodes st1 m)). { intros m M. destruct (decide (m = d)) as [->|Ne]; [exact D2|by rewrite K1]. }
        destruct (IH st1) as (es2 & st2 & R2 & G2 & RS2 & F2 & K2); [|exact RS1|].
        * pose proof (ignorant_lt L t st st1 d MON DL D1 D2). lia.
        * exists (es ++ es2), st2. rewrite run_app, R1. split; [exact R2|]. split; [intros e X; apply elem_of_app in X as [X|X]; auto|]. split; [exact RS2|]. split; [exact F2|]. auto.
  Qed.
End Missed.

(** Finding: in every network and for every node other than the one it was submitted to, there are random choices with which that node never gets
    the transaction although no message is lost and nobody refuses it. *)
Theorem C103_missed_refuted peers size fits (L : list N) s v t : size <> 1 -> (forall n, NoDup (peers n)) -> (forall n m, n ∈ L -> m ∈ peers n -> m ∈ L) -> s ∈ L -> v <> s ->
  exists es st, run peers size fits net_new (Submit s t :: es) = Some st /\ (forall e, e ∈ es -> good e) /\ quiet st /\
    t ∈ b_known (n_nodes st s) /\ t ∉ b_known (n_nodes st v).
Proof.
  intros Z ND CL SL VS.
  destruct (accepts peers size fits L v t Z ND CL (Net (upd (n_nodes net_new) s (begin (n_nodes net_new s) None t)) []) s None) as (es & st & R & G & RS & KS & KM); cbn [n_nodes n_flight].
  - exact SL. - intros X; by apply VS.
  - intros m Ne. rewrite upd_other by exact Ne. auto.
  - rewrite upd_same. unfold begin. rewrite bool_decide_eq_false_2; [reflexivity|]. cbn. set_solver.
  - rewrite upd_same. unfold begin. by case_bool_decide.
  - rewrite upd_same. unfold begin. by case_bool_decide.
  - intros a b c X. by apply elem_of_nil in X.
  - rewrite upd_other by exact VS. cbn. set_solver.
  - destruct (all_messages peers size fits L v t Z ND CL (S (ignorant L t st)) st ltac:(lia) RS) as (es2 & st2 & R2 & G2 & RS2 & F2 & K2).
    exists (es ++ es2), st2. split; [cbn [run step]; rewrite run_app; change (n_flight net_new) with (@nil (N * N * list N)); rewrite R; exact R2|].
    split; [intros e X; apply elem_of_app in X as [X|X]; auto|]. destruct RS2 as (E & _ & KV). split; [split; [exact F2|exact E]|]. split; [by apply K2|exact KV].
Qed.

(* ---------------------------------------------------------------------- *)
(** * Witnesses *)

Definition holds (o : option net) (P : net -> bool) : bool := match o with Some st => P st | None => false end.
Lemma holds_ex peers size fits es P : holds (run peers size fits net_new es) P = true -> exists st, run peers size fits net_new es = Some st /\ P st = true.
Proof. unfold holds. destruct (run peers size fits net_new es) as [st|]; [eauto|intros H; discriminate H]. Qed.

Definition rel (e : event) : bool := match e with Lose _ => false | Finish _ _ ok => ok | _ => true end.
Lemma rel_all es : forallb rel es = true -> forall e, e ∈ es -> reliable e.
Proof. rewrite forallb_forall. intros H e X. apply elem_of_list_In in X. specialize (H e X). destruct e; try exact I; [exact H|discriminate H]. Qed.

(** The four validators of the test network, each connected to the other three. *)
Definition four (n : N) : list N := if (1 <=? n) && (n <=? 4) then List.filter (fun x => negb (x =? n)) [1; 2; 3; 4] else [].
Definition any (_ : list N) : bool := true.
(** submitted at 1, the first broadcast goes to 2 and 3, and these two only tell each other *)
Definition unlucky : list event :=
  [Submit 1 7; Finish 1 0 true; Take 1 []; Tick 1 [Pick None 0 [2; 3; 4]];
   Deliver 0; Deliver 0; Finish 2 0 true; Take 2 []; Tick 2 [Pick (Some 1) 1 [1; 3; 4]]; Finish 3 0 true; Take 3 []; Tick 3 [Pick (Some 1) 1 [1; 2; 4]];
   Deliver 0; Deliver 0].
Definition still (st : net) : bool :=
  bool_decide (n_flight st = []) && forallb (fun n => bool_decide (b_adm (n_nodes st n) = []) && bool_decide (b_queue (n_nodes st n) = []) && bool_decide (b_cache (n_nodes st n) = ∅)) [1; 2; 3; 4].

(** [C103_mesh_partial] is exact here: three of four get it. *)
Example ex_four : holds (run four 200 any net_new unlucky) (fun st => still st && knows st 7 1 && knows st 7 2 && knows st 7 3 && negb (knows st 7 4)) = true.
Proof. vm_compute. reflexivity. Qed.
(** With other choices all get it. *)
Example ex_lucky : holds (run four 200 any net_new
  [Submit 1 7; Finish 1 0 true; Take 1 []; Tick 1 [Pick None 0 [2; 3; 4]]; Deliver 0; Finish 2 0 true; Take 2 []; Tick 2 [Pick (Some 1) 0 [1; 3; 4]];
   Deliver 2; Deliver 1; Deliver 0; Finish 4 0 true; Finish 3 0 true; Finish 3 0 true])
  (fun st => forallb (knows st 7) [1; 2; 3; 4]) = true.
Proof. vm_compute. reflexivity. Qed.

(** Finding: two copies of a transaction that arrive together are both admitted and both passed on. *)
Theorem C103_twice_refuted : exists peers size es st n t, (forall ts, any ts = true) /\ run peers size any net_new es = Some st /\ (forall e, e ∈ es -> reliable e) /\
  given (n_nodes st n) = [t; t].
Proof.
  assert (H : holds (run four 200 any net_new
    [Submit 1 7; Finish 1 0 true; Take 1 []; Tick 1 [Pick None 0 [2; 3; 4]]; Deliver 0; Finish 2 0 true; Take 2 []; Tick 2 [Pick (Some 1) 0 [1; 3; 4]];
     Deliver 1; Deliver 0; Finish 3 0 true; Finish 3 0 true]) (fun st => bool_decide (given (n_nodes st 3) = [7; 7])) = true) by (vm_compute; reflexivity).
  apply holds_ex in H as (st & R & G). apply bool_decide_eq_true in G. eexists four, 200, _, st, 3, 7. split; [reflexivity|]. split; [exact R|]. split; [|exact G]. apply rel_all. reflexivity.
Qed.

(** Finding: transactions are batched without regard to their size, so two that can each be sent are both lost when they are sent together. *)
Theorem C103_crowded_refuted : exists peers size fits es st t1 t2, fits [t1] = true /\ fits [t2] = true /\ run peers size fits net_new es = Some st /\ (forall e, e ∈ es -> reliable e) /\
  quiet st /\ peers 1 = [2] /\ t1 ∈ b_known (n_nodes st 1) /\ t2 ∈ b_known (n_nodes st 1) /\ t1 ∉ b_known (n_nodes st 2) /\ t2 ∉ b_known (n_nodes st 2).
Proof.
  set (peers := fun n => if n =? 1 then [2] else if n =? 2 then [1] else []).
  (* t stands for its size in MiB *)
  set (fits := fun ts : list N => fold_left N.add ts 0 <=? 8).
  set (es := [Submit 1 5; Submit 1 6; Finish 1 0 true; Finish 1 0 true; Take 1 []; Take 1 []; Tick 1 [Pick None 0 [2]]; Deliver 0]).
  assert (H : holds (run peers 200 fits net_new es) (fun st => still st && knows st 5 1 && knows st 6 1 && negb (knows st 5 2) && negb (knows st 6 2)) = true) by (vm_compute; reflexivity).
  apply holds_ex in H as (st & R & G). exists peers, 200, fits, es, st, 5, 6. rewrite !andb_true_iff, !negb_true_iff in G. destruct G as ((((S1 & K1) & K2) & K3) & K4).
  unfold knows in *. apply bool_decide_eq_true in K1, K2. apply bool_decide_eq_false in K3, K4.
  split; [reflexivity|]. split; [reflexivity|]. split; [exact R|]. split; [apply rel_all; reflexivity|].
  split; [|split; [reflexivity|auto]].
  unfold still in S1. apply andb_true_iff in S1 as [F S1]. apply bool_decide_eq_true in F. split; [exact F|].
  assert (N1 : b_adm (n_nodes st 1) = [] /\ b_queue (n_nodes st 1) = [] /\ b_cache (n_nodes st 1) = ∅).
  { cbn [forallb] in S1. apply andb_true_iff in S1 as [S1 _]. rewrite !andb_true_iff in S1. destruct S1 as [[A B] C]. apply bool_decide_eq_true in A, B, C. auto. }
  assert (N2 : forall n, n <> 1 -> n_nodes st n = bnode_new).
  { intros n Ne. assert (OT : forall f x, upd f 1 x n = f n) by (intros f x; by apply upd_other). vm_compute in R. injection R as <-. cbn [n_nodes].
    destruct n as [|p]; [reflexivity|]. destruct p; try reflexivity. by destruct Ne. }
  intros n. destruct (decide (n = 1)) as [->|Ne]; [exact N1|]. rewrite (N2 n Ne). auto.
Qed.

(* ---------------------------------------------------------------------- *)
(** * The transport *)

(** No message longer than 8 MiB arrives, however well it is compressed. *)
Theorem C103_carried sn data : snappy_ok sn -> 8388608 < Bytes.len data -> carried sn data = false.
Proof.
  intros OK L. unfold carried, compress, decompress, msg_compress, from_raw.
  assert (LI : Bytes.len (UNCOMPRESS_FLAG :: data) = Bytes.len data + 1) by (unfold Bytes.len; cbn [length]; lia).
  rewrite LI. destruct (N.ltb_spec COMPRESSION_SIZE_THRESHOLD (Bytes.len data + 1)) as [_|X]; [|unfold COMPRESSION_SIZE_THRESHOLD in X; lia].
  cbn [drop]. rewrite drop_0. destruct (sn_compress sn data) as [res|] eqn:C.
  - apply andb_false_iff. right. unfold msg_decompress. change (compress_flag (COMPRESS_FLAG :: res)) with true. cbn iota.
    destruct (sn_round sn OK _ _ C) as [-> _]. destruct (N.ltb_spec MAX_UNCOMPRESSED_LEN (Bytes.len data)) as [_|X]; [reflexivity|unfold MAX_UNCOMPRESSED_LEN in X; lia].
  - apply andb_false_iff. left. rewrite LI. apply N.leb_gt. unfold MAX_FRAME. lia.
Qed.
(** A message arrives exactly when what is put on the wire is less than 4 MiB and its flag, and it is not longer than 8 MiB itself; up to 1022 bytes nothing
    is compressed. *)
Theorem C103_frame sn data : snappy_ok sn -> carried sn data = true <->
  (Bytes.len data < 1024 \/ sn_compress sn data = None) /\ Bytes.len data < 4194304 \/
  exists z, 1024 <= Bytes.len data /\ sn_compress sn data = Some z /\ Bytes.len z < 4194304 /\ Bytes.len data <= 8388608.
Proof.
  intros OK. unfold carried, compress, decompress, msg_compress, from_raw.
  assert (LI : forall f x, Bytes.len (f :: x : Bytes.bytes) = Bytes.len x + 1) by (intros f x; unfold Bytes.len; cbn [length]; lia).
  assert (RAW : forall x, Bytes.len x < 4194304 <-> (Bytes.len (UNCOMPRESS_FLAG :: x) <=? MAX_FRAME) &&
     match msg_decompress sn (UNCOMPRESS_FLAG :: x) with TxModel.Ok _ => true | _ => false end = true).
  { intros x. unfold msg_decompress. change (compress_flag (UNCOMPRESS_FLAG :: x)) with false. cbn iota. rewrite andb_true_r, LI, N.leb_le. unfold MAX_FRAME. lia. }
  rewrite LI. destruct (N.ltb_spec COMPRESSION_SIZE_THRESHOLD (Bytes.len data + 1)) as [L|L]; unfold COMPRESSION_SIZE_THRESHOLD in L.
  - cbn [drop]. rewrite drop_0. destruct (sn_compress sn data) as [res|] eqn:C.
    + unfold msg_decompress. change (compress_flag (COMPRESS_FLAG :: res)) with true. cbn iota. destruct (sn_round sn OK _ _ C) as [-> D].
      rewrite andb_true_iff, LI, N.leb_le. unfold MAX_FRAME. destruct (N.ltb_spec MAX_UNCOMPRESSED_LEN (Bytes.len data)) as [M|M]; unfold MAX_UNCOMPRESSED_LEN in M.
      * split; [intros [_ X]; discriminate X|]. intros [[[X|X] _]|(z & _ & _ & _ & X)]; [lia|discriminate X|lia].
      * rewrite D. split; [intros [X _]; right; exists res; repeat split; lia|]. intros [[[X|X] _]|(z & _ & X & Y & _)]; [lia|discriminate X|].
        injection X as <-. split; [lia|done].
    + rewrite <- RAW. split; [intros X; left; split; [by right|exact X]|]. intros [[_ X]|(z & _ & X & _)]; [exact X|discriminate X].
  - rewrite <- RAW. split; [intros X; left; split; [left; lia|exact X]|]. intros [[_ X]|(z & X & _)]; [exact X|lia].
Qed.
Example ex_carried : carried stored [1; 2; 3] = true.
Proof. vm_compute. reflexivity. Qed.

Example ex_calm : calm_run four 200 any net_new [Submit 1 7; Finish 1 0 true; Submit 1 7; Take 1 []].
Proof.
  assert (C : forall f n x, (forall m, NoDup (map snd (b_adm (f m)))) -> NoDup (map snd (b_adm x)) -> forall m, NoDup (map snd (b_adm (upd f n x m)))).
  { intros f n x F X m. destruct (upd_cases f n x m) as [[-> ->]|[_ ->]]; auto. }
  assert (Z : forall m, NoDup (map snd (b_adm (n_nodes net_new m)))) by (intros m; constructor).
  assert (O : NoDup (map snd [(@None N, 7)])) by (constructor; [by intros X; apply elem_of_nil in X|constructor]).
  cbn [calm_run]. split; [exact Z|]. cbn [step]. change (begin (n_nodes net_new 1) None 7) with (BNode ∅ [(None, 7)] [] ∅ []). cbn [n_nodes n_flight].
  split; [unfold calm; cbn [n_nodes]; apply C; [exact Z|exact O]|]. rewrite upd_same. cbn [finish b_adm lookup list_lookup b_known b_queue b_cache b_casts drop_nth app]. cbn [n_nodes n_flight].
  split; [unfold calm; cbn [n_nodes]; repeat apply C; try exact Z; try exact O; constructor|]. rewrite upd_same.
  unfold begin. rewrite bool_decide_eq_true_2 by (cbn [b_known]; set_solver). cbn [n_nodes n_flight].
  split; [unfold calm; cbn [n_nodes]; repeat apply C; try exact Z; try exact O; constructor|]. rewrite upd_same. unfold take_next. cbn [b_queue b_cache b_known b_adm b_casts].
  change (blen (bpush ∅ (None, 7)) =? 200) with false. cbn iota. cbn [n_nodes n_flight].
  split; [unfold calm; cbn [n_nodes]; repeat apply C; try exact Z; try exact O; constructor|exact I].
Qed.

Print Assumptions C103_given.
Print Assumptions C103_once.
Print Assumptions C103_batch.
Print Assumptions C103_spread_partial.
Print Assumptions C103_mesh_partial.
Print Assumptions C103_only.
Print Assumptions C103_unsendable.
Print Assumptions C103_final.
Print Assumptions C103_missed_refuted.
Print Assumptions C103_twice_refuted.
Print Assumptions C103_crowded_refuted.
Print Assumptions C103_carried.
Print Assumptions C103_frame.
