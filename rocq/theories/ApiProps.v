(** C50: eth_getLogs. *)
From Verif Require Import Bytes TxModel ApiModel.
From stdpp Require Import base gmap list.
From Coq Require Import Lia.
#[local] Open Scope N_scope.

(* ---------------------------------------------------------------------- *)
(** * Specification *)

(** block [n] of the chain has number [n] *)
Definition wf_chain (c : chain) : Prop :=
  ch_blocks c <> [] /\ forall k b, ch_blocks c !! k = Some b -> ab_number b = N.of_nat k.

(** the topics of a log fit the filter, position by position; trailing topics of the log are free *)
Definition pos_match (t : option (list (option N))) (x : N) : Prop :=
  match t with None => True | Some alts => None ∈ alts \/ Some x ∈ alts end.
#[global] Instance pos_match_dec t x : Decision (pos_match t x).
Proof. destruct t; cbn; apply _. Defined.
Definition log_match (addrs : list N) (ts : tfilter) (addr : N) (topics : list N) : Prop :=
  (addrs = [] \/ addr ∈ addrs) /\ Forall2 pos_match ts (take (length ts) topics).
Definition wmatch (addrs : list N) (ts : tfilter) (w : wlog) : Prop := log_match addrs ts (wl_addr w) (wl_topics w).
#[global] Instance wmatch_dec addrs ts w : Decision (wmatch addrs ts w).
Proof. unfold wmatch, log_match. apply _. Defined.

(** all logs of a block, with their coordinates *)
Definition log_entries (i : N) (r : areceipt) : list wlog :=
  imap (fun j l => WLog (al_addr l) (al_topics l) (al_data l) (ar_bhash r) (ar_number r) (ar_tx r) i (N.of_nat j)) (ar_logs r).
Definition block_entries (c : chain) (b : ablock) : list wlog :=
  concat (imap (fun i r => log_entries (N.of_nat i) r) (flatten (receipts_of c b))).
(** the matching logs of a list of blocks, in chain order *)
Definition expected (c : chain) (addrs : list N) (ts : tfilter) (bs : list ablock) : list wlog :=
  filter (wmatch addrs ts) (concat (map (block_entries c) bs)).

(** the blocks asked for by a request without a block hash *)
Definition resolve (latest : N) (o : option bid) : N :=
  match o with Some (BNum n) => n | Some BEarliest => 0 | _ => latest end.
Definition tip (c : chain) : N := N.of_nat (length (ch_blocks c)) - 1.
Definition in_range (c : chain) (from to : option bid) : list ablock :=
  filter (fun b => resolve (tip c) from <= ab_number b /\ ab_number b <= resolve (tip c) to) (ch_blocks c).

(* ---------------------------------------------------------------------- *)
(** * Matching *)

Lemma topic_at_iff (ts : list (option (list (option N)))) (lt : list N) k t x :
  ts !! k = Some t -> lt !! k = Some x -> topic_at ts lt k = true <-> pos_match t x.
Proof.
  intros Ht Hx. unfold topic_at. rewrite (nth_lookup_Some ts k None t Ht), (nth_lookup_Some lt k 0 x Hx).
  destruct t as [alts|]; cbn; [|done]. rewrite orb_true_iff, !existsb_exists. split.
  - intros [([y|] & Hin & Hy)|([y|] & Hin & Hy)]; try done.
    + left. by apply elem_of_list_In.
    + apply N.eqb_eq in Hy as ->. right. by apply elem_of_list_In.
  - intros [H|H]; [left; exists None|right; exists (Some x)]; (split; [by apply elem_of_list_In|]); [done|apply N.eqb_refl].
Qed.
Lemma topic_case_iff (ts : list (option (list (option N)))) (lt : list N) :
  topic_case ts lt (length ts) = true <-> Forall2 pos_match ts (take (length ts) lt).
Proof.
  unfold topic_case. rewrite Nat.eqb_refl, !andb_true_iff, forallb_forall. cbn. rewrite Forall2_lookup.
  destruct (Nat.leb_spec (length ts) (length lt)) as [Hle|Hlt].
  - split.
    + intros [_ H] k. destruct (ts !! k) as [t|] eqn:Et.
      * pose proof (lookup_lt_Some _ _ _ Et). rewrite lookup_take by done.
        destruct (lookup_lt_is_Some_2 lt k) as [x Hx]; [lia|]. rewrite Hx. constructor.
        apply (topic_at_iff ts lt k t x Et Hx), H, in_seq. lia.
      * rewrite lookup_take_ge; [constructor|]. by apply lookup_ge_None.
    + intros H. split; [done|]. intros k [_ Hk]%in_seq. cbn in Hk. destruct (lookup_lt_is_Some_2 ts k Hk) as [t Et].
      specialize (H k). rewrite Et in H. rewrite lookup_take in H by done. inversion H as [? x Hp Ht Hx|]; subst.
      by apply (topic_at_iff ts lt k t x).
  - split; [by intros [[_ ?] _]|]. intros H. exfalso. destruct (lookup_lt_is_Some_2 ts (length lt) Hlt) as [t Et].
    specialize (H (length lt)). rewrite Et, lookup_take in H by done. rewrite (lookup_ge_None_2 lt (length lt)) in H by lia. inversion H.
Qed.
Lemma topic_case_len ts lt k : topic_case ts lt k = true -> k = length ts.
Proof. unfold topic_case. intros H. apply andb_prop in H as [H _]. apply andb_prop in H as [H _]. by apply Nat.eqb_eq in H. Qed.
(** The macro's four cases together are the position-wise match. *)
Lemma contains_topic_iff ts lt :
  (length ts <= 4)%nat -> contains_topic ts lt = true <-> Forall2 pos_match ts (take (length ts) lt).
Proof.
  intros Hlen. rewrite <- topic_case_iff. unfold contains_topic. rewrite !orb_true_iff. split.
  - intros [[[[H|H]|H]|H]|H]; try (pose proof (topic_case_len _ _ _ H) as E; by rewrite E in H). by destruct ts.
  - intros H. destruct ts as [|? [|? [|? [|? [|? ?]]]]]; cbn [length] in *; [by left; left; left; left|by left; left; left; right|by left; left; right|by left; right|by right|lia].
Qed.
Lemma addr_ok_iff addrs a : addr_ok addrs a = true <-> addrs = [] \/ a ∈ addrs.
Proof.
  unfold addr_ok. destruct addrs as [|x addrs]; [naive_solver|]. rewrite existsb_exists. split.
  - intros (y & Hin & ->%N.eqb_eq). right. by apply elem_of_list_In.
  - intros [?|Hin]; [done|]. exists a. split; [by apply elem_of_list_In|apply N.eqb_refl].
Qed.

Lemma receipt_logs_spec ts addrs i r k logs :
  (length ts <= 4)%nat ->
  receipt_logs ts addrs i r k logs =
  filter (wmatch addrs ts) (imap (fun j l => WLog (al_addr l) (al_topics l) (al_data l) (ar_bhash r) (ar_number r) (ar_tx r) i (k + N.of_nat j)) logs).
Proof.
  intros Hlen. revert k. induction logs as [|l logs IH]; intros k; [done|]. cbn [receipt_logs]. rewrite imap_cons, filter_cons, IH.
  replace (k + N.of_nat 0) with k by lia.
  assert (E : imap ((fun (j : nat) l0 => WLog (al_addr l0) (al_topics l0) (al_data l0) (ar_bhash r) (ar_number r) (ar_tx r) i (k + N.of_nat j)) ∘ S) logs =
              imap (fun (j : nat) l0 => WLog (al_addr l0) (al_topics l0) (al_data l0) (ar_bhash r) (ar_number r) (ar_tx r) i (k + 1 + N.of_nat j)) logs).
  { apply imap_ext. intros j x _. cbn. f_equal. lia. }
  rewrite E. destruct (addr_ok addrs (al_addr l) && contains_topic ts (al_topics l)) eqn:Em.
  - apply andb_prop in Em as [E1 E2]. rewrite decide_True; [done|]. split; cbn; [by apply addr_ok_iff|by apply contains_topic_iff].
  - rewrite decide_False; [done|]. intros [H1 H2]. cbn in H1, H2. apply addr_ok_iff in H1. apply contains_topic_iff in H2; [|done].
    by rewrite H1, H2 in Em.
Qed.
Lemma from_receipt_spec ts addrs i r :
  (length ts <= 4)%nat -> from_receipt ts addrs i r = filter (wmatch addrs ts) (log_entries i r).
Proof. intros Hlen. unfold from_receipt. rewrite receipt_logs_spec by done. unfold log_entries. f_equal. Qed.
Lemma all_logs_spec ts addrs rs : (length ts <= 4)%nat -> forall k,
  all_logs ts addrs k rs = filter (wmatch addrs ts) (concat (imap (fun i r => log_entries (k + N.of_nat i) r) rs)).
Proof.
  intros Hlen. induction rs as [|r rs IH]; intros k; [done|]. cbn [all_logs]. rewrite imap_cons. cbn [concat]. rewrite filter_app, IH, from_receipt_spec by done.
  replace (k + N.of_nat 0) with k by lia. do 2 f_equal. f_equal. apply imap_ext. intros j x _. cbn. f_equal. lia.
Qed.
Lemma block_all_logs_spec c ts addrs b :
  (length ts <= 4)%nat -> block_all_logs c ts addrs b = filter (wmatch addrs ts) (block_entries c b).
Proof. intros Hlen. unfold block_all_logs. rewrite all_logs_spec by done. unfold block_entries. f_equal. Qed.
Lemma expected_blocks c ts addrs bs :
  (length ts <= 4)%nat -> expected c addrs ts bs = concat (map (block_all_logs c ts addrs) bs).
Proof.
  intros Hlen. unfold expected. induction bs as [|b bs IH]; [done|]. cbn. rewrite filter_app, IH, block_all_logs_spec by done. done.
Qed.

(* ---------------------------------------------------------------------- *)
(** * Ranges *)

Lemma filter_true {A} (P : A -> Prop) `{forall x, Decision (P x)} (l : list A) : (forall x, x ∈ l -> P x) -> filter P l = l.
Proof.
  induction l as [|x l IH]; intros Hp; [done|]. rewrite filter_cons. rewrite decide_True by (apply Hp; by left).
  f_equal. apply IH. intros y Hy. apply Hp. by right.
Qed.
Lemma filter_false {A} (P : A -> Prop) `{forall x, Decision (P x)} (l : list A) : (forall x, x ∈ l -> ~ P x) -> filter P l = [].
Proof.
  induction l as [|x l IH]; intros Hp; [done|]. rewrite filter_cons. rewrite decide_False by (apply Hp; by left).
  apply IH. intros y Hy. apply Hp. by right.
Qed.
(** the blocks numbered start..=stop are a segment of the chain *)
Lemma range_segment c s e :
  wf_chain c -> filter (fun b => s <= ab_number b /\ ab_number b <= e) (ch_blocks c) = take (span s e) (drop (N.to_nat s) (ch_blocks c)).
Proof.
  intros [_ Hn]. unfold span. set (l := ch_blocks c). fold l in Hn.
  assert (Hnum : forall k b j, drop k l !! j = Some b -> ab_number b = N.of_nat (k + j)).
  { intros k b j. rewrite lookup_drop. apply Hn. }
  rewrite <- (take_drop (N.to_nat s) l) at 1. rewrite filter_app. rewrite filter_false.
  2:{ intros b [j Hj]%elem_of_list_lookup. apply lookup_take_Some in Hj as [Hj Hlt]. apply Hn in Hj. lia. }
  cbn [app]. rewrite <- (take_drop (N.to_nat (e + 1 - s)) (drop (N.to_nat s) l)) at 1. rewrite filter_app.
  rewrite (filter_true _ (take _ _)).
  2:{ intros b [j Hj]%elem_of_list_lookup. apply lookup_take_Some in Hj as [Hj Hlt]. apply Hnum in Hj. lia. }
  rewrite filter_false; [by rewrite app_nil_r|].
  intros b [j Hj]%elem_of_list_lookup. rewrite drop_drop in Hj. apply Hnum in Hj. lia.
Qed.
Lemma tip_block c : wf_chain c -> exists b, latest_block c = Some b /\ ab_number b = tip c /\ ch_blocks c !! N.to_nat (tip c) = Some b.
Proof.
  intros [Hne Hn]. unfold latest_block, tip. rewrite last_lookup.
  destruct (ch_blocks c) as [|b0 l] eqn:El; [done|]. rewrite <- El in *.
  destruct (lookup_lt_is_Some_2 (ch_blocks c) (pred (length (ch_blocks c)))) as [b Hb]; [rewrite El; cbn; lia|].
  exists b. rewrite Hb. split; [done|]. apply Hn in Hb as E. split; [rewrite E; lia|].
  replace (N.to_nat (N.of_nat (length (ch_blocks c)) - 1)) with (pred (length (ch_blocks c))) by lia. done.
Qed.

Lemma filter_same {A} (P Q : A -> Prop) `{forall x, Decision (P x)} `{forall x, Decision (Q x)} (l : list A) :
  (forall x, x ∈ l -> P x <-> Q x) -> filter P l = filter Q l.
Proof.
  induction l as [|x l IH]; intros Hp; [done|]. rewrite !filter_cons, IH by (intros y Hy; apply Hp; by right).
  pose proof (Hp x ltac:(by left)). destruct (decide (P x)), (decide (Q x)); tauto.
Qed.
(** a segment of the chain: the blocks below the tip, and the tip if it is in the segment *)
Lemma segment_tip c s e lb :
  wf_chain c -> latest_block c = Some lb -> s <= tip c -> e <= tip c ->
  take (span s e) (drop (N.to_nat s) (ch_blocks c)) =
  filter (fun b => ab_number b <> tip c) (take (span s e) (drop (N.to_nat s) (ch_blocks c))) ++ (if decide (e = tip c) then [lb] else []).
Proof.
  intros Hwf Hlb Hs He.
  assert (Hnum : forall k b j, drop k (ch_blocks c) !! j = Some b -> ab_number b = N.of_nat (k + j)).
  { intros k b j. rewrite lookup_drop. apply Hwf. }
  case_decide as Ee.
  - unfold latest_block in Hlb. apply last_Some in Hlb as [l Hl].
    assert (Hlen : tip c = N.of_nat (length l)). { unfold tip. rewrite Hl, app_length. cbn. lia. }
    rewrite take_ge.
    2:{ rewrite drop_length, Hl, app_length. unfold span. cbn. lia. }
    rewrite Hl, drop_app_le by lia. rewrite filter_app.
    rewrite filter_true.
    2:{ intros b [j Hj]%elem_of_list_lookup. rewrite lookup_drop in Hj. pose proof (lookup_lt_Some _ _ _ Hj).
        assert (ch_blocks c !! (N.to_nat s + j)%nat = Some b) as Hk by (rewrite Hl; by apply lookup_app_l_Some). apply (proj2 Hwf) in Hk. lia. }
    rewrite filter_false; [by rewrite app_nil_r|].
    intros b ->%elem_of_list_singleton Hne.
    assert (ch_blocks c !! (length l) = Some lb) as Hk by (rewrite Hl; by apply list_lookup_middle). apply (proj2 Hwf) in Hk. lia.
  - rewrite app_nil_r, filter_true; [done|]. intros b [j Hj]%elem_of_list_lookup. apply lookup_take_Some in Hj as [Hj Hlt]. unfold span in Hlt. apply Hnum in Hj. lia.
Qed.

(* ---------------------------------------------------------------------- *)
(** * The loops *)

(** [out] is [logs] followed by a prefix of [want], all of it unless the limit was passed *)
Definition cut (logs want out : list wlog) (early : bool) : Prop :=
  exists rest, logs ++ want = out ++ rest /\ (early = false -> rest = []) /\ (early = true -> MAX_LOG_NUM < N.of_nat (length out)).
Lemma extend_logs_cut ts addrs rs : forall i logs,
  cut logs (all_logs ts addrs i rs) (extend_logs ts addrs i rs logs).1 (extend_logs ts addrs i rs logs).2.
Proof.
  induction rs as [|r rs IH]; intros i logs; cbn [extend_logs all_logs].
  - exists (@nil wlog). cbn. by rewrite !app_nil_r.
  - destruct (_ <? _) eqn:E.
    + exists (all_logs ts addrs (i + 1) rs). cbn. split; [by rewrite app_assoc|]. split; [done|]. intros _. by apply N.ltb_lt.
    + destruct (IH (i + 1) (logs ++ from_receipt ts addrs i r)) as (rest & Hr & H1 & H2). exists rest. rewrite app_assoc. done.
Qed.
Lemma block_logs_cut c ts addrs b logs :
  cut logs (block_all_logs c ts addrs b) (block_logs c ts addrs b logs).1 (block_logs c ts addrs b logs).2.
Proof. apply extend_logs_cut. Qed.

(** blocks below the tip among the [left] numbers from [n] *)
Lemma logs_loop_cut c latest ts addrs left : forall n logs seen,
  wf_chain c -> latest = tip c -> (N.to_nat n + left <= length (ch_blocks c))%nat ->
  exists (out : list wlog) (early : bool), logs_loop left n latest c ts addrs logs seen = Ok (out, (if early then seen else seen || (0 <? N.of_nat left) && (n + N.of_nat left =? latest + 1)), early) /\
    cut logs (concat (map (block_all_logs c ts addrs) (filter (fun b => ab_number b <> latest) (take left (drop (N.to_nat n) (ch_blocks c)))))) out early.
Proof.
  induction left as [|left IH]; intros n logs seen Hwf Hl Hlen; cbn [logs_loop].
  - exists logs, false. rewrite take_0. cbn. rewrite orb_false_r. split; [done|]. exists (@nil wlog). by rewrite !app_nil_r.
  - destruct (lookup_lt_is_Some_2 (ch_blocks c) (N.to_nat n)) as [b Hb]; [lia|].
    assert (Hd : drop (N.to_nat n) (ch_blocks c) = b :: drop (N.to_nat (n + 1)) (ch_blocks c)).
    { rewrite (drop_S _ _ _ Hb). do 2 f_equal. lia. }
    assert (Hnb : ab_number b = n) by (apply (proj2 Hwf) in Hb; lia).
    rewrite Hd. cbn [take]. rewrite filter_cons, Hnb.
    assert (Htip : latest + 1 = N.of_nat (length (ch_blocks c))).
    { subst latest. unfold tip. destruct Hwf as [Hne _]. destruct (ch_blocks c); [done|cbn; lia]. }
    destruct (n =? latest) eqn:En.
    + apply N.eqb_eq in En. rewrite decide_False by tauto.
      assert (left = O) as -> by lia. destruct (IH (n + 1) logs true Hwf Hl) as (out & early & Hr & Hc); [lia|].
      exists out, early. rewrite Hr. split; [|done]. cbn in Hr. injection Hr as _ _ <-.
      assert (Ex : (n + N.of_nat 1 =? latest + 1) = true) by (apply N.eqb_eq; lia). rewrite Ex. cbn. by rewrite orb_true_r.
    + apply N.eqb_neq in En. rewrite decide_True by done. unfold block_at. rewrite Hb.
      pose proof (block_logs_cut c ts addrs b logs) as Hcut. destruct (block_logs c ts addrs b logs) as [logs' stop]. cbn in Hcut.
      destruct stop.
      * exists logs', true. split; [done|]. destruct Hcut as (rest & Hr & _ & H2). eexists. cbn [map concat]. rewrite app_assoc, Hr, <- app_assoc.
        split; [done|]. split; [done|]. done.
      * destruct Hcut as (rest & Hr & H1 & _). rewrite (H1 eq_refl), app_nil_r in Hr. subst logs'.
        destruct (IH (n + 1) (logs ++ block_all_logs c ts addrs b) seen Hwf Hl) as (out & early & Hr & Hc); [lia|].
        exists out, early. rewrite Hr. split.
        -- f_equal. f_equal. f_equal. destruct early; [done|]. f_equal.
           replace (n + 1 + N.of_nat left) with (n + N.of_nat (S left)) by lia.
           destruct (n + N.of_nat (S left) =? latest + 1) eqn:E; [|by rewrite !andb_false_r].
           apply N.eqb_eq in E. rewrite !andb_true_r. apply eq_true_iff_eq. rewrite !N.ltb_lt. lia.
        -- cbn [map concat]. unfold cut in *. by rewrite app_assoc.
Qed.

(* ---------------------------------------------------------------------- *)
(** * C50 *)

Definition want (c : chain) (f : wfilter) (bs : list ablock) : list wlog := expected c (default [] (wf_addr f)) (default [] (wf_topics f)) bs.
Definition few_topics (f : wfilter) : Prop := (length (default [] (wf_topics f)) <= 4)%nat.

Lemma resolve_convert latest o : default latest (convert latest <$> o) = resolve latest o.
Proof. by destruct o as [[]|]. Qed.

Lemma get_logs_range c range f :
  wf_chain c -> few_topics f -> wf_hash f = None -> resolve (tip c) (wf_from f) <= tip c ->
  N.min (resolve (tip c) (wf_to f)) (tip c) - resolve (tip c) (wf_from f) <= range ->
  exists out early, get_logs c range f = Ok out /\ cut [] (want c f (in_range c (wf_from f) (wf_to f))) out early.
Proof.
  intros Hwf Hfew Hh Hs Hr. unfold get_logs. rewrite Hh. destruct (tip_block c Hwf) as (lb & Hlb & Hnum & Hat). rewrite Hlb. cbv zeta.
  rewrite !resolve_convert, Hnum.
  set (s := resolve (tip c) (wf_from f)) in *. set (e := N.min (resolve (tip c) (wf_to f)) (tip c)) in *.
  assert (E1 : (tip c <? s) = false) by (apply N.ltb_ge; lia). assert (E2 : (range <? e - s) = false) by (apply N.ltb_ge; lia). rewrite E1, E2.
  unfold few_topics in Hfew. set (ts := default [] (wf_topics f)) in *. rewrite (take_ge ts 4) by done. set (addrs := default [] (wf_addr f)).
  assert (Hlen : tip c + 1 = N.of_nat (length (ch_blocks c))).
  { unfold tip. destruct Hwf as [Hne _]. destruct (ch_blocks c); [done|cbn; lia]. }
  assert (Hin : in_range c (wf_from f) (wf_to f) = take (span s e) (drop (N.to_nat s) (ch_blocks c))).
  { rewrite <- (range_segment c s e Hwf). unfold in_range. fold s. apply filter_same. intros b [k Hk]%elem_of_list_lookup.
    apply (proj2 Hwf) in Hk as En. apply lookup_lt_Some in Hk. subst e. lia. }
  destruct (logs_loop_cut c (tip c) ts addrs (span s e) s [] false Hwf eq_refl) as (out & early & Hrun & Hcut).
  { unfold span. lia. }
  rewrite Hrun. unfold want. fold ts addrs. rewrite expected_blocks by done. rewrite Hin.
  rewrite (segment_tip c s e lb Hwf Hlb); [|lia..].
  destruct early.
  - exists out, true. split; [done|]. destruct Hcut as (rest & Hr' & _ & H2). eexists. cbn [app]. rewrite map_app, concat_app.
    cbn [app] in Hr'. rewrite Hr', <- app_assoc. split; [done|]. done.
  - destruct Hcut as (rest & Hr' & H1 & _). rewrite (H1 eq_refl), app_nil_r in Hr'. cbn [app] in Hr'. rewrite map_app, concat_app, Hr'.
    cbn [orb]. destruct (decide (e = tip c)) as [Ee|Ee].
    + assert (Ex : (0 <? N.of_nat (span s e)) && (s + N.of_nat (span s e) =? tip c + 1) = true).
      { unfold span. apply andb_true_intro. rewrite N.ltb_lt, N.eqb_eq. lia. }
      rewrite Ex. pose proof (block_logs_cut c ts addrs lb out) as Hc. destruct (block_logs c ts addrs lb out) as [out' stop]. cbn in *.
      exists out', stop. split; [done|]. rewrite app_nil_r. done.
    + assert (Ex : (0 <? N.of_nat (span s e)) && (s + N.of_nat (span s e) =? tip c + 1) = false).
      { unfold span. apply andb_false_iff. rewrite N.ltb_ge, N.eqb_neq. lia. }
      rewrite Ex. exists out, false. split; [done|]. cbn. rewrite app_nil_r. exists (@nil wlog). by rewrite app_nil_r.
Qed.

(** A request by range: what it returns is the matching logs of the blocks in the range, in chain order, with the coordinates of each
    log; only a list longer than MAX_LOG_NUM may stop early.  It fails exactly for a start above the tip and for a range that is too
    long, and never panics. *)
Theorem C50_range c range f :
  wf_chain c -> few_topics f -> wf_hash f = None ->
  let from := resolve (tip c) (wf_from f) in
  let to := N.min (resolve (tip c) (wf_to f)) (tip c) in
  match get_logs c range f with
  | Ok res => from <= tip c /\ to - from <= range /\
              exists rest, want c f (in_range c (wf_from f) (wf_to f)) = res ++ rest /\ (rest <> [] -> MAX_LOG_NUM < N.of_nat (length res))
  | Err => tip c < from \/ range < to - from
  | Panic => False
  end.
Proof.
  intros Hwf Hfew Hh from to. destruct (decide (from <= tip c)) as [H1|H1]; [destruct (decide (to - from <= range)) as [H2|H2]|].
  - destruct (get_logs_range c range f Hwf Hfew Hh H1 H2) as (out & early & Hr & rest & Hc & Hf & Ht). rewrite Hr.
    split; [done|]. split; [done|]. exists rest. split; [done|]. intros Hne. destruct early; [by apply Ht|]. by rewrite Hf in Hne.
  - unfold get_logs. rewrite Hh. destruct (tip_block c Hwf) as (lb & Hlb & Hnum & _). rewrite Hlb. cbv zeta. rewrite !resolve_convert, Hnum.
    fold from to. assert (E1 : (tip c <? from) = false) by (apply N.ltb_ge; lia). assert (E2 : (range <? to - from) = true) by (apply N.ltb_lt; lia).
    rewrite E1, E2. right. lia.
  - unfold get_logs. rewrite Hh. destruct (tip_block c Hwf) as (lb & Hlb & Hnum & _). rewrite Hlb. cbv zeta. rewrite !resolve_convert, Hnum.
    fold from to. assert (E1 : (tip c <? from) = true) by (apply N.ltb_lt; lia). rewrite E1. left. lia.
Qed.
(** With at most MAX_LOG_NUM matching logs the answer is exact. *)
Theorem C50_exact c range f :
  wf_chain c -> few_topics f -> wf_hash f = None ->
  resolve (tip c) (wf_from f) <= tip c ->
  N.min (resolve (tip c) (wf_to f)) (tip c) - resolve (tip c) (wf_from f) <= range ->
  N.of_nat (length (want c f (in_range c (wf_from f) (wf_to f)))) <= MAX_LOG_NUM ->
  get_logs c range f = Ok (want c f (in_range c (wf_from f) (wf_to f))).
Proof.
  intros Hwf Hfew Hh H1 H2 Hmax. destruct (get_logs_range c range f Hwf Hfew Hh H1 H2) as (out & early & Hr & rest & Hc & Hf & Ht).
  cbn [app] in Hc. rewrite Hr. f_equal. rewrite Hc in *. rewrite app_length in Hmax. destruct early.
  - specialize (Ht eq_refl). lia.
  - by rewrite (Hf eq_refl), app_nil_r.
Qed.
(** A request by block hash. *)
Theorem C50_by_hash c range f h :
  few_topics f -> wf_hash f = Some h ->
  match get_logs c range f with
  | Ok res => exists b rest, b ∈ ch_blocks c /\ ab_hash b = h /\ want c f [b] = res ++ rest /\ (rest <> [] -> MAX_LOG_NUM < N.of_nat (length res))
  | Err => forall b, b ∈ ch_blocks c -> ab_hash b <> h
  | Panic => False
  end.
Proof.
  intros Hfew Hh. unfold get_logs. rewrite Hh. unfold block_by_hash. destruct (List.find _ _) as [b|] eqn:Eb.
  - apply find_some in Eb as [Hin Heq]. unfold few_topics in Hfew. rewrite (take_ge _ 4) by done.
    destruct (block_logs_cut c (default [] (wf_topics f)) (default [] (wf_addr f)) b []) as (rest & Hr & H1 & H2).
    exists b, rest. split; [by apply elem_of_list_In|]. split; [by apply N.eqb_eq|]. unfold want. rewrite expected_blocks by done. cbn. rewrite app_nil_r.
    split; [done|]. intros Hne. destruct (block_logs _ _ _ _ _) as [out early]. cbn in *. destruct early; [by apply H2|]. by rewrite H1 in Hne.
  - intros b Hin Heq. apply elem_of_list_In in Hin. pose proof (find_none _ _ Eb b Hin) as Hn. cbn in Hn. rewrite Heq, N.eqb_refl in Hn. done.
Qed.
(** Which entries a list of blocks has: receipt [i] of the block, log [j] of the receipt. *)
Theorem C50_entries c addrs ts bs w :
  w ∈ expected c addrs ts bs <->
  exists b i r j l, b ∈ bs /\ flatten (receipts_of c b) !! i = Some r /\ ar_logs r !! j = Some l /\ log_match addrs ts (al_addr l) (al_topics l) /\
    w = WLog (al_addr l) (al_topics l) (al_data l) (ar_bhash r) (ar_number r) (ar_tx r) (N.of_nat i) (N.of_nat j).
Proof.
  unfold expected. rewrite elem_of_list_filter. split.
  - intros [Hm Hin]. apply elem_of_list_In, in_concat in Hin as (l1 & H1 & Hw). apply in_map_iff in H1 as (b & <- & Hb).
    unfold block_entries in Hw. apply in_concat in Hw as (l2 & H2 & Hw). apply elem_of_list_In, elem_of_lookup_imap in H2 as (i & r & -> & Hi).
    apply elem_of_list_In, elem_of_lookup_imap in Hw as (j & l & -> & Hj). exists b, i, r, j, l. split; [by apply elem_of_list_In|]. done.
  - intros (b & i & r & j & l & Hb & Hi & Hj & Hm & ->). split; [done|]. apply elem_of_list_In, in_concat. exists (block_entries c b).
    split; [by apply in_map, elem_of_list_In|]. unfold block_entries. apply in_concat. exists (log_entries (N.of_nat i) r).
    split; apply elem_of_list_In, elem_of_lookup_imap; [by exists i, r|by exists j, l].
Qed.

(* ---------------------------------------------------------------------- *)
(** * Examples and findings *)

Definition ex_log (a : N) (ts : list N) : alog := ALog a ts 0.
Definition ex_rc (n tx : N) (logs : list alog) : areceipt := AReceipt tx n (100 + n) 21000 logs.
Definition ex_block (n : N) (txs : list N) : ablock := ABlock n (100 + n) txs 21000 30000000 1337.
Definition ex_store (n : N) (_ : list N) : list (option areceipt) :=
  if n =? 1 then [Some (ex_rc 1 11 [ex_log 7 [1; 2]; ex_log 8 [1; 3]]); Some (ex_rc 1 12 [ex_log 7 [1; 3; 4; 5]])]
  else if n =? 2 then [Some (ex_rc 2 21 [ex_log 7 [9; 2]; ex_log 7 [1; 2; 6]])] else [].
Definition ex_chain : chain := Chain [ex_block 0 []; ex_block 1 [11; 12]; ex_block 2 [21]] ex_store.
Definition ex_filter : wfilter := WFilter (Some BEarliest) None None (Some [7]) (Some [Some [Some 1]; Some [Some 2; Some 3]]).
Example ex_chain_wf : wf_chain ex_chain.
Proof. split; [done|]. intros [|[|[|k]]] b; cbn; by intros [= <-]. Qed.
Example C50_example :
  few_topics ex_filter /\
  get_logs ex_chain 100 ex_filter = Ok [WLog 7 [1; 2] 0 101 1 11 0 0; WLog 7 [1; 3; 4; 5] 0 101 1 12 1 0; WLog 7 [1; 2; 6] 0 102 2 21 0 1].
Proof. split; [cbv; lia|]. vm_compute. done. Qed.
Example C50_example_errors :
  get_logs ex_chain 100 (WFilter (Some (BNum 3)) None None None None) = Err /\ get_logs ex_chain 1 (WFilter (Some (BNum 0)) None None None None) = Err.
Proof. split; vm_compute; done. Qed.

(** Finding: a query with more than MAX_LOG_NUM matching logs answers with the first ones and nothing tells that logs are missing. *)
Definition big_store (n : N) (_ : list N) : list (option areceipt) :=
  if n =? 0 then [Some (ex_rc 0 1 (repeat (ex_log 7 [1]) 10001))] else [Some (ex_rc 1 11 [ex_log 8 [2]])].
Definition big_chain : chain := Chain [ex_block 0 [1]; ex_block 1 [11]] big_store.
Theorem C50_truncated_refuted :
  exists c f res, wf_chain c /\ few_topics f /\ wf_hash f = None /\ get_logs c 100 f = Ok res /\
    WLog 8 [2] 0 101 1 11 0 0 ∈ want c f (in_range c (wf_from f) (wf_to f)) /\ WLog 8 [2] 0 101 1 11 0 0 ∉ res.
Proof.
  set (f := WFilter (Some BEarliest) None None None None).
  exists big_chain, f, (match get_logs big_chain 100 f with Ok l => l | _ => [] end).
  split. { split; [done|]. intros [|[|k]] b; cbn; by intros [= <-]. }
  split; [cbv; lia|]. split; [done|]. split; [vm_compute; done|]. split.
  - unfold want. apply C50_entries. exists (ex_block 1 [11]), O, (ex_rc 1 11 [ex_log 8 [2]]), O, (ex_log 8 [2]).
    split; [vm_compute; right; left|]. split; [done|]. split; [done|]. split; [|done]. split; [by left|constructor].
  - intros Hin. apply elem_of_list_In in Hin.
    assert (H : forallb (fun w => wl_addr w =? 7) (match get_logs big_chain 100 f with Ok l => l | _ => [] end) = true) by (vm_compute; done).
    rewrite forallb_forall in H. by apply H in Hin.
Qed.
(** Finding: only four topic positions are kept; a fifth one, which no log can meet, is dropped and the log is returned. *)
Theorem C50_topics_refuted :
  exists c f w, wf_chain c /\ get_logs c 100 f = Ok [w] /\ ~ wmatch (default [] (wf_addr f)) (default [] (wf_topics f)) w.
Proof.
  exists ex_chain, (WFilter (Some BEarliest) None None None (Some [None; None; None; None; Some [Some 77]])), (WLog 7 [1; 3; 4; 5] 0 101 1 12 1 0).
  split; [apply ex_chain_wf|]. split; [vm_compute; done|]. intros [_ H]. cbn in H. apply Forall2_length in H. done.
Qed.
(** Finding: logIndex counts within the receipt, so two logs of one block share it (the Ethereum RPC defines it as the position of the
    log in the block). *)
Theorem C50_log_index_refuted :
  exists c f l w1 w2, wf_chain c /\ get_logs c 100 f = Ok l /\ w1 ∈ l /\ w2 ∈ l /\ w1 <> w2 /\ wl_bhash w1 = wl_bhash w2 /\ wl_logidx w1 = wl_logidx w2.
Proof.
  exists ex_chain, ex_filter. eexists _, (WLog 7 [1; 2] 0 101 1 11 0 0), (WLog 7 [1; 3; 4; 5] 0 101 1 12 1 0).
  split; [apply ex_chain_wf|]. split; [vm_compute; reflexivity|]. split; [left|]. split; [right; left|]. done.
Qed.

Print Assumptions C50_range.
Print Assumptions C50_exact.
Print Assumptions C50_by_hash.
Print Assumptions C50_entries.
Print Assumptions C50_truncated_refuted.
Print Assumptions C50_topics_refuted.
Print Assumptions C50_log_index_refuted.
