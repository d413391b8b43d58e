(** C64: subscriptions. *)
From Verif Require Import Bytes TxModel ApiModel ApiProps FilterProps.
From stdpp Require Import base gmap list.
From Coq Require Import Lia.
#[local] Open Scope N_scope.

(* ---------------------------------------------------------------------- *)
(** * Specification *)

(** the messages for one subscriber *)
Definition msgs (id : N) (l : list (N * smsg)) : list smsg := flat_map (fun x => if x.1 =? id then [x.2] else []) l.
(** a log without its transaction index *)
Definition erase (w : wlog) : wlog :=
  WLog (wl_addr w) (wl_topics w) (wl_data w) (wl_bhash w) (wl_number w) (wl_tx w) 0 (wl_logidx w).
Definition erase_msg (m : smsg) : smsg := match m with SLog w => SLog (erase w) | m => m end.
(** the subscriber's number is not used by another subscription *)
Definition unused (id : N) (es : list sev) : Prop :=
  Forall (fun e => match e with SHeads i => i <> id | SLogs i _ _ => i <> id | SClose i => i <> id | _ => True end) es.
(** the blocks above [a] up to [b] *)
Definition between (c : chain) (a b : N) : list ablock := filter (fun k => a < ab_number k /\ ab_number k <= b) (ch_blocks c).

(* ---------------------------------------------------------------------- *)
(** * notify *)

Lemma msgs_app id l1 l2 : msgs id (l1 ++ l2) = msgs id l1 ++ msgs id l2.
Proof. apply flat_map_app. Qed.
Lemma blocks_loop_spec c : forall left n, (N.to_nat n + left <= length (ch_blocks c))%nat ->
  blocks_loop left n c = Ok (take left (drop (N.to_nat n) (ch_blocks c))).
Proof.
  induction left as [|left IH]; intros n Hlen; cbn [blocks_loop]; [by rewrite take_0|].
  destruct (lookup_lt_is_Some_2 (ch_blocks c) (N.to_nat n)) as [b Hb]; [lia|]. unfold block_at. rewrite Hb.
  rewrite IH by lia. rewrite (drop_S _ _ _ Hb). cbn. do 4 f_equal. lia.
Qed.
Definition head_msgs (heads : list N) (b : ablock) : list (N * smsg) := map (fun hb => (hb, SHead (ab_hash b))) heads.
Definition log_msgs (c : chain) (hubs : list (N * (list N * tfilter))) (b : ablock) : list (N * smsg) := sub_receipts hubs 0 (flatten (receipts_of c b)).
Lemma sub_receipts_nil rs : forall i, sub_receipts [] i rs = [].
Proof. induction rs as [|r rs IH]; intros i; [done|]. cbn. apply IH. Qed.
Lemma flat_map_nil {A B} (f : A -> list B) l : (forall x, f x = []) -> flat_map f l = [].
Proof. intros H. induction l as [|x l IH]; [done|]. cbn. by rewrite H. Qed.
Lemma notify_spec c u :
  wf_chain c -> sb_current u <= tip c ->
  notify c u = Ok (Subs (sb_logs u) (sb_heads u) (tip c),
    flat_map (head_msgs (sb_heads u)) (between c (sb_current u) (tip c)) ++ flat_map (log_msgs c (sb_logs u)) (between c (sb_current u) (tip c))).
Proof.
  intros Hwf Hcur. unfold notify. destruct (tip_block c Hwf) as (lb & Hlb & Hnum & Hat). rewrite Hlb, Hnum. destruct u as [logs heads cur]. cbn in *.
  pose proof (tip_len c Hwf) as Hlen. destruct (N.eqb_spec cur (tip c)) as [->|Hne].
  - assert (Hb : between c (tip c) (tip c) = []). { unfold between. apply filter_false. intros b _. lia. } by rewrite Hb.
  - assert (Hseg : between c cur (tip c) = take (N.to_nat (tip c - (cur + 1))) (drop (N.to_nat (cur + 1)) (ch_blocks c)) ++ [lb]).
    { unfold between. rewrite above_segment by done. replace (span (cur + 1) (tip c)) with (S (N.to_nat (tip c - (cur + 1)))) by (unfold span; lia).
      apply take_S_r. rewrite lookup_drop, <- Hat. f_equal. lia. }
    rewrite Hseg. rewrite blocks_loop_spec by lia. destruct heads as [|h heads], logs as [|lg logs]; cbn [app]; try done.
    + do 2 f_equal. rewrite !flat_map_nil; try done; intros b; by first [apply sub_receipts_nil|reflexivity].
    + f_equal. f_equal. f_equal. rewrite flat_map_nil; [done|]. intros b. apply sub_receipts_nil.
Qed.

(* ---------------------------------------------------------------------- *)
(** * Headers *)

Definition once {A} (id : N) (key : A -> N) (l : list A) (x : A) : Prop :=
  exists l1 l2, l = l1 ++ x :: l2 /\ key x = id /\ Forall (fun y => key y <> id) l1 /\ Forall (fun y => key y <> id) l2.
Lemma msgs_none id l : Forall (fun x : N * smsg => x.1 <> id) l -> msgs id l = [].
Proof.
  induction 1 as [|x l Hx _ IH]; [done|]. unfold msgs. cbn. apply N.eqb_neq in Hx. rewrite Hx. exact IH.
Qed.
Lemma head_msgs_once id heads b : once id (fun x => x) heads id -> msgs id (head_msgs heads b) = [SHead (ab_hash b)].
Proof.
  intros (l1 & l2 & -> & _ & H1 & H2). unfold head_msgs. rewrite map_app, msgs_app. cbn [map].
  rewrite (msgs_none id (map _ l1)) by (by apply Forall_fmap). cbn [app]. unfold msgs at 1. cbn [flat_map fst snd]. rewrite N.eqb_refl.
  fold (msgs id (map (fun hb => (hb, SHead (ab_hash b))) l2)). rewrite (msgs_none id (map _ l2)) by (by apply Forall_fmap). done.
Qed.
Lemma head_msgs_none id heads b : Forall (fun x => x <> id) heads -> msgs id (head_msgs heads b) = [].
Proof. intros H. apply msgs_none. unfold head_msgs. by apply Forall_fmap. Qed.
Lemma sub_receipts_keys id hubs rs : Forall (fun h : N * (list N * tfilter) => h.1 <> id) hubs -> forall i, msgs id (sub_receipts hubs i rs) = [].
Proof.
  intros H. induction rs as [|r rs IH]; intros i; [done|]. cbn [sub_receipts]. rewrite msgs_app, IH, app_nil_r. clear IH.
  induction H as [|h hubs Hh _ IHh]; [done|]. cbn [flat_map]. rewrite msgs_app, IHh, app_nil_r. apply msgs_none. apply Forall_fmap.
  apply Forall_forall. intros x _. done.
Qed.
Lemma msgs_flat_map {A} id (f : A -> list (N * smsg)) l : msgs id (flat_map f l) = flat_map (fun x => msgs id (f x)) l.
Proof. induction l as [|x l IH]; [done|]. cbn [flat_map]. by rewrite msgs_app, IH. Qed.

Definition at_head (id a : N) (s : sstate) (got : list smsg) : Prop :=
  ch_blocks (ss_chain s) <> [] /\ a <= sb_current (ss_subs s) /\ sb_current (ss_subs s) <= tip (ss_chain s) /\
  got = map SHead (hashes (ss_chain s) a (sb_current (ss_subs s))) /\
  once id (fun x => x) (sb_heads (ss_subs s)) id /\ Forall (fun h => h.1 <> id) (sb_logs (ss_subs s)).
Lemma sgrow_wf c b : ch_blocks c <> [] -> wf_chain (Chain (ch_blocks c ++ [b]) (ch_receipts c)) -> wf_chain c.
Proof. intros Hne H. apply wf_prefix in H; [|done]. by destruct c. Qed.
Lemma once_snoc {A} id (key : A -> N) l x y : once id key l x -> key y <> id -> once id key (l ++ [y]) x.
Proof.
  intros (l1 & l2 & -> & Hk & H1 & H2) Hy. exists l1, (l2 ++ [y]). rewrite <- app_assoc. split; [done|]. split; [done|]. split; [done|].
  apply Forall_app. split; [done|]. by constructor.
Qed.
Lemma Forall_filter_list {A} (P Q : A -> Prop) `{forall x, Decision (Q x)} (l : list A) : Forall P l -> Forall P (filter Q l).
Proof. intros H1. apply Forall_forall. intros x Hx. apply elem_of_list_filter in Hx as [_ Hx]. rewrite Forall_forall in H1. by apply H1. Qed.
Lemma once_filter {A} id (key : A -> N) (l : list A) x i : once id key l x -> i <> id -> once id key (filter (fun y => key y <> i) l) x.
Proof.
  intros (l1 & l2 & -> & Hk & H1 & H2) Hi. exists (filter (fun y => key y <> i) l1), (filter (fun y => key y <> i) l2).
  rewrite filter_app, filter_cons, decide_True by congruence. split; [done|]. split; [done|]. split; by apply Forall_filter_list.
Qed.

Lemma head_step id a s got e s' l :
  wf_chain (ss_chain s) -> wf_chain (ss_chain s') -> at_head id a s got -> unused id [e] -> sstep s e = Ok (s', l) -> at_head id a s' (got ++ msgs id l).
Proof.
  intros Hwf Hwf' (Hne & Ha & Hc & Hg & Ho & Hl) Hu. inversion Hu as [|? ? He _]; subst. unfold sstep. destruct s as [c [logs heads cur]]. cbn in *.
  destruct e as [i|i addrs ts|i| |b].
  - intros [= <- <-]. rewrite app_nil_r. split; [done|]. cbn. split; [done|]. split; [done|]. split; [done|]. split; [|done]. by apply once_snoc.
  - intros [= <- <-]. rewrite app_nil_r. split; [done|]. cbn. split; [done|]. split; [done|]. split; [done|]. split; [done|].
    apply Forall_app. split; [done|]. by constructor.
  - intros [= <- <-]. rewrite app_nil_r. split; [done|]. cbn. split; [done|]. split; [done|]. split; [done|]. split.
    + apply (once_filter id (fun x => x) heads id i Ho). done.
    + by apply Forall_filter_list.
  - rewrite notify_spec by done. cbn. intros [= <- <-]. split; [done|]. cbn. split; [lia|]. split; [lia|]. split; [|done].
    rewrite (hashes_split c a cur (tip c)), map_app by done. f_equal. rewrite msgs_app, !msgs_flat_map.
    rewrite (flat_map_nil (fun x => msgs id (log_msgs c logs x))) by (intros b; by apply sub_receipts_keys). rewrite app_nil_r.
    unfold hashes, between. induction (filter _ _) as [|b bs IH]; [done|]. cbn [flat_map map]. rewrite head_msgs_once by done. cbn. by f_equal.
  - intros [= <- <-]. rewrite app_nil_r. assert (Hb : ab_number b = tip c + 1) by (by apply grow_number). split; [cbn; by destruct (ch_blocks c)|]. cbn.
    split; [done|]. split; [unfold tip in *; cbn; rewrite app_length; lia|]. split; [|done]. unfold hashes. cbn. rewrite filter_grow; [done|]. rewrite Hb. lia.
Qed.

(* ---------------------------------------------------------------------- *)
(** * Logs *)

Definition sub_all (ts : tfilter) (addrs : list N) : N -> list areceipt -> list wlog :=
  fix go i rs := match rs with [] => [] | r :: rest => from_receipt ts addrs i r ++ go (i + N.of_nat (length (ar_logs r))) rest end.
Lemma receipt_msgs id x hubs i r :
  once id (fun h : N * (list N * tfilter) => h.1) hubs x ->
  msgs id (flat_map (fun hb : N * (list N * tfilter) => map (fun l => (hb.1, SLog l)) (from_receipt hb.2.2 hb.2.1 i r)) hubs) = map SLog (from_receipt x.2.2 x.2.1 i r).
Proof.
  intros (l1 & l2 & -> & Hk & H1 & H2). rewrite flat_map_app, msgs_app. cbn [flat_map]. rewrite msgs_app.
  assert (Hz : forall l, Forall (fun y : N * (list N * tfilter) => y.1 <> id) l ->
     msgs id (flat_map (fun hb : N * (list N * tfilter) => map (fun l => (hb.1, SLog l)) (from_receipt hb.2.2 hb.2.1 i r)) l) = []).
  { induction 1 as [|h hubs Hh _ IHh]; [done|]. cbn [flat_map]. rewrite msgs_app, IHh, app_nil_r. apply msgs_none. apply Forall_fmap.
    apply Forall_forall. intros y _. done. }
  rewrite (Hz l1 H1), (Hz l2 H2), app_nil_r. cbn [app]. induction (from_receipt _ _ _ _) as [|w ws IH]; [done|]. cbn [map]. unfold msgs. cbn [flat_map fst snd].
  rewrite Hk, N.eqb_refl. cbn. f_equal. rewrite Hk in IH. exact IH.
Qed.
Lemma sub_receipts_once id x hubs rs : once id (fun h : N * (list N * tfilter) => h.1) hubs x -> forall i,
  msgs id (sub_receipts hubs i rs) = map SLog (sub_all x.2.2 x.2.1 i rs).
Proof.
  intros Ho. induction rs as [|r rs IH]; intros i; [done|]. cbn [sub_receipts sub_all]. rewrite msgs_app, IH, map_app. f_equal. by apply receipt_msgs.
Qed.
(** up to the transaction index these are the logs of the block *)
Lemma from_receipt_erase ts addrs i j r : map erase (from_receipt ts addrs i r) = map erase (from_receipt ts addrs j r).
Proof.
  unfold from_receipt. generalize 0. induction (ar_logs r) as [|l logs IH]; intros k; [done|]. cbn. rewrite !map_app, (IH (k + 1)). f_equal. by destruct (_ && _).
Qed.
Lemma sub_all_erase ts addrs rs : forall i j, map erase (sub_all ts addrs i rs) = map erase (all_logs ts addrs j rs).
Proof. induction rs as [|r rs IH]; intros i j; [done|]. cbn [sub_all all_logs]. rewrite !map_app. f_equal; [apply from_receipt_erase|apply IH]. Qed.

Definition at_logs (id a : N) (addrs : list N) (ts : tfilter) (s : sstate) (got : list smsg) : Prop :=
  ch_blocks (ss_chain s) <> [] /\ a <= sb_current (ss_subs s) /\ sb_current (ss_subs s) <= tip (ss_chain s) /\
  map erase_msg got = map SLog (map erase (expected (ss_chain s) addrs ts (between (ss_chain s) a (sb_current (ss_subs s))))) /\
  once id (fun h => h.1) (sb_logs (ss_subs s)) (id, (addrs, ts)) /\ Forall (fun h => h <> id) (sb_heads (ss_subs s)).
Lemma between_split c a m b : wf_chain c -> a <= m -> m <= b -> between c a b = between c a m ++ between c m b.
Proof.
  intros Hwf Ha Hb. unfold between. rewrite !above_segment by done. unfold span.
  replace (N.to_nat (b + 1 - (a + 1))) with (N.to_nat (m + 1 - (a + 1)) + N.to_nat (b + 1 - (m + 1)))%nat by lia.
  rewrite <- take_take_drop, drop_drop. do 2 f_equal. f_equal. lia.
Qed.
Lemma logs_step id a addrs ts s got e s' l :
  (length ts <= 4)%nat -> wf_chain (ss_chain s) -> wf_chain (ss_chain s') -> at_logs id a addrs ts s got -> unused id [e] -> sstep s e = Ok (s', l) ->
  at_logs id a addrs ts s' (got ++ msgs id l).
Proof.
  intros Hts Hwf Hwf' (Hne & Ha & Hc & Hg & Ho & Hh) Hu. inversion Hu as [|? ? He _]; subst. unfold sstep. destruct s as [c [logs heads cur]]. cbn in *.
  destruct e as [i|i addrs' ts'|i| |b].
  - intros [= <- <-]. rewrite app_nil_r. split; [done|]. cbn. split; [done|]. split; [done|]. split; [done|]. split; [done|].
    apply Forall_app. split; [done|]. by constructor.
  - intros [= <- <-]. rewrite app_nil_r. split; [done|]. cbn. split; [done|]. split; [done|]. split; [done|]. split; [|done]. by apply once_snoc.
  - intros [= <- <-]. rewrite app_nil_r. split; [done|]. cbn. split; [done|]. split; [done|]. split; [done|]. split.
    + by apply (once_filter id (fun h : N * (list N * tfilter) => h.1) logs).
    + by apply Forall_filter_list.
  - rewrite notify_spec by done. cbn. intros [= <- <-]. split; [done|]. cbn. split; [lia|]. split; [lia|]. split; [|done].
    rewrite (between_split c a cur (tip c)), expected_app, !map_app, Hg by done. f_equal. rewrite msgs_app, !msgs_flat_map.
    rewrite (flat_map_nil (fun x => msgs id (head_msgs heads x))) by (intros b; by apply head_msgs_none). cbn [app].
    rewrite expected_blocks by done. induction (between c cur (tip c)) as [|b bs IH]; [done|]. cbn [flat_map map concat]. rewrite !map_app, IH. f_equal.
    unfold log_msgs. rewrite (sub_receipts_once id (id, (addrs, ts))) by done. cbn [fst snd].
    unfold block_all_logs. rewrite <- (sub_all_erase ts addrs _ 0 0). rewrite !map_map. apply map_ext. done.
  - intros [= <- <-]. rewrite app_nil_r. assert (Hb : ab_number b = tip c + 1) by (by apply grow_number). split; [cbn; by destruct (ch_blocks c)|]. cbn.
    split; [done|]. split; [unfold tip in *; cbn; rewrite app_length; lia|]. split; [|done]. rewrite Hg. unfold between. cbn [ch_blocks]. rewrite filter_grow; [done|]. rewrite Hb. lia.
Qed.

(* ---------------------------------------------------------------------- *)
(** * Runs *)

Definition sgrown (es : list sev) : list ablock := omap (fun e => match e with SGrow b => Some b | _ => None end) es.
Lemma sstep_chain s e s' l : sstep s e = Ok (s', l) -> ss_chain s' = Chain (ch_blocks (ss_chain s) ++ sgrown [e]) (ch_receipts (ss_chain s)).
Proof.
  assert (E : Chain (ch_blocks (ss_chain s) ++ []) (ch_receipts (ss_chain s)) = ss_chain s) by (rewrite app_nil_r; by destruct (ss_chain s)).
  destruct e; cbn; rewrite ?E; try (by intros [= <- <-]). destruct (notify _ _) as [[u ?]| |]; [|done|done]. by intros [= <- <-].
Qed.
Lemma srun_chain es : forall s s' l, srun s es = Ok (s', l) -> ss_chain s' = Chain (ch_blocks (ss_chain s) ++ sgrown es) (ch_receipts (ss_chain s)).
Proof.
  induction es as [|e es IH]; intros s s' l; cbn [srun].
  - intros [= <- <-]. cbn. rewrite app_nil_r. by destruct (ss_chain s).
  - destruct (sstep s e) as [[s1 l1]| |] eqn:E1; [|done|done]. destruct (srun s1 es) as [[s2 l2]| |] eqn:E2; [|done|done]. intros [= <- <-].
    rewrite (IH _ _ _ E2), (sstep_chain _ _ _ _ E1). cbn [ch_blocks ch_receipts]. rewrite <- app_assoc. f_equal. f_equal. by destruct e.
Qed.
Lemma srun_wf s es s' l : ch_blocks (ss_chain s) <> [] -> srun s es = Ok (s', l) -> wf_chain (ss_chain s') -> wf_chain (ss_chain s).
Proof. intros Hne Hr. rewrite (srun_chain _ _ _ _ Hr). intros H. apply wf_prefix in H; [|done]. by destruct (ss_chain s). Qed.
Lemma sstep_ne s e s' l : ch_blocks (ss_chain s) <> [] -> sstep s e = Ok (s', l) -> ch_blocks (ss_chain s') <> [].
Proof. intros Hne Hr. rewrite (sstep_chain _ _ _ _ Hr). cbn. by destruct (ch_blocks (ss_chain s)). Qed.
Lemma srun_inv (P : sstate -> list smsg -> Prop) id :
  (forall s got e s' l, wf_chain (ss_chain s) -> wf_chain (ss_chain s') -> P s got -> unused id [e] -> sstep s e = Ok (s', l) -> P s' (got ++ msgs id l)) ->
  forall es s got s' l, ch_blocks (ss_chain s) <> [] -> wf_chain (ss_chain s') -> P s got -> unused id es -> srun s es = Ok (s', l) -> P s' (got ++ msgs id l).
Proof.
  intros Hstep. induction es as [|e es IH]; intros s got s' l Hne Hwf HP Hu; cbn [srun].
  - intros [= <- <-]. by rewrite app_nil_r.
  - destruct (sstep s e) as [[s1 l1]| |] eqn:E1; [|done|done]. destruct (srun s1 es) as [[s2 l2]| |] eqn:E2; [|done|done]. intros [= <- <-].
    inversion Hu as [|? ? He Hu']; subst. pose proof (sstep_ne _ _ _ _ Hne E1) as Hne1. pose proof (srun_wf _ _ _ _ Hne1 E2 Hwf) as Hwf1.
    assert (Hwf0 : wf_chain (ss_chain s)). { rewrite (sstep_chain _ _ _ _ E1) in Hwf1. apply wf_prefix in Hwf1; [|done]. by destruct (ss_chain s). }
    rewrite msgs_app, app_assoc. eapply IH; [done|done| |done|done]. eapply Hstep; [done|done|done| |done]. by constructor.
Qed.
(** before the subscription *)
Definition at_none (id : N) (s : sstate) (got : list smsg) : Prop :=
  ch_blocks (ss_chain s) <> [] /\ sb_current (ss_subs s) <= tip (ss_chain s) /\ got = [] /\
  Forall (fun h => h <> id) (sb_heads (ss_subs s)) /\ Forall (fun h => h.1 <> id) (sb_logs (ss_subs s)).
Lemma none_step id s got e s' l :
  wf_chain (ss_chain s) -> wf_chain (ss_chain s') -> at_none id s got -> unused id [e] -> sstep s e = Ok (s', l) -> at_none id s' (got ++ msgs id l).
Proof.
  intros Hwf Hwf' (Hne & Hc & -> & Hh & Hl) Hu. inversion Hu as [|? ? He _]; subst. unfold sstep. destruct s as [c [logs heads cur]]. cbn in *.
  destruct e as [i|i addrs ts|i| |b].
  - intros [= <- <-]. split; [done|]. cbn. split; [done|]. split; [done|]. split; [|done]. apply Forall_app. split; [done|]. by constructor.
  - intros [= <- <-]. split; [done|]. cbn. split; [done|]. split; [done|]. split; [done|]. apply Forall_app. split; [done|]. by constructor.
  - intros [= <- <-]. split; [done|]. cbn. split; [done|]. split; [done|]. split; by apply Forall_filter_list.
  - rewrite notify_spec by done. cbn. intros [= <- <-]. split; [done|]. cbn. split; [lia|]. split; [|done]. rewrite msgs_app, !msgs_flat_map.
    rewrite !flat_map_nil; [done|intros b; by apply sub_receipts_keys|intros b; by apply head_msgs_none].
  - intros [= <- <-]. split; [cbn; by destruct (ch_blocks c)|]. cbn. split; [unfold tip in *; cbn; rewrite app_length; lia|done].
Qed.

(** No run panics. *)
Theorem C64_total es : forall s,
  ch_blocks (ss_chain s) <> [] -> sb_current (ss_subs s) <= tip (ss_chain s) ->
  wf_chain (Chain (ch_blocks (ss_chain s) ++ sgrown es) (ch_receipts (ss_chain s))) -> exists s' l, srun s es = Ok (s', l).
Proof.
  induction es as [|e es IH]; intros s Hne Hc Hwf; [by eexists _, _|]. cbn [srun].
  assert (Hwf0 : wf_chain (ss_chain s)). { apply wf_prefix in Hwf; [|done]. by destruct (ss_chain s). }
  assert (Hs : exists s1 l1, sstep s e = Ok (s1, l1) /\ sb_current (ss_subs s1) <= tip (ss_chain s1)).
  { destruct e as [| | | |b]; cbn; try (by eexists _, _).
    - rewrite notify_spec by done. eexists _, _. split; [done|]. cbn. lia.
    - eexists _, _. split; [done|]. cbn. unfold tip in *. cbn. rewrite app_length. lia. }
  destruct Hs as (s1 & l1 & E1 & Hc1). rewrite E1. destruct (IH s1) as (s2 & l2 & E2); [by eapply sstep_ne|done| |rewrite E2; by eexists _, _].
  rewrite (sstep_chain _ _ _ _ E1). cbn [ch_blocks ch_receipts]. rewrite <- app_assoc. replace (sgrown [e] ++ sgrown es) with (sgrown (e :: es)); [done|by destruct e].
Qed.

(** A newHeads subscriber is sent the header of every block above the one the service had reached when it subscribed, in order and each
    once; after a tick of the timer, up to the tip. *)
Theorem C64_heads c u es1 id es2 s1 m1 s2 m2 :
  ch_blocks c <> [] -> subs_new c = Ok u -> unused id es1 -> unused id es2 -> srun (SS c u) es1 = Ok (s1, m1) -> srun s1 (SHeads id :: es2) = Ok (s2, m2) ->
  wf_chain (ss_chain s2) ->
  let a := sb_current (ss_subs s1) in
  a <= tip (ss_chain s1) /\ msgs id m1 = [] /\
  msgs id m2 = map SHead (hashes (ss_chain s2) a (sb_current (ss_subs s2))) /\ sb_current (ss_subs s2) <= tip (ss_chain s2).
Proof.
  intros Hne Hu H1 H2 R1 R2 Hwf a. unfold subs_new in Hu.
  assert (Hne1 : ch_blocks (ss_chain s1) <> []) by (rewrite (srun_chain _ _ _ _ R1); cbn; by destruct (ch_blocks c)).
  pose proof (srun_wf _ _ _ _ Hne1 R2 Hwf) as Hwf1. pose proof (srun_wf (SS c u) _ _ _ Hne R1 Hwf1) as Hwf0. cbn in Hwf0.
  destruct (tip_block c Hwf0) as (lb & Hlb & Hnum & _). rewrite Hlb in Hu. injection Hu as <-.
  assert (HN : at_none id s1 ([] ++ msgs id m1)).
  { eapply (srun_inv (at_none id) id (none_step id) es1 (SS c (Subs [] [] (ab_number lb))) [] s1 m1 Hne Hwf1); [|done|done]. split; [done|]. cbn. split; [lia|]. done. }
  destruct HN as (_ & Hc & Hm & Hh & Hl). cbn [app] in Hm. split; [done|]. split; [done|]. cbn [srun sstep] in R2.
  destruct (srun _ es2) as [[s3 l3]| |] eqn:R3 in R2; [|done|done]. injection R2 as <- <-. cbn [app].
  assert (HA : at_head id a s3 ([] ++ msgs id l3)).
  { eapply (srun_inv (at_head id a) id (head_step id a) es2 _ [] s3 l3); [|done| |done|exact R3]; [done|]. split; [done|]. cbn. fold a. split; [lia|]. split; [done|].
    split; [by rewrite hashes_self|]. split; [|done]. exists (sb_heads (ss_subs s1)), []. done. }
  destruct HA as (_ & _ & Hc3 & Hm3 & _). done.
Qed.
(** A logs subscriber is sent the matching logs of those blocks, in order and each once, with every field but the transaction index as in
    eth_getLogs. *)
Theorem C64_logs_partial c u es1 id addrs ts es2 s1 m1 s2 m2 :
  ch_blocks c <> [] -> subs_new c = Ok u -> unused id es1 -> unused id es2 -> srun (SS c u) es1 = Ok (s1, m1) -> srun s1 (SLogs id addrs ts :: es2) = Ok (s2, m2) ->
  wf_chain (ss_chain s2) -> (length ts <= 4)%nat ->
  let a := sb_current (ss_subs s1) in
  a <= tip (ss_chain s1) /\ msgs id m1 = [] /\
  map erase_msg (msgs id m2) = map SLog (map erase (expected (ss_chain s2) addrs ts (between (ss_chain s2) a (sb_current (ss_subs s2))))) /\
  sb_current (ss_subs s2) <= tip (ss_chain s2).
Proof.
  intros Hne Hu H1 H2 R1 R2 Hwf Hts a. unfold subs_new in Hu.
  assert (Hne1 : ch_blocks (ss_chain s1) <> []) by (rewrite (srun_chain _ _ _ _ R1); cbn; by destruct (ch_blocks c)).
  pose proof (srun_wf _ _ _ _ Hne1 R2 Hwf) as Hwf1. pose proof (srun_wf (SS c u) _ _ _ Hne R1 Hwf1) as Hwf0. cbn in Hwf0.
  destruct (tip_block c Hwf0) as (lb & Hlb & Hnum & _). rewrite Hlb in Hu. injection Hu as <-.
  assert (HN : at_none id s1 ([] ++ msgs id m1)).
  { eapply (srun_inv (at_none id) id (none_step id) es1 (SS c (Subs [] [] (ab_number lb))) [] s1 m1 Hne Hwf1); [|done|done]. split; [done|]. cbn. split; [lia|]. done. }
  destruct HN as (_ & Hc & Hm & Hh & Hl). cbn [app] in Hm. split; [done|]. split; [done|]. cbn [srun sstep] in R2. rewrite (take_ge ts 4) in R2 by done.
  destruct (srun _ es2) as [[s3 l3]| |] eqn:R3 in R2; [|done|done]. injection R2 as <- <-. cbn [app].
  assert (HA : at_logs id a addrs ts s3 ([] ++ msgs id l3)).
  { eapply (srun_inv (at_logs id a addrs ts) id (fun s got e s' l => logs_step id a addrs ts s got e s' l Hts) es2 _ [] s3 l3); [|done| |done|exact R3]; [done|].
    split; [done|]. cbn. fold a. split; [lia|]. split; [done|].
    split. { unfold between. rewrite filter_false; [done|]. intros b _. lia. } split; [|done]. exists (sb_logs (ss_subs s1)), []. done. }
  destruct HA as (_ & _ & Hc3 & Hm3 & _). done.
Qed.
(** A tick brings the service to the tip. *)
Theorem C64_tick s s' l : wf_chain (ss_chain s) -> sb_current (ss_subs s) <= tip (ss_chain s) -> sstep s STick = Ok (s', l) -> sb_current (ss_subs s') = tip (ss_chain s').
Proof. intros Hwf Hc. cbn. rewrite notify_spec by done. by intros [= <- <-]. Qed.

(* ---------------------------------------------------------------------- *)
(** * Examples and findings *)

Definition sub_c : chain := Chain [ex_block 0 []] ex_store.
Definition sub_es : list sev := [SHeads 3; SGrow (ex_block 1 [11; 12]); SLogs 4 [7] [Some [Some 1]]; STick; SGrow (ex_block 2 [21]); STick; STick].
Definition sub_out : list (N * smsg) :=
  [(3, SHead 101); (4, SLog (WLog 7 [1; 2] 0 101 1 11 0 0)); (4, SLog (WLog 7 [1; 3; 4; 5] 0 101 1 12 2 0));
   (3, SHead 102); (4, SLog (WLog 7 [1; 2; 6] 0 102 2 21 0 1))].
Example C64_nontrivial :
  exists s, srun (SS sub_c (Subs [] [] 0)) sub_es = Ok (s, sub_out) /\ subs_new sub_c = Ok (Subs [] [] 0) /\ unused 3 (tail sub_es) /\ wf_chain (ss_chain s).
Proof.
  eexists. split; [vm_compute; reflexivity|]. split; [done|]. split; [repeat constructor; done|]. split; [done|]. intros [|[|[|k]]] b; cbn; by intros [= <-].
Qed.
(** Finding: the transaction index of a pushed log is the number of logs of the earlier receipts of the block: the log of the second
    transaction of block 1 says 2, eth_getLogs says 1. *)
Theorem C64_index_refuted :
  exists s w l v, srun (SS sub_c (Subs [] [] 0)) sub_es = Ok (s, sub_out) /\ (4, SLog w) ∈ sub_out /\
    get_logs (ss_chain s) 100 (WFilter (Some BEarliest) None None (Some [7]) (Some [Some [Some 1]])) = Ok l /\ v ∈ l /\
    erase w = erase v /\ wl_txidx w = 2 /\ wl_txidx v = 1 /\ w ∉ l.
Proof.
  eexists _, (WLog 7 [1; 3; 4; 5] 0 101 1 12 2 0), _, (WLog 7 [1; 3; 4; 5] 0 101 1 12 1 0).
  split; [vm_compute; reflexivity|]. split; [right; right; left|]. split; [vm_compute; reflexivity|]. split; [right; left|]. split; [done|]. split; [done|]. split; [done|].
  intros H. repeat (apply elem_of_cons in H as [H|H]; [discriminate H|]). by apply elem_of_nil in H.
Qed.
(** Finding: with the locked version of jsonrpsee, calling [send] without awaiting it sends nothing, so no subscriber is ever told
    anything, whatever happens. *)
Theorem C64_silent_refuted :
  exists s, srun (SS sub_c (Subs [] [] 0)) sub_es = Ok (s, sub_out) /\ msgs 3 sub_out <> [] /\ forall id, msgs id (delivered false sub_out) = [].
Proof. eexists. split; [vm_compute; reflexivity|]. done. Qed.

Print Assumptions C64_total.
Print Assumptions C64_heads.
Print Assumptions C64_logs_partial.
Print Assumptions C64_tick.
Print Assumptions C64_index_refuted.
Print Assumptions C64_silent_refuted.
