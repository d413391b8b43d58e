(** C46 and C47: what is false of the code, and absence of panics. *)
From Verif Require Import Bytes TxModel PeerModel PeerProofs BookProps PeerProps.
From stdpp Require Import base gmap list.
From Coq Require Import Lia.
#[local] Open Scope N_scope.

(** Concrete peers: peer [q] at 8.8.8.8 port [port]. *)
Definition pa (q port : N) : maddr := MAddr (Some ((false, 134744072), port)) (Some q) 0.
Definition pip : ip := (false, 134744072).
Definition s_init : nstate := ninit ∅ 40 20 1000000.
Definition after (s0 : nstate) (h : list nev) : nstate := match nrun s0 h with Ok s => s | _ => s0 end.
Definition next (s : nstate) (e : nev) : nstate := match nstep s e with Ok (s', _) => s' | _ => s end.
(** [nrun s0 h] and [nstep s e] are [Ok]; a boolean, which is quick to check *)
Definition is_ok {A} (o : outcome A) : bool := match o with Ok _ => true | _ => false end.
#[local] Instance action_dec : EqDecision action.
Proof. solve_decision. Defined.
Definition gives {A} (o : outcome (A * list action)) (acts : list action) : bool :=
  match o with Ok (_, l) => bool_decide (l = acts) | _ => false end.
Lemma after_ok s0 h : is_ok (nrun s0 h) = true -> nrun s0 h = Ok (after s0 h).
Proof. unfold after. by destruct (nrun s0 h). Qed.
Lemma next_ok s e acts : gives (nstep s e) acts = true -> nstep s e = Ok (next s e, acts).
Proof. unfold next. destruct (nstep s e) as [[s' l]| |]; cbn; [|done|done]. intros H. apply bool_decide_eq_true in H as ->. done. Qed.
Ltac vmr := lazymatch goal with |- ?a = ?b => vm_cast_no_check (@eq_refl _ b) end.

(** Finding: a ban does not keep a peer out while there is room: an ordinary peer that was banned by a protocol error a second ago
    connects again and is registered. *)
Theorem C46_accept_refuted :
  exists h s sid a q s', Forall fetch_pos h /\ nrun s_init h = Ok s /\ ~ exempt s q /\ banned s (ns_now s) pip = true /\
    ma_sock a = Some (pip, 8000) /\ nstep s (NOpen sid a false) = Ok (s', []) /\ connected s' q sid a false.
Proof.
  set (h := [NTick 1000; NClose 1; NProtoErr 1; NOpen 1 (pa 1 8000) false]).
  exists h, (after s_init h), 2, (pa 1 8000), 1, (next (after s_init h) (NOpen 2 (pa 1 8000) false)).
  split; [repeat constructor|]. split; [apply after_ok; vmr|].
  split; [intros [E|E]; vm_compute in E; discriminate E|]. split; [vmr|]. split; [done|]. split; [apply next_ok; vmr|]. unfold connected. vmr.
Qed.

(** Finding: a ban requested by another module does not disconnect the peer. *)
Theorem C46_disconnect_refuted :
  exists h s q sid a s', Forall fetch_pos h /\ nrun s_init h = Ok s /\ connected s q sid a false /\
    nstep s (NBan q 60000) = Ok (s', []) /\ banned s' (ns_now s') pip = true /\ connected s' q sid a false.
Proof.
  set (h := [NOpen 1 (pa 1 8000) false]).
  exists h, (after s_init h), 1, 1, (pa 1 8000), (next (after s_init h) (NBan 1 60000)).
  split; [repeat constructor|]. split; [apply after_ok; vmr|]. split; [unfold connected; vmr|]. split; [apply next_ok; vmr|]. split; [vmr|]. unfold connected. vmr.
Qed.

(** Finding: banning a peer that is not connected does nothing, even when its address is in the book. *)
Theorem C46_offline_refuted :
  exists h s q e, Forall fetch_pos h /\ nrun s_init h = Ok s /\ look (ps_book (pm_store (ns_pm s))) (pip, 8000) = Some e /\
    ma_peer (ai_addr e) = Some q /\ nstep s (NBan q 60000) = Ok (s, []).
Proof.
  set (h := [NClose 1; NAddOut (pa 1 8000); NOpen 1 (pa 1 8000) true]).
  exists h, (after s_init h), 1, (ai_new (pa 1 8000) 1000000 100).
  split; [repeat constructor|]. split; [apply after_ok; vmr|]. split; [vmr|]. split; [done|]. vmr.
Qed.

(** Finding: a later, shorter ban lifts an earlier one. *)
Theorem C46_shorten_refuted :
  exists h s e s' acts t d, Forall fetch_pos h /\ nrun s_init h = Ok s /\ banned s t pip = true /\ ns_now s <= t /\
    nstep s e = Ok (s', acts) /\ raises s e pip d /\ banned s' t pip = false.
Proof.
  set (h := [NBan 1 86400000; NOpen 1 (pa 1 8000) false]).
  exists h, (after s_init h), (NProtoErr 1), (next (after s_init h) (NProtoErr 1)), [ADisconnect 1], 2000000, 300000.
  split; [repeat constructor|]. split; [apply after_ok; vmr|]. split; [vmr|]. split; [vm_compute; discriminate|]. split; [apply next_ok; vmr|]. split; [|vmr].
  split; [done|]. exists 1, (pa 1 8000), false, 8000. split; [unfold connected; vmr|done].
Qed.

(** Finding: the [until] of a ban tag is added to the current time, so a ban "for ever" panics. *)
Theorem C46_overflow_refuted :
  exists h s q, Forall fetch_pos h /\ nrun s_init h = Ok s /\ nstep s (NBan q (2 ^ 64 - 1)) = Panic.
Proof.
  set (h := [NOpen 1 (pa 1 8000) false]). exists h, (after s_init h), 1. split; [repeat constructor|]. split; [apply after_ok; vmr|vmr].
Qed.

(** Finding: addresses of a banned host on other ports stay in the book and are offered for dialling. *)
Theorem C46_port_refuted :
  exists h s st e port, Forall fetch_pos h /\ nrun s_init h = Ok s /\ ps_fetch attempt_filter [] (ns_now s) 5 (pm_store (ns_pm s)) = Ok (st, [e]) /\
    banned s (ns_now s) pip = true /\ ma_sock (ai_addr e) = Some (pip, port).
Proof.
  set (h := [NTick 20000; NProtoErr 1; NOpen 1 (pa 1 8000) false; NAddOut (pa 2 8001)]).
  exists h, (after s_init h), (pm_store (ns_pm (after s_init h))), (ai_new (pa 2 8001) 1000000 100), 8001.
  split; [repeat constructor|]. split; [apply after_ok; vmr|]. split; [vmr|]. split; [vmr|]. done.
Qed.

(** The hypotheses of [C46_refused] and [C46_protocol_error] are met: a node limited to two peers, one of them inbound. *)
Example C46_nontrivial :
  let s0 := ninit ∅ 2 1 1000000 in let h := [NOpen 4 (pa 3 9000) false; NClose 1; NProtoErr 1; NOpen 1 (pa 1 8000) false] in
  let s := after s0 h in
  nrun s0 h = Ok s /\ banned s (ns_now s) pip = true /\ (1 <=? conns s inb) = true /\ open_ok s 5 (pa 1 8000) = true /\
  nstep s (NOpen 5 (pa 1 8000) false) = Ok (next s (NOpen 5 (pa 1 8000) false), [ADisconnect 5]).
Proof. cbn zeta. split; [apply after_ok; vmr|]. split; [vmr|]. split; [vmr|]. split; [vmr|apply next_ok; vmr]. Qed.

(* ---------------------------------------------------------------------- *)
(** * C47 *)

(** Finding: the inbound limit (by default 20 of 40 connections; here 2 of 4) does not bind: every peer that is not banned is exempt
    from it, so ordinary inbound peers take all the slots. *)
Definition flood (n : nat) : list nev :=
  map (fun k => NOpen (N.of_nat k) (MAddr (Some ((false, 1000 + N.of_nat k), 8000)) (Some (N.of_nat k)) 0) false) (seq 1 n).
Theorem C47_limit_refuted :
  exists h s, Forall fetch_pos h /\ nrun (ninit ∅ 4 2 1000000) h = Ok s /\ pm_inlimit (ns_pm s) = 2 /\ conns s inb = 4 /\ (forall q, ~ exempt s q).
Proof.
  set (s_init := ninit ∅ 4 2 1000000). exists (flood 4), (after s_init (flood 4)). split; [repeat constructor|]. split; [apply after_ok; vmr|]. split; [vmr|]. split; [vmr|].
  intros q [E|E]; revert E; [assert (pm_boot (ns_pm (after s_init (flood 4))) = ∅) as -> by vmr|assert (pm_cons (ns_pm (after s_init (flood 4))) = ∅) as -> by vmr];
    apply not_elem_of_empty.
Qed.

(** Finding: the number of peers to dial is computed from the inbound count: once inlimit inbound peers are there (20 by default, here 2) the node dials nobody,
    although it has no outbound connection. *)
Theorem C47_quota_refuted :
  exists h s, Forall fetch_pos h /\ nrun (ninit ∅ 4 2 1000000) h = Ok s /\ conns s outb = 0 /\ conns s inb = 2 /\ dial_quota (ns_pm s) = 0.
Proof. set (s_init := ninit ∅ 4 2 1000000). exists (flood 2), (after s_init (flood 2)). split; [repeat constructor|]. split; [apply after_ok; vmr|]. split; [vmr|]. split; vmr. Qed.

(** Every configuration the node accepts has an inbound limit below the total, so the subtraction of the limits does not underflow. *)
Theorem C47_config inbound m max inl : inbound < 40 -> config_limits inbound m = Some (max, inl) -> inl < max.
Proof.
  unfold config_limits. intros Hi. destruct m as [m|]; [|intros [= <- <-]; done]. destruct (m <=? inbound) eqn:E; [done|].
  intros [= <- <-]. by apply N.leb_gt.
Qed.

(** No event panics: the limits come from an accepted configuration, dialled addresses carry a peer id, the clock and the ban spans
    stay below 2^64 and fewer than 2^64 addresses are added. *)
Definition ev_ok (T : N) (e : nev) : Prop :=
  match e with
  | NFeeler a | NIdentify a => ma_peer a <> None
  | NBan _ d => T + d < 2 ^ 64
  | NFetch _ _ c => 0 < c
  | _ => True
  end.
Definition tick (e : nev) : N := match e with NTick d => d | _ => 0 end.
Definition addn (e : nev) : N := match e with NAdd _ _ | NAddOut _ => 1 | _ => 0 end.
Fixpoint total (f : nev -> N) (h : list nev) : N := match h with [] => 0 | e :: h' => f e + total f h' end.

Lemma nextid_add m i m' : minv m -> mgr_add m i = Ok m' -> m_next m' <= m_next m + 1.
Proof. intros Hm Ha. by destruct (add_inv _ _ _ Hm Ha) as (_ & ? & _). Qed.

Lemma ban_next now d a p p' : sinv p -> ps_ban_addr now d a p = Ok p' -> m_next (ps_book p') = m_next (ps_book p).
Proof.
  intros H. unfold ps_ban_addr. destruct (remove_ok (ps_book p) a (si_book p H)) as (m & r & Hr & _ & Hn & _). rewrite Hr.
  destruct (ma_sock a); [destruct (_ <? _); [|done]|]; by intros [= <-].
Qed.
Lemma ban_runs now d a p : sinv p -> now + d < 2 ^ 64 -> exists p', ps_ban_addr now d a p = Ok p'.
Proof.
  intros H Hlt. unfold ps_ban_addr. destruct (remove_ok (ps_book p) a (si_book p H)) as (m & r & Hr & _). rewrite Hr.
  destruct (ma_sock a); [|by eexists]. apply N.ltb_lt in Hlt. rewrite Hlt. by eexists.
Qed.

Lemma step_runs T s e :
  ninv s -> ev_ok T e -> pm_inlimit (ns_pm s) <= pm_max (ns_pm s) -> ns_now s <= T -> T + 300000 < 2 ^ 64 ->
  m_next (ps_book (pm_store (ns_pm s))) + 1 < 2 ^ 64 ->
  exists s' acts, nstep s e = Ok (s', acts) /\ ns_now s' = ns_now s + tick e /\
    m_next (ps_book (pm_store (ns_pm s'))) <= m_next (ps_book (pm_store (ns_pm s))) + addn e.
Proof.
  intros H He Hlim HT HT3 Hnx.
  assert (Hself : forall acts : list action, tick e = 0 -> exists s' acts', Ok (s, acts) = Ok (s', acts') /\ ns_now s' = ns_now s + tick e /\
    m_next (ps_book (pm_store (ns_pm s'))) <= m_next (ps_book (pm_store (ns_pm s))) + addn e).
  { intros acts Ht. eexists s, acts. split; [done|]. lia. }
  destruct e as [sid a out|sid|sid|q until|c|a|a|a|evict a|a|a|which picks count|dt]; cbn [nstep tick addn ev_ok] in *.
  - destruct (open_ok s sid a) eqn:Eok; [|by apply (Hself [])]. apply open_ok_iff in Eok as (_ & Hpa & _).
    destruct (session_open (ns_now s) (ns_pm s) sid a out) as [[p2 acts]| |] eqn:Eso.
    + eexists _, _. split; [reflexivity|]. cbn. split; [lia|].
      assert (Hb : ps_book (pm_store p2) = ps_book (pm_store (ns_pm s))); [|rewrite Hb; lia].
      apply session_open_cases in Eso. cbv zeta in Eso.
      destruct Eso as [[_ [= -> _]]|[(_ & _ & _ & [= -> _])|(_ & _ & q & p3 & _ & [= -> _] & _ & Hb & _)]]; done.
    + exfalso. revert Eso. unfold session_open, always_allow, register. cbn. destruct (ma_peer a) as [q|]; [|done].
      repeat case_match; done.
    + exfalso. revert Eso. unfold session_open, always_allow, register. cbn. destruct (ma_peer a) as [q|]; [|done].
      assert (Hle : (pm_max (ns_pm s) <? pm_inlimit (ns_pm s)) = false) by (apply N.ltb_ge; lia). rewrite Hle.
      repeat case_match; done.
  - destruct (ns_open s !! sid) as [[a out]|] eqn:Eo; [|by apply (Hself [])].
    destruct (ma_peer a) as [q|] eqn:Ea; [|by destruct (ni_peer s H _ _ _ Eo)].
    destruct (unregister (ns_pm s) a) as [p2| |] eqn:Eu.
    + eexists _, _. split; [reflexivity|]. cbn. split; [lia|].
      destruct (unregister_ok _ _ q _ (fun q i Hq => proj2 (ni_open s H q i Hq)) Ea Eu) as (_ & -> & _). lia.
    + exfalso. revert Eu. unfold unregister. rewrite Ea. destruct (pm_online (ns_pm s) !! q) as [i|] eqn:Ei; [|done].
      by rewrite (proj2 (ni_open s H _ _ Ei)).
    + exfalso. revert Eu. unfold unregister. rewrite Ea. destruct (pm_online (ns_pm s) !! q) as [i|] eqn:Ei; [|done].
      by rewrite (proj2 (ni_open s H _ _ Ei)).
  - destruct (ns_open s !! sid) as [ao|] eqn:Eo; [|by apply (Hself [])]. unfold protocol_error, ban_session_id.
    destruct (find_sid sid _) as [i|].
    + destruct (ban_runs (ns_now s) 300000 (pi_addr i) _ (ni_store s H)) as [st Hst]; [lia|]. rewrite Hst.
      eexists _, _. split; [reflexivity|]. cbn. split; [lia|]. rewrite (ban_next _ _ _ _ _ (ni_store s H) Hst). lia.
    + eexists _, _. split; [reflexivity|]. cbn. lia.
  - unfold tag_ban, ban_id. destruct (pm_online (ns_pm s) !! q) as [i|].
    + destruct (ban_runs (ns_now s) until (pi_addr i) _ (ni_store s H)) as [st Hst]; [lia|]. rewrite Hst.
      eexists _, _. split; [reflexivity|]. cbn. split; [lia|]. rewrite (ban_next _ _ _ _ _ (ni_store s H) Hst). lia.
    + eexists _, _. split; [reflexivity|]. cbn. lia.
  - eexists _, _. split; [reflexivity|]. cbn. lia.
  - unfold dial_feeler. destruct (ma_peer a); [|done]. destruct (_ && _ && _); (eexists _, _; split; [reflexivity|]; cbn; lia).
  - unfold dial_identify. destruct (ma_peer a); [|done]. destruct (_ && _ && _); (eexists _, _; split; [reflexivity|]; cbn; lia).
  - eexists _, _. split; [reflexivity|]. cbn. lia.
  - unfold ps_add_addr. destruct (addr_banned _ _ _); [eexists _, _; split; [reflexivity|]; cbn; lia|].
    destruct (check_purge evict (ns_now s) (ps_book (pm_store (ns_pm s)))) as [m| |] eqn:Ep.
    + apply (purge_minv _ _ _ _ (si_book _ (ni_store s H))) in Ep as [Hm Hn].
      destruct (add_ok m (ai_new a 0 DEFAULT_SCORE) Hm) as (m' & Ha & _ & Hn' & _); [left; lia|]. rewrite Ha.
      eexists _, _. split; [reflexivity|]. cbn. lia.
    + eexists _, _. split; [reflexivity|]. lia.
    + exfalso. revert Ep. unfold check_purge. destruct (_ <? _); [done|].
      assert (Hr : forall l, remove_all (ps_book (pm_store (ns_pm s))) l <> Panic).
      { intros l. destruct (remove_all_minv l _ (si_book _ (ni_store s H))) as (m2 & Hr & _). by rewrite Hr. }
      destruct (dead_addrs _ _); [destruct evict; [done|]|]; apply Hr.
  - unfold ps_add_outbound. destruct (addr_banned _ _ _); [eexists _, _; split; [reflexivity|]; cbn; lia|].
    destruct (add_ok (ps_book (pm_store (ns_pm s))) (ai_new a (ns_now s) DEFAULT_SCORE) (si_book _ (ni_store s H))) as (m' & Ha & _ & Hn' & _); [left; lia|].
    rewrite Ha. eexists _, _. split; [reflexivity|]. cbn. lia.
  - eexists _, _. split; [reflexivity|]. cbn. split; [lia|].
    destruct (update_ok _ (ps_book (pm_store (ns_pm s))) a (mark_tried_ok (ns_now s)) (si_book _ (ni_store s H))) as (_ & -> & _). lia.
  - unfold ps_fetch. destruct (fetch_ok (ps_book (pm_store (ns_pm s))) picks (ns_now s) count (which (ns_now s) (pm_store (ns_pm s))) (si_book _ (ni_store s H)) He)
      as (m' & l & Hfe & _ & Hn & _). rewrite Hfe. eexists _, _. split; [reflexivity|]. cbn. lia.
  - eexists _, _. split; [reflexivity|]. cbn. lia.
Qed.

Theorem C47_run_ok boot max inl now0 T h :
  inl <= max -> T + 300000 < 2 ^ 64 -> Forall (ev_ok T) h -> now0 + total tick h <= T -> total addn h + 1 < 2 ^ 64 ->
  exists s, nrun (ninit boot max inl now0) h = Ok s /\ ns_now s = now0 + total tick h.
Proof.
  intros Hlim HT.
  assert (Hgen : Forall (ev_ok T) h -> now0 + total tick h <= T -> total addn h + 1 < 2 ^ 64 ->
            exists s, nrun (ninit boot max inl now0) h = Ok s /\ ns_now s = now0 + total tick h /\
              m_next (ps_book (pm_store (ns_pm s))) <= total addn h); [|intros H1 H2 H3; destruct (Hgen H1 H2 H3) as (s & ? & ? & _); by exists s].
  induction h as [|e h IH]; intros Hall Ht Hn.
  - eexists. split; [reflexivity|]. cbn. lia.
  - apply Forall_cons in Hall as [He Hall]. cbn [total] in *. destruct IH as (s & Hr & Hnow & Hnx); [done|lia|destruct e; cbn in *; lia|].
    assert (Hf : Forall fetch_pos h) by (eapply Forall_impl; [exact Hall|]; by intros []).
    destruct (run_inv _ _ _ (ninv_init boot max inl now0) Hf Hr) as (Hi & _ & Hm & Hl & _). cbn in Hm, Hl.
    assert (Hadd : m_next (ps_book (pm_store (ns_pm s))) + 1 < 2 ^ 64) by lia.
    destruct (step_runs T s e Hi He) as (s' & acts & Hst & Hnow' & Hnx'); [lia|lia|done|done|].
    exists s'. cbn [nrun]. rewrite Hr, Hst. split; [done|]. lia.
Qed.

Example C47_nontrivial :
  let h := [NClose 2; NOpen 3 (pa 3 8003) true; NFetch attempt_filter [1%nat] 3; NIdentify (pa 3 8003); NOpen 2 (pa 2 8002) false; NOpen 1 (pa 1 8000) false] in
  let s := after s_init h in
  nrun s_init h = Ok s /\ conns s anyd = 2 /\ conns s outb = 1 /\ connected s 3 3 (pa 3 8003) true /\
  Forall (ev_ok 2000000) h /\ 1000000 + total tick h <= 2000000 /\ total addn h + 1 < 2 ^ 64.
Proof.
  cbn zeta. split; [apply after_ok; vmr|]. split; [vmr|]. split; [vmr|]. split; [unfold connected; vmr|].
  split; [repeat constructor; cbn; congruence|]. split; vm_compute; congruence.
Qed.

Print Assumptions C46_ban_exact.
Print Assumptions C46_lasting.
Print Assumptions C46_protocol_error.
Print Assumptions C46_refused.
Print Assumptions C46_book.
Print Assumptions C46_accept_refuted.
Print Assumptions C46_disconnect_refuted.
Print Assumptions C46_offline_refuted.
Print Assumptions C46_shorten_refuted.
Print Assumptions C46_overflow_refuted.
Print Assumptions C46_port_refuted.
Print Assumptions C47_total.
Print Assumptions C47_mirror.
Print Assumptions C47_open_partial.
Print Assumptions C47_limit_refuted.
Print Assumptions C47_quota_refuted.
Print Assumptions C47_config.
Print Assumptions C47_run_ok.
