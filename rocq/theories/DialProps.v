(** C93: who gets dialled. *)
From Verif Require Import Bytes TxModel PeerModel PeerProofs BookProps PeerProps DialModel.
From stdpp Require Import base gmap list.
From Coq Require Import Lia Sorted.
#[local] Open Scope N_scope.

(* ---------------------------------------------------------------------- *)
(** * Vocabulary *)

(** the addresses dialled by a list of actions, and those with a given socket *)
Definition dialled (acts : list action) : list maddr := omap (fun x => match x with ADial a => Some a | _ => None end) acts.
Definition at_sock (x : sock) (l : list maddr) : nat := length (filter (fun a => ma_sock a = Some x) l).

Lemma dialled_app a b : dialled (a ++ b) = dialled a ++ dialled b.
Proof. apply omap_app. Qed.
Lemma at_sock_app x a b : at_sock x (a ++ b) = (at_sock x a + at_sock x b)%nat.
Proof. unfold at_sock. by rewrite filter_app, app_length. Qed.
Lemma at_sock_none x l : (forall a, a ∈ l -> ma_sock a <> Some x) -> at_sock x l = 0%nat.
Proof.
  intros H. unfold at_sock. destruct (filter _ l) as [|a r] eqn:E; [done|]. exfalso.
  assert (Ha : a ∈ filter (fun a => ma_sock a = Some x) l) by (rewrite E; left). apply elem_of_list_filter in Ha as [Hs Ha]. by apply (H a).
Qed.
Lemma at_sock_sub x l l' : sublist l l' -> (at_sock x l <= at_sock x l')%nat.
Proof.
  unfold at_sock. induction 1 as [|a l1 l2 _ IH|a l1 l2 _ IH]; [done| |]; rewrite !filter_cons; repeat case_decide; cbn; lia.
Qed.

(* ---------------------------------------------------------------------- *)
(** * What a round of dials changes *)

Record round (s s' : pm) (acts : list action) : Prop := {
  ro_online : pm_online s' = pm_online s;
  ro_rest : pm_boot s' = pm_boot s /\ pm_cons s' = pm_cons s /\ pm_max s' = pm_max s /\ pm_inlimit s' = pm_inlimit s;
  ro_conn : ps_conn (pm_store s') = ps_conn (pm_store s);
  ro_sinv : sinv (pm_store s) -> sinv (pm_store s');
  ro_dialing : pm_dialing s ⊆ pm_dialing s';
  ro_feeler : pm_feeler s ⊆ pm_feeler s';
  ro_new : forall a, a ∈ dialled acts -> (a ∈ pm_dialing s' \/ a ∈ pm_feeler s') /\ a ∉ pm_dialing s /\ a ∉ pm_feeler s /\
                       exists q, ma_peer a = Some q /\ pm_online s !! q = None;
  ro_dup : NoDup (dialled acts) }.

Lemma round_refl s : round s s [].
Proof. split; try done; cbn; [intros a Ha; by apply elem_of_nil in Ha|apply NoDup_nil_2]. Qed.
Lemma round_trans s1 s2 s3 a b : round s1 s2 a -> round s2 s3 b -> round s1 s3 (a ++ b).
Proof.
  intros A B. split.
  - rewrite (ro_online _ _ _ B). apply A.
  - destruct (ro_rest _ _ _ A) as (?&?&?&?), (ro_rest _ _ _ B) as (?&?&?&?). split; [congruence|split; [congruence|split; congruence]].
  - rewrite (ro_conn _ _ _ B). apply A.
  - intros H. by apply (ro_sinv _ _ _ B), (ro_sinv _ _ _ A).
  - etrans; [apply A|apply B].
  - etrans; [apply A|apply B].
  - intros x. rewrite dialled_app, elem_of_app. intros [H|H].
    + destruct (ro_new _ _ _ A _ H) as (D & N1 & N2 & Q). split; [|done]. pose proof (ro_dialing _ _ _ B). pose proof (ro_feeler _ _ _ B). set_solver.
    + destruct (ro_new _ _ _ B _ H) as (D & N1 & N2 & Q). pose proof (ro_dialing _ _ _ A). pose proof (ro_feeler _ _ _ A).
      split; [done|]. split; [set_solver|]. split; [set_solver|]. by rewrite (ro_online _ _ _ A) in Q.
  - rewrite dialled_app. apply NoDup_app. split; [apply A|]. split; [|apply B]. intros x Hx Hy.
    destruct (ro_new _ _ _ A _ Hx) as ([D|D] & _); destruct (ro_new _ _ _ B _ Hy) as (_ & N1 & N2 & _); set_solver.
Qed.
(** the store alone *)
Lemma round_store s st : ps_conn st = ps_conn (pm_store s) -> (sinv (pm_store s) -> sinv st) -> round s (with_store s st) [].
Proof. intros C S. split; try done; cbn; [intros a Ha; by apply elem_of_nil in Ha|apply NoDup_nil_2]. Qed.

Lemma round_feeler s a s' acts : dial_feeler s a = Ok (s', acts) -> round s s' acts /\ pm_store s' = pm_store s /\ sublist (dialled acts) [a].
Proof.
  unfold dial_feeler. destruct (ma_peer a) as [q|] eqn:Eq; [|done]. destruct (_ && _ && _) eqn:E.
  2:{ intros [= <- <-]. split; [apply round_refl|]. split; [done|]. cbn. apply sublist_nil_l. }
  apply andb_prop in E as [E E3]. apply andb_prop in E as [E1 E2]. apply bool_decide_eq_true in E1, E2, E3.
  intros [= <- <-]. split; [|split; [done|reflexivity]]. split; cbn; try done; try apply union_subseteq_r.
  - intros b Hb. apply elem_of_list_singleton in Hb as ->. split; [set_solver|]. split; [done|]. split; [done|]. by exists q.
  - apply NoDup_singleton.
Qed.
Lemma round_identify s a s' acts : dial_identify s a = Ok (s', acts) -> round s s' acts /\ pm_store s' = pm_store s /\ sublist (dialled acts) [a].
Proof.
  unfold dial_identify. destruct (ma_peer a) as [q|] eqn:Eq; [|done]. destruct (_ && _ && _) eqn:E.
  2:{ intros [= <- <-]. split; [apply round_refl|]. split; [done|]. cbn. apply sublist_nil_l. }
  apply andb_prop in E as [E E3]. apply andb_prop in E as [E1 E2]. apply bool_decide_eq_true in E1, E2, E3.
  intros [= <- <-]. split; [|split; [done|reflexivity]]. split; cbn; try done; try apply union_subseteq_r.
  - intros b Hb. apply elem_of_list_singleton in Hb as ->. split; [set_solver|]. split; [done|]. split; [done|]. by exists q.
  - apply NoDup_singleton.
Qed.
Lemma round_each dial l : (forall s a s' acts, dial s a = Ok (s', acts) -> round s s' acts /\ pm_store s' = pm_store s /\ sublist (dialled acts) [a]) ->
  forall s s' acts, dial_each dial l s = Ok (s', acts) -> round s s' acts /\ pm_store s' = pm_store s /\ sublist (dialled acts) l.
Proof.
  intros Hd. induction l as [|a l IH]; intros s s' acts; cbn [dial_each].
  - intros [= <- <-]. split; [apply round_refl|]. split; [done|]. apply sublist_nil_l.
  - destruct (dial s a) as [[s1 a1]| |] eqn:E1; [|done|done]. destruct (dial_each dial l s1) as [[s2 a2]| |] eqn:E2; [|done|done]. intros [= <- <-].
    destruct (Hd _ _ _ _ E1) as (R1 & S1 & U1), (IH _ _ _ E2) as (R2 & S2 & U2). split; [by eapply round_trans|]. split; [congruence|].
    rewrite dialled_app. change (a :: l) with ([a] ++ l). by apply sublist_app.
Qed.

(* ---------------------------------------------------------------------- *)
(** * The address book during a round *)

Lemma mark_ok now i : ai_addr (mark_tried now i) = ai_addr i /\ ai_pos (mark_tried now i) = ai_pos i /\ strip (mark_tried now i) = mark_tried now (strip i).
Proof. done. Qed.
Lemma mark_all_minv now l : forall m, minv m -> minv (mark_all now l m).
Proof. unfold mark_all. induction l as [|a l IH]; intros m H; [done|]. cbn. apply IH. by apply (update_ok _ _ a (mark_ok now) H). Qed.
Lemma mark_all_out now x l : forall m, minv m -> at_sock x l = 0%nat -> look (mark_all now l m) x = look m x.
Proof.
  unfold mark_all. induction l as [|a l IH]; intros m H Hx; [done|]. cbn. destruct (update_ok _ m a (mark_ok now) H) as (Hm & _ & Hl & _).
  unfold at_sock in Hx. rewrite filter_cons in Hx. case_decide as D; [done|]. rewrite IH by done. rewrite Hl. by rewrite decide_False.
Qed.
Lemma mark_all_in now x l : forall m, minv m -> at_sock x l = 1%nat -> look (mark_all now l m) x = mark_tried now <$> look m x.
Proof.
  induction l as [|a l IH]; intros m H Hx; [done|]. unfold mark_all. cbn. destruct (update_ok _ m a (mark_ok now) H) as (Hm & _ & Hl & _).
  unfold at_sock in Hx. rewrite filter_cons in Hx. case_decide as D.
  - cbn in Hx. pose proof (mark_all_out now x l (mgr_update (mark_tried now) m a) Hm) as Ho. unfold mark_all in Ho. rewrite Ho by (unfold at_sock; lia). rewrite Hl. by rewrite decide_True.
  - unfold mark_all in IH. rewrite IH by done. rewrite Hl. by rewrite decide_False.
Qed.
Lemma sinv_mark now l p : sinv p -> sinv (set_book p (mark_all now l (ps_book p))).
Proof. intros H. split; cbn; [apply mark_all_minv, H|apply H]. Qed.

(** an entry whose last connection is not of the last three days *)
Definition stale (now : N) (e : ainfo) : Prop := ai_conn e <= now - ADDR_TRY_TIMEOUT_MS.
(** what may happen to it in a round in which it is dialled [n] times *)
Definition moved (now : N) (e e' : ainfo) (n : nat) : Prop :=
  (e' = e /\ n = 0%nat) \/ (tried_in_last_minute now e = false /\ is_connectable now e = true /\ e' = mark_tried now e /\ (n <= 1)%nat).
Lemma moved_trans now e1 e2 e3 n m : moved now e1 e2 n -> moved now e2 e3 m -> moved now e1 e3 (n + m).
Proof.
  intros [[-> ->]|(T & C & -> & Hn)] B; [done|]. destruct B as [[-> ->]|(T' & _)].
  - right. split; [done|]. split; [done|]. split; [done|]. lia.
  - unfold tried_in_last_minute in T'. cbn in T'. apply N.leb_gt in T'. lia.
Qed.
Definition entry_moves (now : N) (x : sock) (b b' : mgr) (n : nat) : Prop :=
  forall e, look b x = Some e -> stale now e -> exists e', look b' x = Some e' /\ moved now e e' n.
Lemma entry_refl now x b : entry_moves now x b b 0.
Proof. intros e He _. exists e. split; [done|]. by left. Qed.
Lemma moved_stale now e e' n : stale now e -> moved now e e' n -> stale now e'.
Proof. intros H [[-> _]|(_ & _ & -> & _)]; done. Qed.
Lemma entry_trans now x b1 b2 b3 n m : entry_moves now x b1 b2 n -> entry_moves now x b2 b3 m -> entry_moves now x b1 b3 (n + m).
Proof.
  intros A B e He Hs. destruct (A e He Hs) as (e2 & H2 & M2). destruct (B e2 H2 (moved_stale _ _ _ _ Hs M2)) as (e3 & H3 & M3).
  exists e3. split; [done|]. by eapply moved_trans.
Qed.

(** fetching for the attempts leaves stale entries alone *)
Lemma fetch_mark_inv which picks now count p st l :
  sinv p -> 0 < count -> fetch_mark which picks now count p = Ok (st, l) ->
  sinv st /\ ps_conn st = ps_conn p /\
  exists m' es, mgr_fetch picks now count (which now p) (ps_book p) = Ok (m', es) /\ l = map ai_addr es /\ ps_book st = mark_all now l m' /\ minv m' /\
    (forall s, look m' s = look (ps_book p) s) /\
    (forall e, e ∈ es -> is_connectable now e = true /\ which now p e = true /\ exists s, ma_sock (ai_addr e) = Some s /\ look (ps_book p) s = Some (strip e)) /\
    NoDup (map (fun e => ma_sock (ai_addr e)) es).
Proof.
  intros H Hc. unfold fetch_mark, ps_fetch. destruct (fetch_ok (ps_book p) picks now count (which now p) (si_book p H) Hc) as (m' & es & Hf & Hm & _ & Hl & _ & _ & He & Hd & _).
  rewrite Hf. intros [= <- <-]. split; [split; cbn; [by apply mark_all_minv|apply H]|]. split; [done|]. exists m', es. done.
Qed.
Lemma nodup_at_sock x es : NoDup (map (fun e => ma_sock (ai_addr e)) es) -> (at_sock x (map ai_addr es) <= 1)%nat.
Proof.
  unfold at_sock. induction es as [|e es IH]; [cbn; lia|]. cbn [map]. rewrite NoDup_cons. intros [Hn Hd]. rewrite filter_cons. case_decide as D; [|by apply IH].
  cbn [length]. assert (Hz : at_sock x (map ai_addr es) = 0%nat); [|unfold at_sock in Hz; lia]. apply at_sock_none. intros a Ha E.
  apply Hn. rewrite D, <- E. apply elem_of_list_fmap in Ha as (e' & -> & He'). change (ma_sock (ai_addr e')) with ((fun e => ma_sock (ai_addr e)) e'). by apply elem_of_list_fmap_1.
Qed.
Lemma fetch_attempt_moves picks now count p st l x :
  sinv p -> 0 < count -> fetch_mark attempt_filter picks now count p = Ok (st, l) ->
  forall e, look (ps_book p) x = Some e -> stale now e -> at_sock x l = 0%nat /\ look (ps_book st) x = Some e.
Proof.
  intros H Hc Hf e He Hs. destruct (fetch_mark_inv _ _ _ _ _ _ _ H Hc Hf) as (_ & _ & m' & es & _ & -> & Hb & Hm & Hl & Hes & _).
  assert (Hz : at_sock x (map ai_addr es) = 0%nat).
  { apply at_sock_none. intros a Ha E. apply elem_of_list_fmap in Ha as (e' & -> & He'). destruct (Hes _ He') as (_ & Ha & s & Es & Lk).
    assert (s = x) as -> by congruence. rewrite He in Lk. injection Lk as ->. unfold attempt_filter in Ha. apply andb_prop in Ha as [_ Ha]. apply andb_prop in Ha as [Ha _].
    apply N.ltb_lt in Ha. unfold stale in Hs. cbn in Hs. lia. }
  split; [done|]. rewrite Hb, mark_all_out by done. by rewrite Hl.
Qed.
Lemma fetch_feeler_moves picks now count p st l x :
  sinv p -> 0 < count -> fetch_mark feeler_filter picks now count p = Ok (st, l) ->
  forall e, look (ps_book p) x = Some e ->
    (at_sock x l = 0%nat /\ look (ps_book st) x = Some e) \/
    (at_sock x l = 1%nat /\ tried_in_last_minute now e = false /\ is_connectable now e = true /\ look (ps_book st) x = Some (mark_tried now e)).
Proof.
  intros H Hc Hf e He. destruct (fetch_mark_inv _ _ _ _ _ _ _ H Hc Hf) as (_ & _ & m' & es & _ & -> & Hb & Hm & Hl & Hes & Hd).
  pose proof (nodup_at_sock x es Hd) as Hle. destruct (at_sock x (map ai_addr es)) as [|[|k]] eqn:En; [| |lia].
  - left. split; [done|]. rewrite Hb, mark_all_out by done. by rewrite Hl.
  - right. split; [done|]. assert (Hin : exists e', e' ∈ es /\ ma_sock (ai_addr e') = Some x).
    { unfold at_sock in En. destruct (filter _ _) as [|a r] eqn:Ef; [done|]. assert (Ha : a ∈ filter (fun a => ma_sock a = Some x) (map ai_addr es)) by (rewrite Ef; left).
      apply elem_of_list_filter in Ha as [Hs Ha]. apply elem_of_list_fmap in Ha as (e' & -> & He'). by exists e'. }
    destruct Hin as (e' & He' & Es). destruct (Hes _ He') as (Hcn & Hfl & s & Es' & Lk). assert (s = x) as -> by congruence. rewrite He in Lk. injection Lk as ->.
    unfold feeler_filter in Hfl. apply andb_prop in Hfl as [Hfl _]. apply andb_prop in Hfl as [_ Hfl]. apply negb_true_iff in Hfl.
    split; [done|]. split; [done|]. rewrite Hb, mark_all_in by done. by rewrite Hl, He.
Qed.

(** so does looking up the addresses of a peer *)
Lemma by_peer_in m now flt q set a : mgr_by_peer now flt m q = Ok set -> a ∈ set ->
  exists id i, m_info m !! id = Some i /\ ai_addr i = a /\ is_connectable now i = true /\ flt i = true.
Proof.
  unfold mgr_by_peer. destruct (m_peer m !! q) as [ids|]; [|intros [= <-]; set_solver]. generalize (elements ids). intros l. revert set.
  induction l as [|id l IH]; intros set; cbn [foldr]; [intros [= <-]; set_solver|].
  destruct (foldr _ _ l) as [s| |]; [|done|done]. destruct (m_info m !! id) as [i|] eqn:Ei; [|done]. intros [= <-]. destruct (is_connectable now i && flt i) eqn:E.
  - rewrite elem_of_union. intros [Ha|Ha]; [|by apply (IH s)]. apply elem_of_singleton in Ha as ->. apply andb_prop in E as [? ?]. by exists id, i.
  - by apply (IH s).
Qed.
Lemma unconnected_moves now x online ids : forall p st l, sinv p -> unconnected now ids online p = Ok (st, l) ->
  sinv st /\ ps_conn st = ps_conn p /\ (forall e, look (ps_book p) x = Some e -> stale now e -> at_sock x l = 0%nat /\ look (ps_book st) x = Some e).
Proof.
  induction ids as [|q ids IH]; intros p st l H; cbn [unconnected]; [intros [= <- <-]; done|].
  destruct (online !! q); [by apply IH|]. unfold ps_fetch_by_peer. destruct (mgr_by_peer _ _ _ _) as [set| |] eqn:Eb; [|done|done]. cbv zeta.
  destruct (unconnected _ _ _ _) as [[p' l']| |] eqn:Eu; [|done|done]. intros [= <- <-].
  destruct (IH _ _ _ (sinv_mark now (elements set) p H) Eu) as (Hs' & Hc' & Hx'). split; [done|]. split; [by rewrite Hc'|].
  intros e He Hst. assert (Hz : at_sock x (elements set) = 0%nat).
  { apply at_sock_none. intros a Ha E. apply elem_of_elements in Ha. destruct (by_peer_in _ _ _ _ _ _ Eb Ha) as (id & i & Hi & <- & _ & Hf).
    destruct (mi_info _ (si_book p H) _ _ Hi) as (s & Es & Ea). assert (s = x) as -> by congruence.
    assert (Lk : look (ps_book p) x = Some (strip i)) by (apply look_some; by exists id, i). rewrite He in Lk. injection Lk as ->.
    unfold by_peer_filter in Hf. apply andb_prop in Hf as [Hf _]. apply N.ltb_lt in Hf. unfold stale in Hst. cbn in Hst. lia. }
  destruct (Hx' e) as [Hz' Hl']; [|done|]. { cbn. rewrite mark_all_out; [done|apply H|done]. } split; [|done]. rewrite at_sock_app. lia.
Qed.

(* ---------------------------------------------------------------------- *)
(** * The four parts of a tick *)

Definition away (x : sock) (l : list maddr) : Prop := forall a, a ∈ l -> ma_sock a <> Some x.
Definition moves (now : N) (x : sock) (s s' : pm) (acts : list action) : Prop :=
  entry_moves now x (ps_book (pm_store s)) (ps_book (pm_store s')) (at_sock x (dialled acts)).
Lemma moves_trans now x s1 s2 s3 a b : moves now x s1 s2 a -> moves now x s2 s3 b -> moves now x s1 s3 (a ++ b).
Proof. unfold moves. rewrite dialled_app, at_sock_app. apply entry_trans. Qed.

Lemma consensus_ok now order s s' acts : sinv (pm_store s) -> try_consensus now order s = Ok (s', acts) -> round s s' acts /\ forall x, moves now x s s' acts.
Proof.
  intros H. unfold try_consensus. destruct (unconnected _ _ _ _) as [[st l]| |] eqn:Eu; [|done|done]. intros Hd.
  destruct (round_each _ l round_identify _ _ _ Hd) as (R & S & U). split.
  - change acts with ([] ++ acts). eapply round_trans; [|done]. apply round_store.
    + by destruct (unconnected_moves now (false, 0, 0) _ _ _ _ _ H Eu) as (_ & ? & _).
    + intros _. by destruct (unconnected_moves now (false, 0, 0) _ _ _ _ _ H Eu) as (? & _ & _).
  - intros x e He Hs. destruct (unconnected_moves now x _ _ _ _ _ H Eu) as (_ & _ & Hx). destruct (Hx e He Hs) as [Hz Hl].
    exists e. rewrite S. split; [done|]. left. split; [done|]. pose proof (at_sock_sub x _ _ U). lia.
Qed.
Lemma peers_ok now picks chosen boots tries s s' acts t : sinv (pm_store s) -> try_peers now picks chosen boots tries s = Ok (s', acts, t) ->
  round s s' acts /\ forall x, away x boots -> moves now x s s' acts.
Proof.
  intros H. unfold try_peers. destruct (pm_max s <? pm_inlimit s); [done|]. cbv zeta. destruct (N.eqb_spec (dial_quota s) 0) as [_|Hc].
  { intros [= <- <- _]. split; [apply round_refl|]. intros x _ e He _. exists e. split; [done|]. by left. }
  assert (Hfin : forall st l extra s1 acts1, sinv st -> ps_conn st = ps_conn (pm_store s) ->
      (forall x e, look (ps_book (pm_store s)) x = Some e -> stale now e -> at_sock x l = 0%nat /\ look (ps_book st) x = Some e) ->
      (forall x, away x boots -> away x extra) ->
      dial_each dial_identify (l ++ extra) (with_store s st) = Ok (s1, acts1) -> round s s1 acts1 /\ forall x, away x boots -> moves now x s s1 acts1).
  { intros st l extra s1 acts1 Hs Hcn Hl Hx Hd. destruct (round_each _ _ round_identify _ _ _ Hd) as (R & S & U). split.
    - change acts1 with ([] ++ acts1). eapply round_trans; [by apply round_store|done].
    - intros x Hb e He Hst. destruct (Hl x e He Hst) as [Hz Hk]. exists e. rewrite S. split; [done|]. left. split; [done|].
      pose proof (at_sock_sub x _ _ U) as Hle. rewrite at_sock_app, Hz, (at_sock_none x extra) in Hle by (by apply Hx). lia. }
  assert (Hsub : forall (f : maddr -> bool) (l : list maddr) x, away x l -> away x (List.filter f l)).
  { intros f l x Ha a Hin. apply Ha. apply elem_of_list_In in Hin. apply filter_In in Hin as [Hin _]. by apply elem_of_list_In. }
  destruct (3 <? tries + 1).
  - destruct (N.ltb_spec (N.of_nat (length (List.filter (not_online s) boots))) (dial_quota s)) as [Hn|Hn].
    + destruct (fetch_mark _ _ _ _ _) as [[st l]| |] eqn:Ef; [|done|done]. destruct (dial_each _ _ _) as [[s1 a1]| |] eqn:Ed; [|done|done]. intros [= <- <- _].
      assert (Hpos : 0 < dial_quota s - N.of_nat (length (List.filter (not_online s) boots))) by lia.
      destruct (fetch_mark_inv _ _ _ _ _ _ _ H Hpos Ef) as (? & ? & _). eapply Hfin; [done|done| | |done]; [|by intros; apply Hsub].
      intros x e He Hs. exact (fetch_attempt_moves _ _ _ _ _ _ x H Hpos Ef e He Hs).
    + destruct (dial_each _ _ _) as [[s1 a1]| |] eqn:Ed; [|done|done]. intros [= <- <- _]. eapply (Hfin (pm_store s) []); [done|done|done| |done].
      intros x Hx. by apply Hsub, Hsub.
  - destruct (fetch_mark _ _ _ _ _) as [[st l]| |] eqn:Ef; [|done|done]. destruct (dial_each _ _ _) as [[s1 a1]| |] eqn:Ed; [|done|done]. intros [= <- <- _].
    assert (Hpos : 0 < dial_quota s) by lia.
    destruct (fetch_mark_inv _ _ _ _ _ _ _ H Hpos Ef) as (? & ? & _). eapply Hfin; [done|done| | |done].
    + intros x e He Hs. exact (fetch_attempt_moves _ _ _ _ _ _ x H Hpos Ef e He Hs).
    + intros x _ a Ha. by apply elem_of_nil in Ha.
Qed.
Lemma feeler_ok now picks s s' acts : sinv (pm_store s) -> try_feeler now picks s = Ok (s', acts) -> round s s' acts /\ forall x, moves now x s s' acts.
Proof.
  intros H. unfold try_feeler. destruct (fetch_mark _ _ _ _ _) as [[st l]| |] eqn:Ef; [|done|done]. intros Hd.
  destruct (fetch_mark_inv _ _ _ _ _ _ _ H (ltac:(lia) : 0 < 10) Ef) as (Hs & Hc & _). destruct (round_each _ l round_feeler _ _ _ Hd) as (R & S & U). split.
  - change acts with ([] ++ acts). eapply round_trans; [by apply round_store|done].
  - intros x e He Hst. rewrite S. cbn [with_store pm_store]. pose proof (at_sock_sub x _ _ U) as Hle.
    destruct (fetch_feeler_moves _ _ _ _ _ _ x H (ltac:(lia) : 0 < 10) Ef e He) as [[Hz Hl]|(Hz & Ht & Hcn & Hl)].
    + exists e. split; [done|]. left. split; [done|]. lia.
    + exists (mark_tried now e). split; [done|]. right. split; [done|]. split; [done|]. split; [done|]. lia.
Qed.
Lemma observed_ok now public choice s s' acts : try_observed public choice s = Ok (s', acts) -> round s s' acts /\ forall x, away x public -> moves now x s s' acts.
Proof.
  unfold try_observed. destruct (public !! _) as [a|] eqn:Ea.
  - intros Hd. destruct (round_identify _ _ _ _ Hd) as (R & S & U). split; [done|]. intros x Hx e He _. exists e. rewrite S. split; [done|]. left. split; [done|].
    pose proof (at_sock_sub x _ _ U) as Hle. rewrite (at_sock_none x [a]) in Hle; [lia|]. intros b Hb. apply elem_of_list_singleton in Hb as ->. apply Hx. by eapply elem_of_list_lookup_2.
  - intros [= <- <-]. split; [apply round_refl|]. intros x _ e He _. exists e. split; [done|]. by left.
Qed.
Lemma tick_ok order p1 p2 chosen choice d d' acts : sinv (pm_store (ns_pm (ds_net d))) -> tick order p1 p2 chosen choice d = Ok (d', acts) ->
  round (ns_pm (ds_net d)) (ns_pm (ds_net d')) acts /\ ns_open (ds_net d') = ns_open (ds_net d) /\ ns_now (ds_net d') = ns_now (ds_net d) /\
  ds_boots d' = ds_boots d /\ ds_public d' = ds_public d /\
  forall x, away x (ds_boots d) -> away x (ds_public d) -> moves (ns_now (ds_net d)) x (ns_pm (ds_net d)) (ns_pm (ds_net d')) acts.
Proof.
  intros H. unfold tick. cbv zeta. set (s0 := ns_pm (ds_net d)) in *. set (now := ns_now (ds_net d)).
  destruct (try_consensus _ _ _) as [[s1 a1]| |] eqn:E1; [|done|done]. destruct (consensus_ok _ _ _ _ _ H E1) as [R1 M1].
  pose proof (ro_sinv _ _ _ R1 H) as H1. destruct (try_peers _ _ _ _ _ _) as [[[s2 a2] t]| |] eqn:E2; [|done|done]. destruct (peers_ok _ _ _ _ _ _ _ _ _ H1 E2) as [R2 M2].
  pose proof (ro_sinv _ _ _ R2 H1) as H2. destruct (try_feeler _ _ _) as [[s3 a3]| |] eqn:E3; [|done|done]. destruct (feeler_ok _ _ _ _ _ H2 E3) as [R3 M3].
  destruct (try_observed _ _ _) as [[s4 a4]| |] eqn:E4; [|done|done]. destruct (observed_ok now _ _ _ _ _ E4) as [R4 M4].
  intros [= <- <-]. cbn. split; [by eapply round_trans, round_trans, round_trans|]. split; [done|]. split; [done|]. split; [done|]. split; [done|].
  intros x Hb Hp. eapply moves_trans; [apply M1|]. eapply moves_trans; [by apply M2|]. eapply moves_trans; [apply M3|by apply M4].
Qed.

Lemma ninv_round s s' o t t' acts : ninv (NS s o t) -> round s s' acts -> ninv (NS s' o t').
Proof.
  intros H R. destruct (ro_rest _ _ _ R) as (_ & _ & Hm & _). split; cbn.
  - apply R, (ni_store _ H).
  - rewrite (ro_online _ _ _ R). apply (ni_open _ H).
  - apply (ni_peer _ H).
  - apply (ni_uniq _ H).
  - rewrite Hm. apply (ni_size _ H).
  - rewrite (ro_online _ _ _ R), (ro_conn _ _ _ R). apply (ni_conn _ H).
Qed.
Lemma ninv_dial_error s a o t : ninv (NS s o t) -> ninv (NS (dial_error s a) o t).
Proof. intros H. split; cbn; apply H. Qed.
Lemma passive_pos e : passive e = true -> fetch_pos e.
Proof. by destruct e. Qed.
Lemma dstep_ninv d e d' acts : ninv (ds_net d) -> dstep d e = Ok (d', acts) -> ninv (ds_net d') /\ ns_now (ds_net d) <= ns_now (ds_net d').
Proof.
  intros H. destruct d as [[s o now] tr boots public]. destruct e as [|order p1 p2 chosen choice|ids|a|e]; cbn [dstep].
  - cbv zeta. destruct (dial_each _ _ _) as [[s' ac]| |] eqn:E; [|done|done]. intros [= <- <-]. cbn. destruct (round_each _ _ round_identify _ _ _ E) as (R & _). split; [by eapply ninv_round|lia].
  - intros E. destruct (tick_ok _ _ _ _ _ _ _ _ (ni_store _ H) E) as (R & Ho & Hn & _). destruct d' as [[s' o' now'] ? ? ?]. cbn in *. subst. split; [by eapply ninv_round|lia].
  - unfold cast. cbv zeta. destruct (unconnected _ _ _ _) as [[st l]| |] eqn:E; [|done|done]. intros [= <- <-]. cbn in *. split; [|lia].
    destruct (unconnected_moves now (false, 0, 0) _ _ _ _ _ (ni_store _ H) E) as (Hs & Hc & _). eapply (ninv_round s _ o now now []); [done|]. by apply round_store.
  - intros [= <- <-]. cbn. split; [by apply ninv_dial_error|lia].
  - destruct (passive e) eqn:Ep; [|intros [= <- <-]; cbn; split; [done|lia]]. destruct (nstep _ _) as [[n ac]| |] eqn:E; [|done|done]. intros [= <- <-].
    destruct (step_ok _ _ _ _ H (passive_pos e Ep) E) as (? & ? & _). done.
Qed.

(* ---------------------------------------------------------------------- *)
(** * An address that does not answer *)

(** events that do not concern the entry at [x]: nothing connects to it, the node is not connected to it and bans it, the book has
    room for further addresses, and it is not one of the bootstrap nodes or the node itself *)
Definition calm_net (x : sock) (n : nstate) (e : nev) : Prop :=
  match e with
  | NAddOut a => ma_sock a <> Some x
  | NAdd _ _ => mgr_count (ps_book (pm_store (ns_pm n))) < ADDR_COUNT_LIMIT
  | NProtoErr sid => forall q i, pm_online (ns_pm n) !! q = Some i -> pi_sid i = sid -> ma_sock (pi_addr i) <> Some x
  | NBan q _ => forall i, pm_online (ns_pm n) !! q = Some i -> ma_sock (pi_addr i) <> Some x
  | _ => True
  end.
Definition calm (x : sock) (d : dstate) (e : dev) : Prop :=
  match e with DSelf a => ma_sock a <> Some x | DNet e => calm_net x (ds_net d) e | _ => True end.
Fixpoint undisturbed (x : sock) (d : dstate) (es : list dev) : Prop :=
  match es with
  | [] => True
  | e :: r => calm x d e /\ forall d' acts, dstep d e = Ok (d', acts) -> undisturbed x d' r
  end.
(** when the node dials [x] *)
Fixpoint times (x : sock) (d : dstate) (es : list dev) : list N :=
  match es with
  | [] => []
  | e :: r => match dstep d e with Ok (d', acts) => repeat (ns_now (ds_net d)) (at_sock x (dialled acts)) ++ times x d' r | _ => [] end
  end.

Lemma passive_entry x n e n' acts e0 : ninv n -> passive e = true -> calm_net x n e -> nstep n e = Ok (n', acts) ->
  look (ps_book (pm_store (ns_pm n))) x = Some e0 -> look (ps_book (pm_store (ns_pm n'))) x = Some e0 /\ dialled acts = [].
Proof.
  intros H Hp Hc. destruct n as [s o now]. destruct e as [sid a out|sid|sid|q until|c|a|a|a|evict a|a|a|which picks count|dt]; cbn [nstep ns_pm ns_open ns_now] in *; try done.
  - destruct (open_ok _ _ _); [|by intros [= <- <-]]. unfold lift. destruct (session_open _ _ _ _ _) as [[p ac]| |] eqn:E; [|done|done]. intros [= <- <-]. cbn.
    destruct (session_open_cases _ _ _ _ _ _ E) as [[_ [= -> ->]]|[(_ & _ & _ & [= -> ->])|(_ & _ & q & p2 & _ & [= -> ->] & _ & Hb & _)]]; [done|done|]. by rewrite Hb.
  - destruct (o !! sid) as [[a ?]|]; [|by intros [= <- <-]]. unfold unregister. destruct (ma_peer a) as [q|]; [|done].
    destruct (pm_online s !! q) as [i|]; [destruct (ma_peer (pi_addr i)); [|done]|]; intros [= <- <-]; cbn; done.
  - destruct (o !! sid); [|by intros [= <- <-]]. unfold protocol_error, ban_session_id. destruct (find_sid _ _) as [i|] eqn:Ef.
    2:{ intros [= <- <-]. done. }
    destruct (ps_ban_addr _ _ _ _) as [st| |] eqn:Eb; [|done|done]. intros [= <- <-]. cbn. intros He. split; [|done].
    destruct (ban_addr_ok _ _ _ _ _ (ni_store _ H) Eb) as (_ & _ & Hl & _). rewrite Hl. unfold spec_remove.
    destruct (find_sid_some _ _ _ Ef) as (q & Hq & Hs). rewrite decide_False; [done|]. by apply (Hc q i).
  - unfold tag_ban, ban_id. destruct (pm_online s !! q) as [i|] eqn:Eo; [|intros [= <- <-]; done].
    destruct (ps_ban_addr _ _ _ _) as [st| |] eqn:Eb; [|done|done]. intros [= <- <-]. cbn. intros He. split; [|done].
    destruct (ban_addr_ok _ _ _ _ _ (ni_store _ H) Eb) as (_ & _ & Hl & _). rewrite Hl. unfold spec_remove. rewrite decide_False; [done|]. by apply Hc.
  - by intros [= <- <-].
  - by intros [= <- <-].
  - unfold ps_add_addr. destruct (addr_banned _ _ _); [by intros [= <- <-]|]. unfold check_purge. cbn [calm_net ns_pm] in Hc. apply N.ltb_lt in Hc. rewrite Hc.
    destruct (mgr_add _ _) as [m| |] eqn:Ea; [|by intros [= <- <-]|done]. intros [= <- <-]. cbn. intros He. split; [|done].
    destruct (add_inv _ _ _ (si_book _ (ni_store _ H)) Ea) as (_ & _ & Hl & _). cbn [ns_pm] in Hl. rewrite Hl. unfold spec_add. case_decide; [|done]. rewrite He. cbn.
    by destruct (ai_conn e0).
  - unfold ps_add_outbound. destruct (addr_banned _ _ _); [by intros [= <- <-]|].
    destruct (mgr_add _ _) as [m| |] eqn:Ea; [|by intros [= <- <-]|done]. intros [= <- <-]. cbn. intros He. split; [|done].
    destruct (add_inv _ _ _ (si_book _ (ni_store _ H)) Ea) as (_ & _ & Hl & _). cbn [ns_pm] in Hl. rewrite Hl. unfold spec_add. rewrite decide_False; [done|]. exact Hc.
  - by intros [= <- <-].
Qed.

(** one event *)
Lemma dstep_entry x d e d' acts : ninv (ds_net d) -> calm x d e -> away x (ds_boots d) -> away x (ds_public d) -> dstep d e = Ok (d', acts) ->
  away x (ds_boots d') /\ away x (ds_public d') /\
  entry_moves (ns_now (ds_net d)) x (ps_book (pm_store (ns_pm (ds_net d)))) (ps_book (pm_store (ns_pm (ds_net d')))) (at_sock x (dialled acts)).
Proof.
  intros H Hc Hb Hp. destruct d as [n tr boots public]. cbn [ds_net ds_boots ds_public] in *. destruct e as [|order p1 p2 chosen choice|ids|a|e]; cbn [dstep ds_net ds_boots ds_public].
  - cbv zeta. destruct (dial_each _ _ _) as [[s' ac]| |] eqn:E; [|done|done]. intros [= <- <-]. cbn. split; [done|]. split; [done|].
    destruct (round_each _ _ round_identify _ _ _ E) as (_ & S & U). rewrite S. intros e He _. exists e. split; [done|]. left. split; [done|].
    pose proof (at_sock_sub x _ _ U) as Hle. rewrite (at_sock_none x boots Hb) in Hle. lia.
  - intros E. destruct (tick_ok _ _ _ _ _ (DS n tr boots public) _ _ (ni_store _ H) E) as (_ & _ & _ & Eb & Ep & M). cbn in Eb, Ep, M. rewrite Eb, Ep. split; [done|]. split; [done|]. by apply M.
  - unfold cast. cbv zeta. cbn [ds_net]. destruct (unconnected _ _ _ _) as [[st l]| |] eqn:E; [|done|done]. intros [= <- <-]. cbn. split; [done|]. split; [done|].
    assert (Hd : dialled (map ADial l) = l) by (clear; induction l as [|a l IH]; [done|]; cbn; by f_equal). rewrite Hd.
    destruct (unconnected_moves _ x _ _ _ _ _ (ni_store _ H) E) as (_ & _ & Hx). intros e He Hs. destruct (Hx e He Hs) as [-> Hl]. exists e. split; [done|]. by left.
  - intros [= <- <-]. cbn. split; [done|]. split; [|apply entry_refl]. intros b Hin. apply elem_of_cons in Hin as [->|Hin]; [done|by apply Hp].
  - destruct (passive e) eqn:Ep; [|intros [= <- <-]; split; [done|]; split; [done|apply entry_refl]].
    destruct (nstep _ _) as [[n' ac]| |] eqn:E; [|done|done]. intros [= <- <-]. cbn. split; [done|]. split; [done|]. intros e0 He _.
    destruct (passive_entry _ _ _ _ _ _ H Ep Hc E He) as [Hl ->]. exists e0. split; [done|]. by left.
Qed.

Definition minute_apart (t1 t2 : N) : Prop := t1 + 60000 < t2.
Lemma silent_gen x es : forall d e, ninv (ds_net d) -> away x (ds_boots d) -> away x (ds_public d) -> undisturbed x d es ->
  look (ps_book (pm_store (ns_pm (ds_net d)))) x = Some e -> stale (ns_now (ds_net d)) e ->
  StronglySorted minute_apart (times x d es) /\ (forall t, t ∈ times x d es -> ai_tried e + 60000 < t) /\
  (ai_conn e = 0 -> N.of_nat (length (times x d es)) <= 3 - ai_att e) /\
  (ai_conn e + ADDR_TIMEOUT_MS < ns_now (ds_net d) -> N.of_nat (length (times x d es)) <= 10 - ai_att e).
Proof.
  induction es as [|ev es IH]; intros d e H Hb Hp Hu He Hs.
  { cbn. split; [constructor|]. split; [intros t Ht; by apply elem_of_nil in Ht|]. split; lia. }
  cbn [times]. destruct Hu as [Hc Hu]. destruct (dstep d ev) as [[d' acts]| |] eqn:E.
  2,3: cbn; split; [constructor|]; split; [intros t Ht; by apply elem_of_nil in Ht|]; split; lia.
  destruct (dstep_ninv _ _ _ _ H E) as [H' Hn]. destruct (dstep_entry _ _ _ _ _ H Hc Hb Hp E) as (Hb' & Hp' & M).
  destruct (M e He Hs) as (e' & He' & Hm).
  assert (Hs' : stale (ns_now (ds_net d')) e'). { apply (moved_stale _ _ _ _ Hs) in Hm. unfold stale in *. lia. }
  destruct (IH d' e' H' Hb' Hp' (Hu _ _ eq_refl) He' Hs') as (I1 & I2 & I3 & I4). destruct Hm as [[-> Hz]|(T & C & -> & Hle)].
  - rewrite Hz. cbn [repeat app]. split; [done|]. split; [done|]. split; [done|]. intros Ht. apply I4. lia.
  - unfold tried_in_last_minute in T. apply N.leb_gt in T. cbn in I2, I3, I4. unfold is_connectable, tried_in_last_minute in C.
    assert (Ht : (ns_now (ds_net d) - 60000 <=? ai_tried e) = false) by (apply N.leb_gt; lia). rewrite Ht in C.
    destruct (at_sock x (dialled acts)) as [|[|k]] eqn:En; [| |lia]; cbn [repeat app].
    + split; [done|]. split; [intros t Hin; apply I2 in Hin; lia|]. split; [intros Hz; specialize (I3 Hz); lia|]. intros Hz. specialize (I4 (ltac:(lia))). lia.
    + split; [constructor; [done|]; apply Forall_forall; intros t Hin; by apply I2|]. split; [|split].
      * intros t Hin. apply elem_of_cons in Hin as [->|Hin]; [lia|]. apply I2 in Hin. lia.
      * intros Hz. specialize (I3 Hz). cbn [length]. destruct (N.eqb_spec (ai_conn e) 0) as [_|]; [|done]. cbn [andb] in C. destruct (N.leb_spec ADDR_MAX_RETRIES (ai_att e)) as [|Ha]; [done|].
        unfold ADDR_MAX_RETRIES in Ha. change (2 ^ 32 - 1) with 4294967295 in I3. lia.
      * intros Hz. specialize (I4 (ltac:(lia))). cbn [length]. destruct ((ai_conn e =? 0) && _); [done|]. unfold ADDR_TIMEOUT_MS in *. destruct (N.ltb_spec 604800000 (ns_now (ds_net d) - ai_conn e)) as [_|]; [|lia].
        cbn [andb] in C. destruct (N.leb_spec ADDR_MAX_FAILURES (ai_att e)) as [|Ha]; [done|]. unfold ADDR_MAX_FAILURES in Ha. change (2 ^ 32 - 1) with 4294967295 in I4. lia.
Qed.

(* ---------------------------------------------------------------------- *)
(** * A node at work *)

Definition dinit (boot : gset N) (max inl now : N) (boots : list maddr) : dstate := DS (ninit boot max inl now) 0 boots [].

Lemma drun_ninv es : forall d d' tr, ninv (ds_net d) -> drun d es = Ok (d', tr) -> ninv (ds_net d').
Proof.
  induction es as [|e es IH]; intros d d' tr H; cbn [drun]; [by intros [= <- <-]|].
  destruct (dstep d e) as [[d1 acts]| |] eqn:E; [|done|done]. destruct (drun d1 es) as [[d2 tr2]| |] eqn:R; [|done|done]. intros [= <- <-].
  apply (IH d1 d2 tr2); [by eapply dstep_ninv|done].
Qed.

Section node.
Context (boot : gset N) (max inl now0 : N) (boots : list maddr) (before : list dev) (d : dstate) (tr : list (dev * list action)).
Hypothesis (Hrun : drun (dinit boot max inl now0 boots) before = Ok (d, tr)).
Notation book := (ps_book (pm_store (ns_pm (ds_net d)))).
Notation now := (ns_now (ds_net d)).

Lemma dreach : ninv (ds_net d).
Proof. eapply drun_ninv; [|done]. apply ninv_init. Qed.

(** C93: an address the node never reached is dialled at most three times in all, more than a minute apart *)
Theorem C93_silent x e es :
  look book x = Some e -> ai_conn e = 0 -> away x (ds_boots d) -> away x (ds_public d) -> undisturbed x d es ->
  N.of_nat (length (times x d es)) <= 3 - ai_att e /\ StronglySorted minute_apart (ai_tried e :: times x d es).
Proof.
  intros He Hz Hb Hp Hu. destruct (silent_gen x es d e dreach Hb Hp Hu He) as (A & B & C & _); [unfold stale; rewrite Hz; lia|].
  split; [by apply C|]. constructor; [done|]. apply Forall_forall. exact B.
Qed.
(** C93: one the node has not reached for a week, ten times; one not reached for three days, never twice in a minute *)
Theorem C93_lapsed x e es :
  look book x = Some e -> away x (ds_boots d) -> away x (ds_public d) -> undisturbed x d es ->
  (ai_conn e <= now - ADDR_TRY_TIMEOUT_MS -> StronglySorted minute_apart (ai_tried e :: times x d es)) /\
  (ai_conn e + ADDR_TIMEOUT_MS < now -> N.of_nat (length (times x d es)) <= 10 - ai_att e).
Proof.
  intros He Hb Hp Hu. split.
  - intros Hs. destruct (silent_gen x es d e dreach Hb Hp Hu He Hs) as (A & B & _). constructor; [done|]. apply Forall_forall. exact B.
  - intros Hs. apply (silent_gen x es d e dreach Hb Hp Hu He); [|done]. unfold stale, ADDR_TRY_TIMEOUT_MS. unfold ADDR_TIMEOUT_MS in Hs. lia.
Qed.
(** C93: ticks never dial a peer the node is connected to *)
Theorem C93_offline order p1 p2 chosen choice d' acts a :
  dstep d (DTick order p1 p2 chosen choice) = Ok (d', acts) -> ADial a ∈ acts -> exists q, ma_peer a = Some q /\ pm_online (ns_pm (ds_net d)) !! q = None.
Proof.
  intros E Ha. destruct (tick_ok _ _ _ _ _ d d' acts (ni_store _ dreach) E) as (R & _). apply (ro_new _ _ _ R a).
  unfold dialled. apply elem_of_list_omap. by exists (ADial a).
Qed.
End node.

(* ---------------------------------------------------------------------- *)
(** * One dial at a time *)

(** dials the transport has not answered yet: [DSelf] and [NDialErr] answer with a failure, [NOpen] with a session *)
Definition drop (a : maddr) (p : list maddr) : list maddr := filter (fun b => b <> a) p.
Definition answered (e : dev) (p : list maddr) : list maddr :=
  match e with DSelf a | DNet (NDialErr a) | DNet (NOpen _ a _) => drop a p | _ => p end.
(** in a trace of a run that starts with the dials [p] unanswered, no address is dialled while a dial of it is unanswered *)
Fixpoint once (p : list maddr) (tr : list (dev * list action)) : Prop :=
  match tr with
  | [] => True
  | (e, acts) :: r => let p' := answered e p in NoDup (dialled acts) /\ (forall a, a ∈ dialled acts -> a ∉ p') /\ once (dialled acts ++ p') r
  end.
(** every session the transport has open is either registered or one of a feeler: there is none the node refused and that is still closing *)
Definition settled (n : nstate) : Prop :=
  forall sid a out, ns_open n !! sid = Some (a, out) -> a ∈ pm_feeler (ns_pm n) \/ exists q i, ma_peer a = Some q /\ pm_online (ns_pm n) !! q = Some i.
(** and so it is whenever the node dials, and it never multicasts *)
Fixpoint orderly (d : dstate) (es : list dev) : Prop :=
  match es with
  | [] => True
  | e :: r =>
      match e with DStart | DTick _ _ _ _ _ => settled (ds_net d) | DCast _ => False | _ => True end /\
      forall d' acts, dstep d e = Ok (d', acts) -> orderly d' r
  end.

Record dials_ok (d : dstate) (p : list maddr) : Prop := {
  do_inv : ninv (ds_net d);
  do_set : forall a, a ∈ p -> a ∈ pm_dialing (ns_pm (ds_net d)) \/ a ∈ pm_feeler (ns_pm (ds_net d));
  do_open : forall a sid a' out, a ∈ p -> ns_open (ds_net d) !! sid = Some (a', out) -> a' <> a }.

Lemma round_once d d' p acts : dials_ok d p -> settled (ds_net d) -> ninv (ds_net d') -> round (ns_pm (ds_net d)) (ns_pm (ds_net d')) acts ->
  ns_open (ds_net d') = ns_open (ds_net d) -> dials_ok d' (dialled acts ++ p) /\ NoDup (dialled acts) /\ (forall a, a ∈ dialled acts -> a ∉ p).
Proof.
  intros [HI HS HO] St HI' R Eo. split; [|split; [apply R|]].
  - split; [done| |].
    + intros a Ha. apply elem_of_app in Ha as [Ha|Ha]; [by apply (ro_new _ _ _ R)|]. pose proof (ro_dialing _ _ _ R). pose proof (ro_feeler _ _ _ R).
      destruct (HS a Ha); set_solver.
    + intros a sid a' out Ha. rewrite Eo. intros Hop. apply elem_of_app in Ha as [Ha|Ha]; [|by apply (HO a sid a' out)]. intros ->.
      destruct (ro_new _ _ _ R a Ha) as (_ & _ & Hf & q & Hq & Hon). destruct (St sid a out Hop) as [?|(q' & i & Hq' & Hi)]; [done|].
      assert (q' = q) as -> by congruence. congruence.
  - intros a Ha Hp. destruct (ro_new _ _ _ R a Ha) as (_ & Hd & Hf & _). by destruct (HS a Hp).
Qed.
Lemma elem_drop b a p : b ∈ drop a p -> b <> a /\ b ∈ p.
Proof. unfold drop. by intros H%elem_of_list_filter. Qed.

Lemma passive_once n tr boots public p e n' acts : dials_ok (DS n tr boots public) p -> passive e = true -> nstep n e = Ok (n', acts) ->
  dialled acts = [] /\ dials_ok (DS n' tr boots public) (answered (DNet e) p).
Proof.
  intros [HI HS HO] Hp E. cbn in HI, HS, HO. destruct (step_ok _ _ _ _ HI (passive_pos e Hp) E) as (HI' & _).
  assert (Hkeep : forall s', n' = NS s' (ns_open n) (ns_now n) \/ (exists t, n' = NS s' (ns_open n) t) -> pm_dialing s' = pm_dialing (ns_pm n) -> pm_feeler s' = pm_feeler (ns_pm n) ->
            dials_ok (DS n' tr boots public) p).
  { intros s' Hn Ed Ef. split; [done| |]; destruct Hn as [->|[t ->]]; cbn; try rewrite Ed, Ef; done. }
  destruct n as [s o now]. destruct e as [sid a out|sid|sid|q until|c|a|a|a|evict a|a|a|which picks count|dt]; cbn [nstep ns_pm ns_open ns_now] in *; try done; cbn [answered].
  - destruct (open_ok _ _ _).
    2:{ injection E as <- <-. split; [done|]. split; [done| |]; cbn; [intros b [_ Hb]%elem_drop; by apply HS|intros b sid' a' out' [_ Hb]%elem_drop; by apply HO]. }
    unfold lift in E. destruct (session_open _ _ _ _ _) as [[p1 ac]| |] eqn:Es; [|done|done]. injection E as <- <-.
    assert (Hs : dialled ac = [] /\ pm_dialing p1 = pm_dialing s ∖ {[a]} /\ pm_feeler p1 = pm_feeler s).
    { unfold session_open in Es. cbv zeta in Es. destruct (bool_decide _); [injection Es as <- <-; done|]. destruct (_ <? _); [done|].
      assert (Hr : forall r, register (PM (pm_online s) (pm_dialing s ∖ {[a]}) (pm_feeler s) (pm_store s) (pm_boot s) (pm_cons s) (pm_max s) (pm_inlimit s)) (PInfo a sid out) = Ok r -> pm_dialing r = pm_dialing s ∖ {[a]} /\ pm_feeler r = pm_feeler s).
      { intros r. unfold register. destruct (ma_peer _); [|done]. by intros [= <-]. }
      destruct (register _ _) as [r| |] eqn:Er.
      - destruct (Hr r eq_refl) as [Hr1 Hr2]. destruct (over_limit _ _); [destruct (always_allow _ _ _) as [[]| |]; try done|]; injection Es as <- <-; done.
      - destruct (over_limit _ _); [destruct (always_allow _ _ _) as [[]| |]; try done|done]. injection Es as <- <-; done.
      - destruct (over_limit _ _); [destruct (always_allow _ _ _) as [[]| |]; try done|done]. injection Es as <- <-; done. }
    destruct Hs as (Hd & Hs1 & Hs2). split; [done|]. split; [done| |]; cbn.
    + intros b [Hne Hb]%elem_drop. rewrite Hs1, Hs2. destruct (HS b Hb); [left; set_solver|by right].
    + intros b sid' a' out' [Hne Hb]%elem_drop Hl. destruct (decide (sid' = sid)) as [->|Hs]; [rewrite lookup_insert in Hl; injection Hl as <- <-; congruence|].
      rewrite lookup_insert_ne in Hl by done. by apply (HO b sid' a' out').
  - destruct (o !! sid) as [[a out]|] eqn:Eo; [|injection E as <- <-; split; [done|]; by eapply Hkeep; [left; reflexivity|..]].
    unfold lift, unregister in E. destruct (ma_peer a) as [q|]; [|done]. assert (Hn : dialled acts = [] /\ exists s1, n' = NS s1 (delete sid o) now /\ pm_dialing s1 = pm_dialing s /\ pm_feeler s1 = pm_feeler s ∖ {[a]}).
    { destruct (pm_online s !! q) as [i|]; [destruct (ma_peer (pi_addr i)); [|done]|]; injection E as <- <-; (split; [done|]); eexists; (split; [reflexivity|done]). }
    destruct Hn as (Hd & s1 & -> & Hs1 & Hs2). split; [done|]. split; [done| |]; cbn.
    + intros b Hb. rewrite Hs1, Hs2. destruct (HS b Hb); [by left|right]. pose proof (HO b sid a out Hb Eo). set_solver.
    + intros b sid' a' out' Hb [_ Hl]%lookup_delete_Some. by apply (HO b sid' a' out').
  - destruct (o !! sid); [|injection E as <- <-; split; [done|]; by eapply Hkeep; [left; reflexivity|..]]. unfold lift, protocol_error, ban_session_id in E. destruct (find_sid _ _) as [i|].
    + destruct (ps_ban_addr _ _ _ _) as [st| |]; [|done|done]. injection E as <- <-. split; [done|]. by eapply Hkeep; [left; reflexivity|..].
    + injection E as <- <-. split; [done|]. by eapply Hkeep; [left; reflexivity|..].
  - unfold lift, tag_ban, ban_id in E. destruct (pm_online s !! q) as [i|].
    + destruct (ps_ban_addr _ _ _ _) as [st| |]; [|done|done]. injection E as <- <-. split; [done|]. by eapply Hkeep; [left; reflexivity|..].
    + injection E as <- <-. split; [done|]. by eapply Hkeep; [left; reflexivity|..].
  - injection E as <- <-. split; [done|]. by eapply Hkeep; [left; reflexivity|..].
  - injection E as <- <-. split; [done|]. split; [done| |]; cbn.
    + intros b [Hne Hb]%elem_drop. destruct (HS b Hb); [left|right]; set_solver.
    + intros b sid' a' out' [_ Hb]%elem_drop. by apply HO.
  - unfold lift_store in E. destruct (ps_add_addr _ _ _ _); [| |done]; injection E as <- <-; (split; [done|]); by eapply Hkeep; [left; reflexivity|..].
  - unfold lift_store in E. destruct (ps_add_outbound _ _ _); [| |done]; injection E as <- <-; (split; [done|]); by eapply Hkeep; [left; reflexivity|..].
  - injection E as <- <-. split; [done|]. by eapply Hkeep; [right; eexists; reflexivity|..].
Qed.

Lemma once_gen es : forall d p d' tr, dials_ok d p -> orderly d es -> drun d es = Ok (d', tr) -> once p tr.
Proof.
  induction es as [|e es IH]; intros d p d' tr H Ho; cbn [drun]; [by intros [= <- <-]|].
  destruct Ho as [Ho Hr]. destruct (dstep d e) as [[d1 acts]| |] eqn:E; [|done|done]. destruct (drun d1 es) as [[d2 tr2]| |] eqn:R; [|done|done]. intros [= <- <-].
  cbn [once]. cbv zeta. destruct (dstep_ninv _ _ _ _ (do_inv _ _ H) E) as [HI _].
  assert (Hs : dials_ok d1 (dialled acts ++ answered e p) /\ NoDup (dialled acts) /\ (forall a, a ∈ dialled acts -> a ∉ answered e p)).
  { destruct d as [n t boots public]. destruct e as [|order p1 p2 chosen choice|ids|a|e]; cbn [dstep] in E; cbn [answered].
    - cbv zeta in E. cbn [ds_net ds_boots] in E. destruct (dial_each _ _ _) as [[s' ac]| |] eqn:Ed; [|done|done]. injection E as <- <-.
      apply (round_once _ _ p ac H Ho HI); [|done]. cbn. by destruct (round_each _ _ round_identify _ _ _ Ed).
    - destruct (tick_ok _ _ _ _ _ (DS n t boots public) _ _ (ni_store _ (do_inv _ _ H)) E) as (Rd & Eo & _). by apply (round_once _ _ p acts H Ho HI).
    - done.
    - injection E as <- <-. cbn [dialled omap list_omap]. split; [|split; [apply NoDup_nil_2|intros b Hb; by apply elem_of_nil in Hb]].
      destruct H as [H1 H2 H3]. split; [done| |]; cbn.
      + intros b [Hne Hb]%elem_drop. destruct (H2 b Hb); [left|right]; set_solver.
      + intros b sid' a' out' [_ Hb]%elem_drop. by apply H3.
    - cbn [ds_net ds_tries ds_boots ds_public] in E. destruct (passive e) eqn:Ep.
      + destruct (nstep _ _) as [[n' ac]| |] eqn:En; [|done|done]. injection E as <- <-. destruct (passive_once _ _ _ _ _ _ _ _ H Ep En) as [-> Hd].
        split; [done|]. split; [apply NoDup_nil_2|intros b Hb; by apply elem_of_nil in Hb].
      + injection E as <- <-. cbn [dialled omap list_omap]. destruct e; try done; (split; [done|split; [apply NoDup_nil_2|intros b Hb; by apply elem_of_nil in Hb]]). }
  destruct Hs as (H1 & H2 & H3). split; [done|]. split; [done|]. by eapply IH; [|apply (Hr _ _ eq_refl)|].
Qed.
(** C93: no address is dialled again while a dial of it is in progress *)
Theorem C93_once boot max inl now0 boots es d tr :
  orderly (dinit boot max inl now0 boots) es -> drun (dinit boot max inl now0 boots) es = Ok (d, tr) -> once [] tr.
Proof.
  intros Ho Hr. apply (once_gen es (dinit boot max inl now0 boots) [] d tr); [|done|done]. split; [apply ninv_init| |]; [intros a Ha|intros a ? ? ? Ha]; by apply elem_of_nil in Ha.
Qed.

Definition once_b : list maddr -> list (dev * list action) -> bool :=
  fix go p tr := match tr with
  | [] => true
  | (e, acts) :: r => let p' := answered e p in bool_decide (NoDup (dialled acts)) && forallb (fun a => negb (bool_decide (a ∈ p'))) (dialled acts) && go (dialled acts ++ p') r
  end.
Lemma once_b_ok tr : forall p, once p tr -> once_b p tr = true.
Proof.
  induction tr as [|[e acts] tr IH]; intros p; [done|]. cbn [once once_b]. cbv zeta. intros (H1 & H2 & H3). rewrite (IH _ H3), andb_true_r. apply andb_true_intro. split; [by apply bool_decide_eq_true|].
  apply forallb_forall. intros a Ha. apply negb_true_iff, bool_decide_eq_false. apply H2. by apply elem_of_list_In.
Qed.

(** a node with an address book of three entries *)
Definition sk (n : N) : sock := ((false, 167772160 + n), 8001).
Definition ad (n : N) : maddr := MAddr (Some (sk n)) (Some n) 0.
Definition t0 : N := 1700000000000.
Definition fresh_start (boots : list N) : dstate := dinit (list_to_set boots) 40 20 t0 (map ad boots).
Definition tick_ev : dev := DTick [] [0; 0; 0]%nat [0; 0; 0]%nat [] 0.

(** the multicast does not look at the dials in progress *)
Theorem C93_cast_refuted : exists es, match drun (fresh_start []) es with Ok (_, tr) => ~ once [] tr | _ => False end.
Proof.
  exists [DNet (NAddOut (ad 1)); DNet (NTick 20000); DCast [1]; DCast [1]].
  assert (H : match drun (fresh_start []) [DNet (NAddOut (ad 1)); DNet (NTick 20000); DCast [1]; DCast [1]] with Ok (_, tr) => once_b [] tr | _ => true end = false) by (vm_compute; reflexivity).
  destruct (drun _ _) as [[d tr]| |]; [|done|done]. intros Ho. by rewrite (once_b_ok _ _ Ho) in H.
Qed.
Definition cycles (n : nat) (dt : N) (a : maddr) : list dev := concat (repeat [DNet (NTick dt); tick_ev; DNet (NDialErr a)] n).
Lemma cycles_calm x n dt a : forall d, undisturbed x d (cycles n dt a).
Proof.
  assert (H : forall es, (forall e d, e ∈ es -> calm x d e) -> forall d, undisturbed x d es).
  { induction es as [|e es IH]; intros Hc d; [done|]. split; [apply Hc; left|]. intros d' acts _. apply IH. intros e' d2 He. apply Hc. by right. }
  apply H. intros e d He. unfold cycles in He. apply elem_of_list_In, in_concat in He as (l & Hl & He). apply repeat_spec in Hl as ->.
  repeat (destruct He as [<-|He]; [exact I|]). done.
Qed.
(** an address that answered once in the last three days is dialled at every tick of ten seconds, however often it fails *)
Theorem C93_hammer_refuted : exists es0 x es,
  match drun (fresh_start []) es0 with
  | Ok (d, _) => undisturbed x d es /\ (exists e, look (ps_book (pm_store (ns_pm (ds_net d)))) x = Some e /\ ai_att e = 0) /\
      length (times x d es) = 30%nat /\ forall t, t ∈ times x d es -> t <= ns_now (ds_net d) + 300000
  | _ => False
  end.
Proof.
  exists [DNet (NAddOut (ad 1)); DNet (NTick 20000)], (sk 1), (cycles 30 10000 (ad 1)).
  assert (H : match drun (fresh_start []) [DNet (NAddOut (ad 1)); DNet (NTick 20000)] with
              | Ok (d, _) => bool_decide (option_map ai_att (look (ps_book (pm_store (ns_pm (ds_net d)))) (sk 1)) = Some 0) && bool_decide (length (times (sk 1) d (cycles 30 10000 (ad 1))) = 30%nat) &&
                  forallb (fun t => t <=? ns_now (ds_net d) + 300000) (times (sk 1) d (cycles 30 10000 (ad 1)))
              | _ => false end = true) by (vm_compute; reflexivity).
  destruct (drun _ _) as [[d tr]| |]; [|done|done]. apply andb_prop in H as [H H3]. apply andb_prop in H as [H1 H2]. apply bool_decide_eq_true in H1, H2.
  split; [apply cycles_calm|]. split; [|split; [done|]].
  - destruct (look _ _) as [e|]; [|done]. exists e. split; [done|]. by injection H1.
  - intros t Ht. apply elem_of_list_In in Ht. rewrite forallb_forall in H3. by apply N.leb_le, H3.
Qed.

(* ---------------------------------------------------------------------- *)
(** * Examples *)

(** an address heard of from a peer is dialled three times in ten minutes and then no more: the bound is met *)
Example ex_silent : exists d tr, drun (fresh_start []) [DNet (NAdd [] (ad 1))] = Ok (d, tr) /\
  look (ps_book (pm_store (ns_pm (ds_net d)))) (sk 1) = Some (ai_new (ad 1) 0 DEFAULT_SCORE) /\ undisturbed (sk 1) d (cycles 10 61000 (ad 1)) /\
  times (sk 1) d (cycles 10 61000 (ad 1)) = [t0 + 61000; t0 + 122000; t0 + 183000].
Proof. eexists _, _. split; [vm_compute; reflexivity|]. split; [vm_compute; reflexivity|]. split; [apply cycles_calm|vm_compute; reflexivity]. Qed.
(** one last reached eight days ago, ten times *)
Example ex_lapsed : exists d tr e, drun (fresh_start []) [DNet (NAddOut (ad 1)); DNet (NTick 691200000)] = Ok (d, tr) /\
  look (ps_book (pm_store (ns_pm (ds_net d)))) (sk 1) = Some e /\ ai_conn e + ADDR_TIMEOUT_MS < ns_now (ds_net d) /\ undisturbed (sk 1) d (cycles 20 61000 (ad 1)) /\
  length (times (sk 1) d (cycles 20 61000 (ad 1))) = 10%nat.
Proof. eexists _, _, _. split; [vm_compute; reflexivity|]. split; [vm_compute; reflexivity|]. split; [vm_compute; reflexivity|]. split; [apply cycles_calm|vm_compute; reflexivity]. Qed.

Definition settled_b (n : nstate) : bool :=
  forallb (fun kv => bool_decide (kv.2.1 ∈ pm_feeler (ns_pm n)) || match ma_peer kv.2.1 with Some q => match pm_online (ns_pm n) !! q with Some _ => true | None => false end | None => false end)
    (map_to_list (ns_open n)).
Fixpoint orderly_b (d : dstate) (es : list dev) : bool :=
  match es with
  | [] => true
  | e :: r =>
      (match e with DStart | DTick _ _ _ _ _ => settled_b (ds_net d) | DCast _ => false | _ => true end) &&
      match dstep d e with Ok (d', _) => orderly_b d' r | _ => true end
  end.
Lemma orderly_b_ok es : forall d, orderly_b d es = true -> orderly d es.
Proof.
  assert (Hs : forall n, settled_b n = true -> settled n).
  { intros n H sid a out Ho. unfold settled_b in H. rewrite forallb_forall in H. specialize (H (sid, (a, out))). cbn in H.
    apply elem_of_map_to_list, elem_of_list_In in Ho. apply H in Ho. apply orb_prop in Ho as [Ho|Ho]; [left; by apply bool_decide_eq_true in Ho|right].
    destruct (ma_peer a) as [q|]; [|done]. destruct (pm_online (ns_pm n) !! q) as [i|] eqn:E; [|done]. by exists q, i. }
  induction es as [|e es IH]; intros d H; [done|]. cbn [orderly_b] in H. apply andb_prop in H as [H1 H2]. split.
  - destruct e; solve [by apply Hs|exact I|discriminate H1].
  - intros d' acts E. rewrite E in H2. by apply IH.
Qed.
(** a start with a bootstrap node, a feeler that gets through while two ticks pass, and a peer that hangs up and is dialled again *)
Definition busy : list dev :=
  [DStart; DNet (NAdd [] (ad 1)); tick_ev; tick_ev; DNet (NOpen 7 (ad 1) true); DNet (NAddOut (ad 1)); tick_ev; DNet (NClose 7);
   DNet (NOpen 8 (ad 5) true); DNet (NTick 20000); tick_ev; DNet (NDialErr (ad 1)); DNet (NTick 10000); tick_ev].
Example ex_once : orderly (fresh_start [5]) busy /\
  match drun (fresh_start [5]) busy with Ok (_, tr) => map (fun x => dialled x.2) tr | _ => [] end = [[ad 5]; []; [ad 1]; []; []; []; []; []; []; []; [ad 1]; []; []; [ad 1]].
Proof. split; [apply orderly_b_ok; vm_compute; reflexivity|vm_compute; reflexivity]. Qed.

Print Assumptions C93_silent.
Print Assumptions C93_lapsed.
Print Assumptions C93_offline.
Print Assumptions C93_once.
Print Assumptions C93_cast_refuted.
Print Assumptions C93_hammer_refuted.
