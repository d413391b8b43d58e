(** The address manager keeps its five tables consistent and behaves like a map from socket addresses to entries. *)
From Verif Require Import Bytes TxModel PeerModel.
From stdpp Require Import base gmap list.
From Coq Require Import Lia.
#[local] Open Scope N_scope.

(** An entry without its position in the random list. *)
Definition strip (i : ainfo) : ainfo := set_pos 0 i.
Definition look (m : mgr) (s : sock) : option ainfo := id ← m_addr m !! s; strip <$> m_info m !! id.

(** The two position tables agree. *)
Definition posok (info : gmap N ainfo) (rnd : list N) : Prop :=
  (forall id i, info !! id = Some i -> rnd !! ai_pos i = Some id) /\
  (forall k id, rnd !! k = Some id -> exists i, info !! id = Some i /\ ai_pos i = k).
Record minv (m : mgr) : Prop := {
  mi_addr : forall s id, m_addr m !! s = Some id -> exists i, m_info m !! id = Some i /\ ma_sock (ai_addr i) = Some s;
  mi_info : forall id i, m_info m !! id = Some i -> exists s, ma_sock (ai_addr i) = Some s /\ m_addr m !! s = Some id;
  mi_pos : posok (m_info m) (m_rand m);
  mi_next : forall id i, m_info m !! id = Some i -> id < m_next m;
  mi_peer : forall id i, m_info m !! id = Some i ->
              exists p set, ma_peer (ai_addr i) = Some p /\ m_peer m !! p = Some set /\ id ∈ set }.

(** Every id filed under a peer is the id of an entry of that peer. *)
Definition no_stale (m : mgr) : Prop :=
  forall p set id, m_peer m !! p = Some set -> id ∈ set -> exists i, m_info m !! id = Some i /\ ma_peer (ai_addr i) = Some p.

Lemma minv_empty : minv mgr_empty.
Proof. split; cbn; try (split; cbn); set_solver. Qed.

(* ---- reading through [strip] ---- *)
Lemma strip_addr i : ai_addr (strip i) = ai_addr i.
Proof. done. Qed.
Lemma strip_set_pos p i : strip (set_pos p i) = strip i.
Proof. done. Qed.
Lemma strip_eq_addr i j : strip i = strip j -> ai_addr i = ai_addr j.
Proof. intros E. by apply (f_equal ai_addr) in E. Qed.
Lemma fmap_some {A B} (f : A -> B) (o : option A) b : f <$> o = Some b -> exists a, o = Some a /\ b = f a.
Proof. destruct o as [a|]; cbn; [|done]. intros [= <-]. by exists a. Qed.
Lemma look_some m s e :
  look m s = Some e <-> exists id i, m_addr m !! s = Some id /\ m_info m !! id = Some i /\ e = strip i.
Proof.
  unfold look. split.
  - destruct (m_addr m !! s) as [id|]; cbn; [|done]. intros (i & ? & ->)%fmap_some. by exists id, i.
  - intros (id & i & Ha & Hi & ->). by rewrite Ha; cbn; rewrite Hi.
Qed.

(* ---- positions ---- *)
Lemma posok_inj info rnd k1 k2 id : posok info rnd -> rnd !! k1 = Some id -> rnd !! k2 = Some id -> k1 = k2.
Proof. intros [_ H] H1 H2. destruct (H _ _ H1) as (i & E & <-). destruct (H _ _ H2) as (i' & E' & <-). congruence. Qed.

Lemma list_swap_length l i j : length (list_swap l i j) = length l.
Proof. unfold list_swap. destruct (l !! i), (l !! j); rewrite ?insert_length; done. Qed.
Lemma list_swap_at l i j k a b :
  l !! i = Some a -> l !! j = Some b ->
  list_swap l i j !! k = if decide (k = j) then Some a else if decide (k = i) then Some b else l !! k.
Proof.
  intros Hi Hj. unfold list_swap. rewrite Hi, Hj.
  apply lookup_lt_Some in Hi as Hi'. apply lookup_lt_Some in Hj as Hj'.
  destruct (decide (k = j)) as [->|Hk].
  - apply list_lookup_insert. by rewrite insert_length.
  - rewrite list_lookup_insert_ne by done. destruct (decide (k = i)) as [->|].
    + by apply list_lookup_insert.
    + by rewrite list_lookup_insert_ne by done.
Qed.

Lemma swap_ok m i j :
  posok (m_info m) (m_rand m) -> (i < length (m_rand m))%nat -> (j < length (m_rand m))%nat ->
  exists m', swap_random m i j = Ok m' /\ m_next m' = m_next m /\ m_addr m' = m_addr m /\ m_peer m' = m_peer m /\
    posok (m_info m') (m_rand m') /\ length (m_rand m') = length (m_rand m) /\
    (forall id, strip <$> m_info m' !! id = strip <$> m_info m !! id) /\
    m_rand m' !! i = m_rand m !! j /\ m_rand m' !! j = m_rand m !! i /\
    (forall k, k <> i -> k <> j -> m_rand m' !! k = m_rand m !! k).
Proof.
  intros Hp Hi Hj. unfold swap_random. destruct (Nat.eqb i j) eqn:E.
  - apply Nat.eqb_eq in E as <-. exists m. done.
  - apply Nat.eqb_neq in E.
    apply lookup_lt_is_Some in Hi as [a Ha]. apply lookup_lt_is_Some in Hj as [b Hb]. rewrite Ha, Hb.
    destruct Hp as [Hp1 Hp2]. destruct (Hp2 _ _ Ha) as (ia & Hia & Eia). destruct (Hp2 _ _ Hb) as (ib & Hib & Eib).
    assert (Hab : a <> b). { intros ->. congruence. }
    rewrite Hia. cbn zeta. rewrite lookup_insert_ne by done. rewrite Hib.
    eexists. split; [reflexivity|]. cbn [m_next m_addr m_peer m_info m_rand].
    split; [done|]. split; [done|]. split; [done|].
    split; [split|].
    + intros id x. rewrite lookup_insert_Some, lookup_insert_Some. rewrite (list_swap_at _ _ _ _ a b) by done.
      intros [[<- <-]|[Hne [[<- <-]|[Hne' Hx]]]]; cbn [set_pos ai_pos].
      * rewrite decide_False by done. by rewrite decide_True.
      * by rewrite decide_True.
      * pose proof (Hp1 _ _ Hx) as Hxp. rewrite decide_False by (intros E'; rewrite E' in Hxp; congruence). rewrite decide_False by (intros E'; rewrite E' in Hxp; congruence). done.
    + intros k id. rewrite (list_swap_at _ _ _ _ a b) by done.
      destruct (decide (k = j)) as [->|Hkj].
      * intros [= <-]. exists (set_pos j ia). rewrite lookup_insert_ne by done. by rewrite lookup_insert.
      * destruct (decide (k = i)) as [->|Hki].
        { intros [= <-]. exists (set_pos i ib). by rewrite lookup_insert. }
        intros Hk. destruct (Hp2 _ _ Hk) as (x & Hx & Ex). exists x. split; [|done].
        rewrite !lookup_insert_ne; [done| |]; intros <-; congruence.
    + split; [apply list_swap_length|]. split.
      * intros id. destruct (decide (id = b)) as [->|]; [rewrite lookup_insert, Hib; done|]. rewrite lookup_insert_ne by done.
        destruct (decide (id = a)) as [->|]; [rewrite lookup_insert, Hia; done|]. by rewrite lookup_insert_ne by done.
      * rewrite !(list_swap_at _ _ _ _ a b) by done. rewrite (decide_True _ _ (eq_refl i)), (decide_True _ _ (eq_refl j)).
        rewrite decide_False by done. split; [done|]. split; [done|].
        intros k H1 H2. rewrite (list_swap_at _ _ _ _ a b) by done. by rewrite !decide_False by done.
Qed.

(** A swap of positions changes nothing a user can see. *)
Lemma swap_minv m i j :
  minv m -> (i < length (m_rand m))%nat -> (j < length (m_rand m))%nat ->
  exists m', swap_random m i j = Ok m' /\ minv m' /\ m_next m' = m_next m /\ m_addr m' = m_addr m /\ m_peer m' = m_peer m /\
    length (m_rand m') = length (m_rand m) /\
    (forall id, strip <$> m_info m' !! id = strip <$> m_info m !! id) /\
    m_rand m' !! i = m_rand m !! j /\ m_rand m' !! j = m_rand m !! i /\
    (forall k, k <> i -> k <> j -> m_rand m' !! k = m_rand m !! k).
Proof.
  intros H Hi Hj. destruct (swap_ok m i j (mi_pos m H) Hi Hj) as (m' & Hs & En & Ea & Ep & Hp & Hl & Hst & H1 & H2 & H3).
  assert (Hfwd : forall id x, m_info m !! id = Some x -> exists y, m_info m' !! id = Some y /\ strip y = strip x).
  { intros id x Hx. specialize (Hst id). rewrite Hx in Hst. apply fmap_some in Hst as (y & Hy & E). by exists y. }
  assert (Hbwd : forall id y, m_info m' !! id = Some y -> exists x, m_info m !! id = Some x /\ strip y = strip x).
  { intros id y Hy. specialize (Hst id). rewrite Hy in Hst. symmetry in Hst. apply fmap_some in Hst as (x & Hx & E). by exists x. }
  exists m'. split; [done|]. split; [|done]. split.
  - intros s id. rewrite Ea. intros Hs'. destruct (mi_addr m H _ _ Hs') as (x & Hx & Ex).
    destruct (Hfwd _ _ Hx) as (y & Hy & E). exists y. split; [done|]. by rewrite (strip_eq_addr _ _ E).
  - intros id y Hy. destruct (Hbwd _ _ Hy) as (x & Hx & E). rewrite (strip_eq_addr _ _ E), Ea. apply (mi_info m H _ _ Hx).
  - done.
  - intros id y Hy. destruct (Hbwd _ _ Hy) as (x & Hx & E). rewrite En. apply (mi_next m H _ _ Hx).
  - intros id y Hy. destruct (Hbwd _ _ Hy) as (x & Hx & E). rewrite (strip_eq_addr _ _ E), Ep. apply (mi_peer m H _ _ Hx).
Qed.

(* ---- remove ---- *)
(** What removing an address means for a map from socket addresses to entries. *)
Definition spec_remove (b : sock -> option ainfo) (a : maddr) : sock -> option ainfo :=
  fun s => if decide (ma_sock a = Some s) then None else b s.

Lemma remove_ok m a :
  minv m ->
  exists m' r, mgr_remove m a = Ok (m', r) /\ minv m' /\ m_next m' = m_next m /\
    (forall s, look m' s = spec_remove (look m) a s) /\
    strip <$> r = (s ← ma_sock a; look m s) /\
    (no_stale m -> (forall s e, ma_sock a = Some s -> look m s = Some e -> ma_peer a = ma_peer (ai_addr e)) -> no_stale m').
Proof.
  intros H. unfold mgr_remove, spec_remove. destruct (ma_sock a) as [s|] eqn:Es.
  2:{ exists m, None. split; [done|]. split; [done|]. split; [done|]. split; [|split; [done|auto]]. intros s. by rewrite decide_False. }
  destruct (m_addr m !! s) as [id|] eqn:Ea.
  2:{ exists m, None. split; [done|]. split; [done|]. split; [done|]. cbn. unfold look. rewrite Ea. split; [|split; [done|auto]].
      intros s'. case_decide as Hd; [|done]. injection Hd as <-. by rewrite Ea. }
  destruct (mi_addr m H _ _ Ea) as (i & Hi & Hsi). rewrite Hi.
  pose proof (mi_pos m H) as Hpos.
  assert (Hpi : m_rand m !! ai_pos i = Some id) by (by apply Hpos).
  apply lookup_lt_Some in Hpi as Hlt.
  destruct (length (m_rand m)) as [|last] eqn:Elen; [lia|].
  set (m1 := Mgr (m_next m) (delete s (m_addr m)) (m_info m) (m_peer m) (m_rand m)).
  destruct (swap_ok m1 (ai_pos i) last) as (m2 & Hsw & En & Ead & Ep & Hp2 & Hl2 & Hst & H1 & H2 & H3); [done|cbn; lia|cbn; lia|].
  cbn [m1 m_next m_addr m_info m_peer m_rand] in *. rewrite Hsw. eexists _, _. split; [reflexivity|].
  cbn [m_next m_addr m_info m_peer m_rand].
  rewrite Elen in Hl2. rewrite Hpi in H2.
  assert (Hfwd : forall id x, m_info m !! id = Some x -> exists y, m_info m2 !! id = Some y /\ strip y = strip x).
  { intros id' x Hx. specialize (Hst id'). rewrite Hx in Hst. apply fmap_some in Hst as (y & Hy & E). by exists y. }
  assert (Hbwd : forall id y, m_info m2 !! id = Some y -> exists x, m_info m !! id = Some x /\ strip y = strip x).
  { intros id' y Hy. specialize (Hst id'). rewrite Hy in Hst. symmetry in Hst. apply fmap_some in Hst as (x & Hx & E). by exists x. }
  split; [split; cbn [m_next m_addr m_info m_peer m_rand]|].
  - intros s' id'. rewrite Ead. intros [Hne Hs']%lookup_delete_Some.
    destruct (mi_addr m H _ _ Hs') as (x & Hx & Ex). destruct (Hfwd _ _ Hx) as (y & Hy & E).
    exists y. split; [|by rewrite (strip_eq_addr _ _ E)]. apply lookup_delete_Some. split; [|done]. intros <-. congruence.
  - intros id' y [Hne Hy]%lookup_delete_Some. destruct (Hbwd _ _ Hy) as (x & Hx & E).
    destruct (mi_info m H _ _ Hx) as (s' & Hs' & Has'). exists s'. rewrite (strip_eq_addr _ _ E). split; [done|].
    rewrite Ead. apply lookup_delete_Some. split; [|done]. intros <-. congruence.
  - destruct Hp2 as [Hq1 Hq2]. split.
    + intros id' y [Hne Hy]%lookup_delete_Some. pose proof (Hq1 _ _ Hy) as Hk.
      rewrite lookup_take; [done|].
      apply lookup_lt_Some in Hk as Hk'. destruct (decide (ai_pos y = last)) as [E|]; [|lia].
      rewrite E, H2 in Hk. congruence.
    + intros k id' Hk. apply lookup_take_Some in Hk as [Hk Hkl]. destruct (Hq2 _ _ Hk) as (y & Hy & Ey).
      exists y. split; [|done]. apply lookup_delete_Some. split; [|done]. intros <-.
      assert (k = last); [|lia]. eapply posok_inj; [split; [exact Hq1|exact Hq2]|done|done].
  - intros id' y [Hne Hy]%lookup_delete_Some. destruct (Hbwd _ _ Hy) as (x & Hx & E). rewrite En. apply (mi_next m H _ _ Hx).
  - intros id' y [Hne Hy]%lookup_delete_Some. destruct (Hbwd _ _ Hy) as (x & Hx & E). rewrite (strip_eq_addr _ _ E), Ep.
    destruct (mi_peer m H _ _ Hx) as (p & set & Hp & Hset & Hin). exists p.
    destruct (ma_peer a) as [q|]; [|by exists set].
    destruct (decide (q = p)) as [->|Hqp].
    + exists (set ∖ {[id]}). split; [done|]. split; [by rewrite lookup_alter, Hset|]. set_solver.
    + exists set. split; [done|]. split; [by rewrite lookup_alter_ne|done].
  - split; [done|]. split.
    + intros s'. unfold look; cbn [m_addr m_info]. rewrite Ead. case_decide as Hd.
      * injection Hd as <-. by rewrite lookup_delete.
      * rewrite lookup_delete_ne by congruence. destruct (m_addr m !! s') as [id'|] eqn:Es'; [|done]. cbn.
        rewrite lookup_delete_ne; [apply Hst|]. intros <-.
        destruct (mi_addr m H _ _ Es') as (x & Hx & Ex). congruence.
    + split; [cbn; unfold look; rewrite Ea; cbn; apply Hst|].
      intros Hns Hsame p set id' Hset Hin. cbn [m_peer m_info] in *.
      assert (Hpe : ma_peer a = ma_peer (ai_addr i)).
      { apply (Hsame s (strip i)); [done|]. apply look_some. by exists id, i. }
      destruct (mi_peer m H _ _ Hi) as (q & _ & Hq & _). rewrite Hpe, Hq, Ep in Hset.
      assert (Hset0 : exists set0, m_peer m !! p = Some set0 /\ set ⊆ set0 /\ (p = q -> id ∉ set)).
      { destruct (decide (p = q)) as [->|Hpq].
        - rewrite lookup_alter in Hset. apply fmap_some in Hset as (set0 & Hset0 & ->). exists set0. set_solver.
        - rewrite lookup_alter_ne in Hset by done. by exists set. }
      destruct Hset0 as (set0 & Hset0 & Hsub & Hnid).
      destruct (Hns p set0 id' Hset0 (Hsub _ Hin)) as (x & Hx & Hxp). destruct (Hfwd _ _ Hx) as (y & Hy & E).
      exists y. rewrite (strip_eq_addr _ _ E). split; [|done]. apply lookup_delete_Some. split; [|done].
      intros <-. apply Hnid; [|done]. congruence.
Qed.

(* ---- add ---- *)
(** What adding an entry means: a stored entry gives way only to one with a later connection time; an entry without peer id is not
    stored, but a later one removes what is there. *)
Definition spec_add (b : sock -> option ainfo) (i : ainfo) : sock -> option ainfo :=
  fun s =>
    if decide (ma_sock (ai_addr i) = Some s) then
      match b s with
      | Some old => if ai_conn old <? ai_conn i then (if ma_peer (ai_addr i) then Some (strip i) else None) else Some old
      | None => if ma_peer (ai_addr i) then Some (strip i) else None
      end
    else b s.

Lemma insert_ok m s i :
  minv m -> (m_next m + 1 < 2 ^ 64 \/ ma_peer (ai_addr i) = None) -> ma_sock (ai_addr i) = Some s -> look m s = None ->
  exists m', mgr_insert m s i = Ok m' /\ minv m' /\ m_next m' <= m_next m + 1 /\
    (forall s', look m' s' = if decide (s' = s) then (if ma_peer (ai_addr i) then Some (strip i) else None) else look m s') /\
    (no_stale m -> no_stale m').
Proof.
  intros H Hn Hs Hnone. unfold mgr_insert. destruct (ma_peer (ai_addr i)) as [p|] eqn:Ep.
  2:{ exists m. split; [done|]. split; [done|]. split; [lia|]. split; [|done]. intros s'. case_decide; [by subst|done]. }
  destruct Hn as [Hn|Hn]; [|done].
  replace (m_next m + 1 <? 2 ^ 64) with true by (symmetry; by apply N.ltb_lt).
  assert (Hns : m_addr m !! s = None).
  { destruct (m_addr m !! s) as [id|] eqn:E; [|done]. destruct (mi_addr m H _ _ E) as (x & Hx & _).
    unfold look in Hnone. rewrite E in Hnone; cbn in Hnone. by rewrite Hx in Hnone. }
  assert (Hfresh : m_info m !! m_next m = None).
  { destruct (m_info m !! m_next m) as [x|] eqn:E; [|done]. apply (mi_next m H) in E. lia. }
  eexists. split; [reflexivity|]. cbn [m_next m_addr m_info m_peer m_rand].
  split; [split; cbn [m_next m_addr m_info m_peer m_rand]|].
  - intros s' id [[<- <-]|[Hne Hx]]%lookup_insert_Some.
    + exists (set_pos (length (m_rand m)) i). by rewrite lookup_insert.
    + destruct (mi_addr m H _ _ Hx) as (x & Hx' & Ex). exists x. split; [|done]. rewrite lookup_insert_ne; [done|]. intros <-. congruence.
  - intros id x [[<- <-]|[Hne Hx]]%lookup_insert_Some.
    + exists s. cbn [set_pos ai_addr]. split; [done|]. by rewrite lookup_insert.
    + destruct (mi_info m H _ _ Hx) as (s' & Hs' & Ha). exists s'. split; [done|]. rewrite lookup_insert_ne; [done|]. congruence.
  - destruct (mi_pos m H) as [H1 H2]. split.
    + intros id x [[<- <-]|[Hne Hx]]%lookup_insert_Some.
      * cbn [set_pos ai_pos]. rewrite lookup_app_r by lia. by rewrite Nat.sub_diag.
      * apply lookup_app_l_Some. by apply H1.
    + intros k id [Hk|[Hl Hk]]%lookup_app_Some.
      * destruct (H2 _ _ Hk) as (x & Hx & Ex). exists x. split; [|done]. rewrite lookup_insert_ne; [done|]. intros <-. congruence.
      * apply list_lookup_singleton_Some in Hk as [Hk <-]. exists (set_pos (length (m_rand m)) i). rewrite lookup_insert.
        split; [done|]. cbn [set_pos ai_pos]. lia.
  - intros id x [[<- <-]|[Hne Hx]]%lookup_insert_Some; [lia|]. apply (mi_next m H) in Hx. lia.
  - intros id x [[<- <-]|[Hne Hx]]%lookup_insert_Some.
    + exists p, (default ∅ (m_peer m !! p) ∪ {[m_next m]}). cbn [set_pos ai_addr]. split; [done|]. split; [by rewrite lookup_insert|set_solver].
    + destruct (mi_peer m H _ _ Hx) as (q & set & Hq & Hset & Hin). exists q. destruct (decide (p = q)) as [<-|].
      * eexists. rewrite lookup_insert. split; [done|]. split; [done|]. rewrite Hset. cbn. set_solver.
      * exists set. by rewrite lookup_insert_ne.
  - split; [lia|]. split.
    { intros s'. unfold look. cbn [m_addr m_info]. case_decide as Hd.
      + subst s'. rewrite lookup_insert. cbn. by rewrite lookup_insert.
      + rewrite lookup_insert_ne by congruence. destruct (m_addr m !! s') as [id|] eqn:E; [|done]. cbn.
        rewrite lookup_insert_ne; [done|]. intros <-. destruct (mi_addr m H _ _ E) as (x & Hx & _). congruence. }
    intros Hnst q set id Hset Hin. cbn [m_peer m_info] in *.
    destruct (decide (id = m_next m)) as [->|Hid].
    + exists (set_pos (length (m_rand m)) i). rewrite lookup_insert. split; [done|]. cbn [set_pos ai_addr].
      destruct (decide (p = q)) as [<-|]; [done|]. rewrite lookup_insert_ne in Hset by done.
      destruct (Hnst _ _ _ Hset Hin) as (x & Hx & _). congruence.
    + assert (exists set0, m_peer m !! q = Some set0 /\ id ∈ set0) as (set0 & Hset0 & Hin0).
      { destruct (decide (p = q)) as [<-|]; [|rewrite lookup_insert_ne in Hset by done; by exists set].
        rewrite lookup_insert in Hset. injection Hset as <-. destruct (m_peer m !! p) as [set0|]; cbn in Hin; [exists set0; set_solver|set_solver]. }
      destruct (Hnst _ _ _ Hset0 Hin0) as (x & Hx & Hxp). exists x. rewrite lookup_insert_ne by done. done.
Qed.

Lemma get_look m a : minv m -> strip <$> mgr_get m a = (s ← ma_sock a; look m s).
Proof.
  intros H. unfold mgr_get, look. destruct (ma_sock a) as [s|]; [|done]. cbn. destruct (m_addr m !! s); [|done]. done.
Qed.

Lemma add_ok m i :
  minv m -> (m_next m + 1 < 2 ^ 64 \/ ma_peer (ai_addr i) = None) ->
  exists m', mgr_add m i = Ok m' /\ minv m' /\ m_next m' <= m_next m + 1 /\ (forall s, look m' s = spec_add (look m) i s) /\
    (no_stale m -> (forall s e, ma_sock (ai_addr i) = Some s -> look m s = Some e -> ma_peer (ai_addr i) = ma_peer (ai_addr e)) -> no_stale m').
Proof.
  intros H Hn. unfold mgr_add, spec_add. destruct (ma_sock (ai_addr i)) as [s|] eqn:Es.
  2:{ exists m. split; [done|]. split; [done|]. split; [lia|]. split; [|auto]. intros s. by rewrite decide_False. }
  pose proof (get_look m (ai_addr i) H) as Hg. rewrite Es in Hg. cbn in Hg.
  destruct (mgr_get m (ai_addr i)) as [old|] eqn:Eg; cbn in Hg.
  - symmetry in Hg. destruct (ai_conn old <? ai_conn i) eqn:Ec.
    + destruct (remove_ok m (ai_addr i) H) as (m' & r & Hr & Hm' & Hn' & Hl & _ & Hst1). rewrite Hr.
      assert (Hnone : look m' s = None). { rewrite Hl. unfold spec_remove. by rewrite decide_True. }
      destruct (insert_ok m' s i Hm') as (m2 & Hi & Hm2 & Hn2 & Hl2 & Hst2); [by rewrite Hn'|done|done|].
      exists m2. split; [done|]. split; [done|]. split; [lia|]. split; [|intros Hns Hpe; apply Hst2, Hst1; [done|]; intros s' e; rewrite Es; apply Hpe]. intros s'. rewrite Hl2.
      destruct (decide (s' = s)) as [->|Hne].
      * rewrite decide_True by done. rewrite Hg. change (ai_conn (strip old)) with (ai_conn old). by rewrite Ec.
      * rewrite Hl. unfold spec_remove. rewrite !decide_False by congruence. done.
    + exists m. split; [done|]. split; [done|]. split; [lia|]. split; [|auto]. intros s'. case_decide as Hd; [|done].
      injection Hd as <-. rewrite Hg. change (ai_conn (strip old)) with (ai_conn old). by rewrite Ec.
  - symmetry in Hg. destruct (insert_ok m s i H Hn Es Hg) as (m2 & Hi & Hm2 & Hn2 & Hl2 & Hst2).
    exists m2. split; [done|]. split; [done|]. split; [done|]. split; [|auto]. intros s'. rewrite Hl2.
    destruct (decide (s' = s)) as [->|Hne].
    + rewrite decide_True by done. by rewrite Hg.
    + by rewrite decide_False by congruence.
Qed.

Lemma add_inv m i m' :
  minv m -> mgr_add m i = Ok m' ->
  minv m' /\ m_next m' <= m_next m + 1 /\ (forall s, look m' s = spec_add (look m) i s) /\
  (no_stale m -> (forall s e, ma_sock (ai_addr i) = Some s -> look m s = Some e -> ma_peer (ai_addr i) = ma_peer (ai_addr e)) -> no_stale m').
Proof.
  intros H Hr.
  destruct (decide (m_next m + 1 < 2 ^ 64 \/ ma_peer (ai_addr i) = None)) as [Hd|Hd].
  { destruct (add_ok m i H Hd) as (m2 & Hr2 & ?). assert (m2 = m') as -> by congruence. done. }
  assert (Hp : exists p, ma_peer (ai_addr i) = Some p) by (destruct (ma_peer (ai_addr i)) as [p|]; [by exists p|naive_solver]).
  destruct Hp as [p Hp].
  assert (Hpan : forall m0 s, m_next m0 = m_next m -> mgr_insert m0 s i = Panic).
  { intros m0 s E. unfold mgr_insert. rewrite Hp, E. destruct (m_next m + 1 <? 2 ^ 64) eqn:El; [|done]. apply N.ltb_lt in El. naive_solver. }
  unfold mgr_add in Hr. unfold spec_add. destruct (ma_sock (ai_addr i)) as [s|] eqn:Es.
  2:{ injection Hr as <-. split; [done|]. split; [lia|]. split; [|auto]. intros s. by rewrite decide_False. }
  pose proof (get_look m (ai_addr i) H) as Hg. rewrite Es in Hg. cbn in Hg.
  destruct (mgr_get m (ai_addr i)) as [old|] eqn:Eg; cbn in Hg; [|by rewrite Hpan in Hr].
  destruct (ai_conn old <? ai_conn i) eqn:Ec.
  - destruct (remove_ok m (ai_addr i) H) as (m2 & r & Hr2 & _ & En & _). rewrite Hr2 in Hr. by rewrite Hpan in Hr.
  - injection Hr as <-. split; [done|]. split; [lia|]. split; [|auto]. intros s'. case_decide as Hd'; [|done]. injection Hd' as <-.
    rewrite <- Hg. change (ai_conn (strip old)) with (ai_conn old). by rewrite Ec.
Qed.

(* ---- updating an entry in place ---- *)
Lemma update_ok f m a :
  (forall i, ai_addr (f i) = ai_addr i /\ ai_pos (f i) = ai_pos i /\ strip (f i) = f (strip i)) ->
  minv m ->
  minv (mgr_update f m a) /\ m_next (mgr_update f m a) = m_next m /\
  (forall s, look (mgr_update f m a) s = if decide (ma_sock a = Some s) then f <$> look m s else look m s) /\
  (no_stale m -> no_stale (mgr_update f m a)).
Proof.
  intros Hf H. unfold mgr_update. destruct (ma_sock a) as [s|] eqn:Es.
  2:{ split; [done|]. split; [done|]. split; [|done]. intros s. by rewrite decide_False. }
  destruct (m_addr m !! s) as [id|] eqn:Ea.
  2:{ split; [done|]. split; [done|]. split; [|done]. intros s'. case_decide as Hd; [|done]. injection Hd as <-. unfold look. by rewrite Ea. }
  split; [split; cbn [m_next m_addr m_info m_peer m_rand]|].
  - intros s' id' Hx. destruct (mi_addr m H _ _ Hx) as (x & Hx' & Ex). destruct (decide (id = id')) as [<-|].
    + exists (f x). rewrite lookup_alter, Hx'. split; [done|]. by rewrite (proj1 (Hf x)).
    + exists x. by rewrite lookup_alter_ne.
  - intros id' x Hx. destruct (decide (id = id')) as [<-|].
    + rewrite lookup_alter in Hx. apply fmap_some in Hx as (y & Hy & ->). rewrite (proj1 (Hf y)). apply (mi_info m H _ _ Hy).
    + rewrite lookup_alter_ne in Hx by done. apply (mi_info m H _ _ Hx).
  - destruct (mi_pos m H) as [H1 H2]. split.
    + intros id' x Hx. destruct (decide (id = id')) as [<-|].
      * rewrite lookup_alter in Hx. apply fmap_some in Hx as (y & Hy & ->). rewrite (proj1 (proj2 (Hf y))). by apply H1.
      * rewrite lookup_alter_ne in Hx by done. by apply H1.
    + intros k id' Hk. destruct (H2 _ _ Hk) as (x & Hx & Ex). destruct (decide (id = id')) as [<-|].
      * exists (f x). rewrite lookup_alter, Hx. split; [done|]. by rewrite (proj1 (proj2 (Hf x))).
      * exists x. by rewrite lookup_alter_ne.
  - intros id' x Hx. destruct (decide (id = id')) as [<-|].
    + rewrite lookup_alter in Hx. apply fmap_some in Hx as (y & Hy & ->). apply (mi_next m H _ _ Hy).
    + rewrite lookup_alter_ne in Hx by done. apply (mi_next m H _ _ Hx).
  - intros id' x Hx. destruct (decide (id = id')) as [<-|].
    + rewrite lookup_alter in Hx. apply fmap_some in Hx as (y & Hy & ->). rewrite (proj1 (Hf y)). apply (mi_peer m H _ _ Hy).
    + rewrite lookup_alter_ne in Hx by done. apply (mi_peer m H _ _ Hx).
  - split; [done|]. split.
    { intros s'. unfold look; cbn [m_addr m_info]. case_decide as Hd.
      + injection Hd as <-. rewrite Ea. cbn. rewrite lookup_alter. destruct (m_info m !! id) as [x|]; [|done]. cbn. f_equal. apply Hf.
      + destruct (m_addr m !! s') as [id'|] eqn:Es'; [|done]. cbn. rewrite lookup_alter_ne; [done|]. intros <-.
        destruct (mi_addr m H _ _ Ea) as (x & Hx & Ex). destruct (mi_addr m H _ _ Es') as (y & Hy & Ey). congruence. }
    intros Hns p set id' Hset Hin. cbn [m_peer m_info] in *. destruct (Hns _ _ _ Hset Hin) as (x & Hx & Hxp).
    destruct (decide (id = id')) as [<-|].
    + exists (f x). rewrite lookup_alter, Hx. split; [done|]. by rewrite (proj1 (Hf x)).
    + exists x. by rewrite lookup_alter_ne.
Qed.

(* ---- random selection ---- *)
Definition ip_of (i : ainfo) : option ip := fst <$> ma_sock (ai_addr i).
Definition test_ip (x : ip) : bool := ip_unspecified x || ip_loopback x.

(** Elements of the result so far, and of the visited addresses. *)
Record fstate (m0 : mgr) (now : N) (flt : ainfo -> bool) (i : nat) (dup : gset ip) (acc : list ainfo) (m : mgr) : Prop := {
  fs_inv : minv m;
  fs_addr : m_addr m = m_addr m0;
  fs_next : m_next m = m_next m0;
  fs_peer : m_peer m = m_peer m0;
  fs_len : length (m_rand m) = length (m_rand m0);
  fs_same : forall id, strip <$> m_info m !! id = strip <$> m_info m0 !! id;
  fs_acc : forall e, e ∈ acc -> exists k id x, (k < i)%nat /\ m_rand m !! k = Some id /\ m_info m !! id = Some x /\ strip x = strip e /\
             is_connectable now e = true /\ flt e = true /\ exists p, ip_of e = Some p /\ p ∈ dup;
  fs_nodup : NoDup (map (fun e => ma_sock (ai_addr e)) acc);
  fs_ips : forall k1 k2 e1 e2 x, acc !! k1 = Some e1 -> acc !! k2 = Some e2 -> ip_of e1 = Some x -> ip_of e2 = Some x ->
             test_ip x = false -> k1 = k2;
  fs_dup : forall x, x ∈ dup -> exists k id y, (k < i)%nat /\ m_rand m !! k = Some id /\ m_info m !! id = Some y /\ ip_of y = Some x;
  fs_done : forall k id y x, (k < i)%nat -> m_rand m !! k = Some id -> m_info m !! id = Some y -> ip_of y = Some x ->
             is_connectable now y = true -> (forall p, flt (set_pos p y) = true) ->
             (exists e, e ∈ acc /\ strip e = strip y) \/
             (test_ip x = false /\ exists k' id' y', (k' < k)%nat /\ m_rand m !! k' = Some id' /\ m_info m !! id' = Some y' /\ ip_of y' = Some x) }.

Lemma strip_ip i j : strip i = strip j -> ip_of i = ip_of j.
Proof. intros E. unfold ip_of. by rewrite (strip_eq_addr _ _ E). Qed.
Lemma strip_conn now i j : strip i = strip j -> is_connectable now i = is_connectable now j.
Proof. destruct i, j. intros [= -> -> -> -> ->]. done. Qed.
Lemma strip_pos i j : strip i = strip j -> i = set_pos (ai_pos i) j.
Proof. destruct i, j. intros [= -> -> -> -> ->]. done. Qed.

Lemma fetch_loop_ok m0 now count flt left : forall i picks dup acc m,
  (i + left = length (m_rand m0))%nat -> (N.of_nat (length acc) < count) ->
  fstate m0 now flt i dup acc m ->
  exists m' acc' i' dup', fetch_loop left i picks now count flt dup acc m = Ok (m', acc') /\
    fstate m0 now flt i' dup' acc' m' /\ N.of_nat (length acc') <= count /\
    (N.of_nat (length acc') < count -> i' = length (m_rand m0)).
Proof.
  induction left as [|left IH]; intros i picks dup acc m Hlen Hcount Hf.
  - cbn. exists m, acc, i, dup. split; [done|]. split; [done|]. split; [lia|]. intros _. lia.
  - cbn [fetch_loop].
    set (j := (i + default 0%nat (head picks) mod S left)%nat).
    assert (Hj : (j < length (m_rand m))%nat /\ (i <= j)%nat).
    { rewrite (fs_len _ _ _ _ _ _ _ Hf). subst j. pose proof (Nat.mod_upper_bound (default 0%nat (head picks)) (S left)). lia. }
    destruct Hj as [Hj Hij].
    assert (Hi : (i < length (m_rand m))%nat) by (rewrite (fs_len _ _ _ _ _ _ _ Hf); lia).
    destruct (swap_minv m j i (fs_inv _ _ _ _ _ _ _ Hf) Hj Hi) as (m' & Hsw & Hm' & En & Ea & Ep & El & Hst & H1 & H2 & H3).
    rewrite Hsw.
    assert (Hbelow : forall k, (k < i)%nat -> m_rand m' !! k = m_rand m !! k). { intros k Hk. apply H3; lia. }
    assert (Hfwd : forall id x, m_info m !! id = Some x -> exists y, m_info m' !! id = Some y /\ strip y = strip x).
    { intros id x Hx. specialize (Hst id). rewrite Hx in Hst. apply fmap_some in Hst as (y & Hy & E). by exists y. }
    assert (Hbwd : forall id y, m_info m' !! id = Some y -> exists x, m_info m !! id = Some x /\ strip y = strip x).
    { intros id y Hy. specialize (Hst id). rewrite Hy in Hst. symmetry in Hst. apply fmap_some in Hst as (x & Hx & E). by exists x. }
    assert (Hi' : (i < length (m_rand m'))%nat) by lia.
    apply lookup_lt_is_Some in Hi' as [id Hid]. rewrite Hid.
    destruct (proj2 (mi_pos m' Hm') _ _ Hid) as (info & Hinfo & Hpos). rewrite Hinfo.
    destruct (mi_info m' Hm' _ _ Hinfo) as (s & Hs & Has). rewrite Hs.
    assert (Hipi : ip_of info = Some s.1) by (unfold ip_of; by rewrite Hs).
    (* facts that carry over to the swapped manager *)
    assert (Hacc' : forall e, e ∈ acc -> exists k id x, (k < i)%nat /\ m_rand m' !! k = Some id /\ m_info m' !! id = Some x /\ strip x = strip e /\
             is_connectable now e = true /\ flt e = true /\ exists p, ip_of e = Some p /\ p ∈ dup).
    { intros e He. destruct (fs_acc _ _ _ _ _ _ _ Hf e He) as (k & id' & x & Hk & Hkr & Hx & Es & Hc & Hfl & Hd).
      destruct (Hfwd _ _ Hx) as (y & Hy & Ey). exists k, id', y. rewrite Hbelow by done. split; [done|]. split; [done|]. split; [done|].
      split; [congruence|done]. }
    set (ok := (ip_unspecified s.1 || ip_loopback s.1 || bool_decide (s.1 ∉ dup)) && is_connectable now info && flt info).
    set (acc' := if ok then acc ++ [info] else acc).
    assert (Hok : ok = true -> is_connectable now info = true /\ flt info = true /\ (test_ip s.1 = true \/ s.1 ∉ dup)).
    { unfold ok, test_ip. intros [[Hx ?]%andb_prop ?]%andb_prop. split; [done|]. split; [done|].
      apply orb_prop in Hx as [Hx|Hx]; [by left|right]. by apply bool_decide_eq_true in Hx. }
    assert (Hf' : fstate m0 now flt (S i) ({[s.1]} ∪ dup) acc' m').
    { split.
      - done.
      - by rewrite Ea, (fs_addr _ _ _ _ _ _ _ Hf).
      - by rewrite En, (fs_next _ _ _ _ _ _ _ Hf).
      - by rewrite Ep, (fs_peer _ _ _ _ _ _ _ Hf).
      - by rewrite El, (fs_len _ _ _ _ _ _ _ Hf).
      - intros id'. by rewrite Hst, (fs_same _ _ _ _ _ _ _ Hf).
      - intros e He. assert (e ∈ acc \/ (e = info /\ ok = true)) as [He'|[-> Hokt]].
        { subst acc'. destruct ok; [|by left]. apply elem_of_app in He as [He|He]; [by left|right]. set_solver. }
        + destruct (Hacc' e He') as (k & id' & x & ? & ? & ? & ? & ? & ? & p & ? & ?). exists k, id', x.
          split; [lia|]. do 5 (split; [done|]). exists p. split; [done|set_solver].
        + destruct (Hok Hokt) as (? & ? & _). exists i, id, info. split; [lia|]. do 5 (split; [done|]). exists s.1. split; [done|set_solver].
      - subst acc'. destruct ok eqn:Eok; [|apply (fs_nodup _ _ _ _ _ _ _ Hf)].
        rewrite map_app. apply NoDup_app. split; [apply (fs_nodup _ _ _ _ _ _ _ Hf)|]. split; [|apply NoDup_singleton].
        intros o Ho Hin. apply elem_of_list_singleton in Hin as ->.
        apply elem_of_list_fmap in Ho as (e & Ho & He).
        destruct (Hacc' e He) as (k & id' & x & Hk & Hkr & Hx & Es & _).
        destruct (mi_info m' Hm' _ _ Hx) as (s' & Hs' & Has'). rewrite (strip_eq_addr _ _ Es) in Hs'.
        assert (s' = s) as -> by congruence. assert (id' = id) as -> by congruence.
        pose proof (posok_inj _ _ _ _ _ (mi_pos m' Hm') Hkr Hid). lia.
      - subst acc'. destruct ok eqn:Eok; [|apply (fs_ips _ _ _ _ _ _ _ Hf)]. destruct (Hok eq_refl) as (_ & _ & Hu).
        intros k1 k2 e1 e2 x Hk1 Hk2 He1 He2 Hnt.
        assert (Hold : forall k e, acc !! k = Some e -> ip_of e = Some s.1 -> x = s.1 -> False).
        { intros k e Hk He ->. apply elem_of_list_lookup_2 in Hk. destruct (Hacc' e Hk) as (? & ? & ? & _ & _ & _ & _ & _ & _ & p & Hp & Hd).
          destruct Hu as [Hu|Hu]; [congruence|]. apply Hu. congruence. }
        apply lookup_app_Some in Hk1 as [Hk1|[Hl1 Hk1]], Hk2 as [Hk2|[Hl2 Hk2]].
        + by apply (fs_ips _ _ _ _ _ _ _ Hf k1 k2 e1 e2 x).
        + apply list_lookup_singleton_Some in Hk2 as [_ <-]. destruct (Hold k1 e1 Hk1); congruence.
        + apply list_lookup_singleton_Some in Hk1 as [_ <-]. destruct (Hold k2 e2 Hk2); congruence.
        + apply list_lookup_singleton_Some in Hk1 as [? <-], Hk2 as [? <-]. lia.
      - intros x [->%elem_of_singleton|Hx]%elem_of_union.
        + exists i, id, info. split; [lia|]. done.
        + destruct (fs_dup _ _ _ _ _ _ _ Hf x Hx) as (k & id' & y & Hk & Hkr & Hy & Hip).
          destruct (Hfwd _ _ Hy) as (y' & Hy' & Ey). exists k, id', y'. rewrite Hbelow by done. split; [lia|]. split; [done|]. split; [done|].
          by rewrite (strip_ip _ _ Ey).
      - intros k id' y x Hk Hkr Hy Hip Hc Hfl. destruct (decide (k = i)) as [->|Hki].
        + assert (id' = id) as -> by congruence. assert (y = info) as -> by congruence.
          destruct ok eqn:Eok; [left; exists info; split; [subst acc'; set_solver|done]|].
          assert (x = s.1) as -> by congruence. right.
          assert (Hbad : (ip_unspecified s.1 || ip_loopback s.1 || bool_decide (s.1 ∉ dup)) = false).
          { unfold ok in Eok. rewrite Hc in Eok. specialize (Hfl (ai_pos info)). destruct info; cbn in Hfl. cbn in Eok.
            unfold set_pos in Hfl; cbn in Hfl. rewrite Hfl in Eok. by rewrite !andb_true_r in Eok. }
          apply orb_false_iff in Hbad as [Hnt Hd]. split; [done|]. apply bool_decide_eq_false in Hd. apply dec_stable in Hd.
          destruct (fs_dup _ _ _ _ _ _ _ Hf _ Hd) as (k' & id'' & y' & Hk' & Hkr' & Hy' & Hip').
          destruct (Hfwd _ _ Hy') as (y'' & Hy'' & Ey). exists k', id'', y''. rewrite Hbelow by done.
          split; [done|]. split; [done|]. split; [done|]. by rewrite (strip_ip _ _ Ey).
        + assert (Hk' : (k < i)%nat) by lia. rewrite Hbelow in Hkr by done.
          destruct (Hbwd _ _ Hy) as (y0 & Hy0 & Ey).
          destruct (fs_done _ _ _ _ _ _ _ Hf k id' y0 x Hk' Hkr Hy0) as [(e & He & Ee)|(Hnt & k' & id'' & y' & Hlt & Hkr' & Hy' & Hip')].
          * by rewrite <- (strip_ip _ _ Ey).
          * by rewrite <- (strip_conn _ _ _ Ey).
          * intros p. specialize (Hfl p). rewrite (strip_pos _ _ Ey) in Hfl. done.
          * left. exists e. split; [|congruence]. subst acc'. destruct ok; [set_solver|done].
          * right. split; [done|]. destruct (Hfwd _ _ Hy') as (y'' & Hy'' & Ey'). exists k', id'', y''. rewrite Hbelow by lia.
            split; [done|]. split; [done|]. split; [done|]. by rewrite (strip_ip _ _ Ey'). }
    fold ok. fold acc'.
    assert (Hla : N.of_nat (length acc') <= N.of_nat (length acc) + 1).
    { subst acc'. destruct ok; rewrite ?app_length; cbn [length]; lia. }
    destruct (N.of_nat (length acc') =? count) eqn:Ecount.
    + apply N.eqb_eq in Ecount. exists m', acc', (S i), ({[s.1]} ∪ dup). split; [done|]. split; [done|]. split; [lia|]. lia.
    + apply N.eqb_neq in Ecount.
      apply (IH (S i) (tail picks) _ acc' m'); [lia|lia|done].
Qed.

(** The selection never panics, keeps the book, and returns stored, connectable, accepted entries, none twice, at most one per
    address outside of the test ranges, at most [count]; when it returns fewer, every suitable entry that does not share its
    address is among them. *)
Theorem fetch_ok m picks now count flt :
  minv m -> 0 < count ->
  exists m' l, mgr_fetch picks now count flt m = Ok (m', l) /\ minv m' /\ m_next m' = m_next m /\
    (forall s, look m' s = look m s) /\ (no_stale m -> no_stale m') /\
    N.of_nat (length l) <= count /\
    (forall e, e ∈ l -> is_connectable now e = true /\ flt e = true /\ exists s, ma_sock (ai_addr e) = Some s /\ look m s = Some (strip e)) /\
    NoDup (map (fun e => ma_sock (ai_addr e)) l) /\
    (forall k1 k2 e1 e2 x, l !! k1 = Some e1 -> l !! k2 = Some e2 -> ip_of e1 = Some x -> ip_of e2 = Some x -> test_ip x = false -> k1 = k2) /\
    (N.of_nat (length l) < count ->
       forall s y, look m s = Some y -> is_connectable now y = true -> (forall p, flt (set_pos p y) = true) ->
         (test_ip s.1 = true \/ (forall s' y', look m s' = Some y' -> s'.1 = s.1 -> s' = s)) -> exists e, e ∈ l /\ strip e = y).
Proof.
  intros H Hc. unfold mgr_fetch.
  destruct (fetch_loop_ok m now count flt (length (m_rand m)) 0%nat picks ∅ [] m) as (m' & l & i' & dup' & Hr & Hf & Hl & Hfull).
  - done.
  - cbn. lia.
  - split; try done; try (intros; set_solver); try apply NoDup_nil_2; intros; lia.
  - exists m', l. split; [done|].
    pose proof (fs_inv _ _ _ _ _ _ _ Hf) as Hm'.
    assert (Hlook : forall s, look m' s = look m s).
    { intros s. unfold look. rewrite (fs_addr _ _ _ _ _ _ _ Hf). destruct (m_addr m !! s); [|done]. cbn. apply (fs_same _ _ _ _ _ _ _ Hf). }
    split; [done|]. split; [apply (fs_next _ _ _ _ _ _ _ Hf)|]. split; [done|]. split.
    { intros Hns p set id. rewrite (fs_peer _ _ _ _ _ _ _ Hf). intros Hset Hin. destruct (Hns _ _ _ Hset Hin) as (x & Hx & Hxp).
      pose proof (fs_same _ _ _ _ _ _ _ Hf id) as Hs. rewrite Hx in Hs. apply fmap_some in Hs as (y & Hy & E).
      exists y. split; [done|]. by rewrite <- (strip_eq_addr _ _ E). }
    split; [done|]. split; [|split; [apply (fs_nodup _ _ _ _ _ _ _ Hf)|split; [apply (fs_ips _ _ _ _ _ _ _ Hf)|]]].
    + intros e He. destruct (fs_acc _ _ _ _ _ _ _ Hf e He) as (k & id & x & _ & _ & Hx & Es & Hcn & Hfl & _).
      split; [done|]. split; [done|]. destruct (mi_info m' Hm' _ _ Hx) as (s & Hs & Has).
      exists s. rewrite <- (strip_eq_addr _ _ Es). split; [done|]. rewrite <- Hlook. apply look_some. by exists id, x.
    + intros Hlt s y Hy Hcn Hfl Huniq. specialize (Hfull Hlt). subst i'.
      rewrite <- Hlook in Hy. apply look_some in Hy as (id & i & Ha & Hi & ->).
      destruct (mi_addr m' Hm' _ _ Ha) as (i2 & Hi2 & Hs). assert (i2 = i) as -> by congruence.
      pose proof (proj1 (mi_pos m' Hm') _ _ Hi) as Hk. apply lookup_lt_Some in Hk as Hk'. rewrite (fs_len _ _ _ _ _ _ _ Hf) in Hk'.
      assert (Hip : ip_of i = Some s.1) by (unfold ip_of; by rewrite Hs).
      destruct (fs_done _ _ _ _ _ _ _ Hf _ _ _ _ Hk' Hk Hi Hip) as [(e & He & Ee)|(Hnt & k2 & id2 & y2 & Hlt2 & Hkr2 & Hy2 & Hip2)].
      * by rewrite (strip_conn now i (strip i)).
      * intros p. by specialize (Hfl p).
      * by exists e.
      * exfalso. destruct Huniq as [Hu|Hu]; [congruence|].
        destruct (mi_info m' Hm' _ _ Hy2) as (s2 & Hs2 & Has2).
        assert (s2 = s).
        { apply (Hu s2 (strip y2)).
          - rewrite <- Hlook. apply look_some. by exists id2, y2.
          - unfold ip_of in Hip2. rewrite Hs2 in Hip2. cbn in Hip2. congruence. }
        subst s2. assert (id2 = id) as -> by congruence.
        pose proof (posok_inj _ _ _ _ _ (mi_pos m' Hm') Hkr2 Hk). lia.
Qed.
