(** C46 (bans) and C47 (connection limits). *)
From Verif Require Import Bytes TxModel PeerModel PeerProofs BookProps.
From stdpp Require Import base gmap list.
From Coq Require Import Lia.
#[local] Open Scope N_scope.

(* ---------------------------------------------------------------------- *)
(** * Vocabulary *)

(** the node bans address [y] at time [t] *)
Definition banned (s : nstate) (t : N) (y : ip) : bool := ip_banned t y (ps_bans (pm_store (ns_pm s))).
(** peer [q] is connected through session [sid] at address [a] *)
Definition connected (s : nstate) (q sid : N) (a : maddr) (out : bool) : Prop := pm_online (ns_pm s) !! q = Some (PInfo a sid out).
Definition exempt (s : nstate) (q : N) : Prop := q ∈ pm_boot (ns_pm s) \/ q ∈ pm_cons (ns_pm s).
(** connected peers, counted *)
Definition conns (s : nstate) (sel : bool -> bool) : N :=
  N.of_nat (length (List.filter (fun kv : N * pinfo => sel (pi_out kv.2)) (map_to_list (pm_online (ns_pm s))))).
Definition anyd (_ : bool) := true.
Definition inb (o : bool) := negb o.
Definition outb (o : bool) := o.

(* ---------------------------------------------------------------------- *)
(** * Invariants *)

Record sinv (p : pstore) : Prop := {
  si_book : minv (ps_book p);
  si_host : forall n u, bl_map (ps_bans p) !! n = Some u -> exists y, n = ip_to_network y }.
Record ninv (s : nstate) : Prop := {
  ni_store : sinv (pm_store (ns_pm s));
  ni_open : forall q i, pm_online (ns_pm s) !! q = Some i -> ns_open s !! pi_sid i = Some (pi_addr i, pi_out i) /\ ma_peer (pi_addr i) = Some q;
  ni_peer : forall sid a out, ns_open s !! sid = Some (a, out) -> ma_peer a <> None;
  ni_uniq : forall sid1 sid2 a1 a2 o1 o2, ns_open s !! sid1 = Some (a1, o1) -> ns_open s !! sid2 = Some (a2, o2) -> ma_peer a1 = ma_peer a2 -> sid1 = sid2;
  ni_size : N.of_nat (size (ns_open s)) <= pm_max (ns_pm s);
  ni_conn : ps_conn (pm_store (ns_pm s)) = dom (pm_online (ns_pm s)) }.

Lemma host_contains y z : net_contains (ip_to_network y) z = true <-> y = z.
Proof.
  destruct y as [b y], z as [b' z]. unfold net_contains, ip_to_network. cbn [fst snd]. split.
  - intros [Eb%eqb_prop E]%andb_prop. subst b'. rewrite N.sub_diag, !N.shiftr_0_r in E. apply N.eqb_eq in E. by subst.
  - intros [= <- <-]. rewrite N.eqb_refl. by destruct b.
Qed.
Lemma host_inj y z : ip_to_network y = ip_to_network z -> y = z.
Proof. destruct y as [b y], z as [b' z]. unfold ip_to_network. cbn. by intros [= -> ->]. Qed.

Lemma sinv_banned p t y : sinv p -> ip_banned t y (ps_bans p) = true <-> exists u, bl_map (ps_bans p) !! ip_to_network y = Some u /\ t < u.
Proof.
  intros H. rewrite ip_banned_iff. split.
  - intros (n & u & Hn & Ht & Hc). destruct (si_host p H _ _ Hn) as [z ->]. apply host_contains in Hc as ->. by exists u.
  - intros (u & Hn & Ht). exists (ip_to_network y), u. split; [done|]. split; [done|]. by apply host_contains.
Qed.

(* ---- store operations ---- *)
Lemma ban_addr_ok now d a p p' :
  sinv p -> ps_ban_addr now d a p = Ok p' ->
  sinv p' /\ ps_conn p' = ps_conn p /\ (forall z, look (ps_book p') z = spec_remove (look (ps_book p)) a z) /\
  (forall t y, now <= t -> ip_banned t y (ps_bans p') =
     match ma_sock a with Some s => if decide (s.1 = y) then t <? now + d else ip_banned t y (ps_bans p) | None => ip_banned t y (ps_bans p) end).
Proof.
  intros H. unfold ps_ban_addr. destruct (ma_sock a) as [s|] eqn:Es.
  - destruct (now + d <? 2 ^ 64); [|done]. destruct (remove_ok (ps_book p) a (si_book p H)) as (m & r & Hr & Hm & _ & Hl & _).
    rewrite Hr. intros [= <-]. cbn [ps_book ps_bans ps_conn].
    assert (Hs : sinv (PStore m (bl_ban now (ip_to_network s.1) (now + d) (ps_bans p)) (ps_conn p))).
    { split; [done|]. cbn. intros n u Hn. apply ban_entries in Hn as [[-> _]|[_ Hn]]; [by exists s.1|by eapply si_host]. }
    split; [done|]. split; [done|]. split; [done|]. intros t y Ht.
    pose proof (sinv_banned _ t y Hs) as Hb. cbn [ps_bans] in Hb. apply eq_true_iff_eq. rewrite Hb. case_decide as Hd.
    + subst y. rewrite N.ltb_lt. split.
      * intros (u & Hu & Hlt). apply ban_entries in Hu as [[_ ->]|[Hne _]]; [lia|done].
      * intros Hlt. exists (now + d). split; [|done]. apply ban_keeps; [lia|by left].
    + rewrite (sinv_banned p t y H). split.
      * intros (u & Hu & Hlt). exists u. split; [|done]. apply ban_entries in Hu as [[Heq _]|[_ Hu]]; [|done].
        apply host_inj in Heq. congruence.
      * intros (u & Hu & Hlt). exists u. split; [|done]. apply ban_keeps; [lia|]. right. split; [|done].
        intros Heq%host_inj. congruence.
  - destruct (remove_ok (ps_book p) a (si_book p H)) as (m & r & Hr & Hm & _ & Hl & _).
    rewrite Hr. intros [= <-]. cbn. split; [|done]. split; [done|]. apply (si_host p H).
Qed.
Lemma add_store_ok m m' i : minv m -> mgr_add m i = Ok m' -> minv m'.
Proof. intros Hm Ha. by destruct (add_inv _ _ _ Hm Ha). Qed.
Lemma purge_minv evict now m m' : minv m -> check_purge evict now m = Ok m' -> minv m' /\ m_next m' = m_next m.
Proof.
  intros Hm. unfold check_purge. destruct (_ <? _); [by intros [= <-]|].
  assert (Hr : forall l, remove_all m l = Ok m' -> minv m' /\ m_next m' = m_next m).
  { intros l Hl. destruct (remove_all_minv l m Hm) as (m2 & Hr & ? & ?). assert (m2 = m') as -> by congruence. done. }
  destruct (dead_addrs now m); [destruct evict; [done|]|]; apply Hr.
Qed.
Lemma add_addr_ok evict now a p p' :
  sinv p -> ps_add_addr evict now a p = Ok p' ->
  sinv p' /\ ps_conn p' = ps_conn p /\ ps_bans p' = ps_bans p.
Proof.
  intros H. unfold ps_add_addr. destruct (addr_banned _ _ _); [by intros [= <-]|].
  destruct (check_purge _ _ _) as [m| |] eqn:Ep; [|done|done]. destruct (mgr_add _ _) as [m'| |] eqn:Ea; [|done|done].
  intros [= <-]. cbn. split; [|done]. split; [|apply (si_host p H)]. apply (purge_minv _ _ _ _ (si_book p H)) in Ep as [Ep _].
  by eapply add_store_ok.
Qed.
Lemma add_outbound_ok now a p p' :
  sinv p -> ps_add_outbound now a p = Ok p' ->
  sinv p' /\ ps_conn p' = ps_conn p /\ ps_bans p' = ps_bans p.
Proof.
  intros H. unfold ps_add_outbound. destruct (addr_banned _ _ _); [by intros [= <-]|].
  destruct (mgr_add _ _) as [m'| |] eqn:Ea; [|done|done].
  intros [= <-]. cbn. split; [|done]. split; [|apply (si_host p H)]. eapply add_store_ok; [apply (si_book p H)|done].
Qed.
Lemma fetch_store_ok which picks now count p p' l :
  sinv p -> 0 < count -> ps_fetch which picks now count p = Ok (p', l) ->
  sinv p' /\ ps_conn p' = ps_conn p /\ ps_bans p' = ps_bans p.
Proof.
  intros H Hc. unfold ps_fetch. destruct (fetch_ok (ps_book p) picks now count (which now p) (si_book p H) Hc) as (m' & l' & Hf & Hm & _).
  rewrite Hf. intros [= <- _]. cbn. split; [|done]. split; [done|apply (si_host p H)].
Qed.

(* ---- sessions ---- *)
Lemma find_sid_some sid o i : find_sid sid o = Some i -> exists q, o !! q = Some i /\ pi_sid i = sid.
Proof.
  unfold find_sid. destruct (List.find _ _) as [[q i']|] eqn:E; [|done]. cbn. intros [= ->].
  apply find_some in E as [Hin%elem_of_list_In%elem_of_map_to_list Hs%N.eqb_eq]. by exists q.
Qed.
Lemma find_sid_none sid o : find_sid sid o = None -> forall q i, o !! q = Some i -> pi_sid i <> sid.
Proof.
  unfold find_sid. destruct (List.find _ _) as [[q i']|] eqn:E; [done|]. intros _ q i Hq Hs.
  pose proof (find_none _ _ E (q, i)) as Hn. cbn in Hn. rewrite Hs, N.eqb_refl in Hn. discriminate Hn.
  by apply elem_of_list_In, elem_of_map_to_list.
Qed.
Lemma open_ok_iff s sid a :
  open_ok s sid a = true <->
  ns_open s !! sid = None /\ ma_peer a <> None /\ (forall sid' a' o', ns_open s !! sid' = Some (a', o') -> ma_peer a' <> ma_peer a) /\
  N.of_nat (size (ns_open s)) < pm_max (ns_pm s).
Proof.
  unfold open_ok. rewrite !andb_true_iff, !bool_decide_eq_true, forallb_forall, N.ltb_lt. split.
  - intros [[[H1 H2] H] H3]. split; [done|]. split; [done|]. split; [|done]. intros sid' a' o' Ho.
    specialize (H (sid', (a', o'))). cbn in H. rewrite negb_true_iff, bool_decide_eq_false in H. apply H.
    by apply elem_of_list_In, elem_of_map_to_list.
  - intros (H1 & H2 & H & H3). split; [split; [done|]|done]. intros [sid' [a' o']] Hin%elem_of_list_In%elem_of_map_to_list. cbn.
    apply negb_true_iff, bool_decide_eq_false. by eapply H.
Qed.

(** The three ways a session can open. *)
Lemma session_open_cases now p sid a out r :
  session_open now p sid a out = Ok r ->
  let p1 := PM (pm_online p) (pm_dialing p ∖ {[a]}) (pm_feeler p) (pm_store p) (pm_boot p) (pm_cons p) (pm_max p) (pm_inlimit p) in
  (a ∈ pm_feeler p /\ r = (p1, [])) \/
  (a ∉ pm_feeler p /\ over_limit p out = true /\ always_allow now p a = Ok false /\ r = (p1, [ADisconnect sid])) \/
  (a ∉ pm_feeler p /\ (over_limit p out = true -> always_allow now p a = Ok true) /\
   exists q p2, ma_peer a = Some q /\ r = (p2, []) /\ pm_online p2 = <[q := PInfo a sid out]> (pm_online p) /\
     ps_book (pm_store p2) = ps_book (pm_store p) /\ ps_bans (pm_store p2) = ps_bans (pm_store p) /\
     ps_conn (pm_store p2) = {[q]} ∪ ps_conn (pm_store p) /\ pm_max p2 = pm_max p /\ pm_inlimit p2 = pm_inlimit p /\
     pm_boot p2 = pm_boot p /\ pm_cons p2 = pm_cons p /\ pm_feeler p2 = pm_feeler p).
Proof.
  intros H p1. unfold session_open in H. fold p1 in H. cbv zeta in H.
  change (pm_feeler p1) with (pm_feeler p) in H. change (over_limit p1 out) with (over_limit p out) in H.
  change (always_allow now p1 a) with (always_allow now p a) in H.
  destruct (bool_decide (a ∈ pm_feeler p)) eqn:Ef; [apply bool_decide_eq_true in Ef; left; by injection H as <-|].
  apply bool_decide_eq_false in Ef. destruct (_ <? _); [done|]. right.
  assert (Hk : (match register p1 (PInfo a sid out) with Ok s2 => Ok (s2, []) | Err => Err | Panic => Panic end) = Ok r ->
      exists q p2, ma_peer a = Some q /\ r = (p2, ([] : list action)) /\ pm_online p2 = <[q := PInfo a sid out]> (pm_online p) /\
     ps_book (pm_store p2) = ps_book (pm_store p) /\ ps_bans (pm_store p2) = ps_bans (pm_store p) /\
     ps_conn (pm_store p2) = {[q]} ∪ ps_conn (pm_store p) /\ pm_max p2 = pm_max p /\ pm_inlimit p2 = pm_inlimit p /\
     pm_boot p2 = pm_boot p /\ pm_cons p2 = pm_cons p /\ pm_feeler p2 = pm_feeler p).
  { unfold register. cbn [pi_addr]. destruct (ma_peer a) as [q|]; [|done]. intros [= <-]. eexists q, _. split; [done|]. split; [reflexivity|]. cbn.
    repeat (apply conj; [reflexivity|]). reflexivity. }
  destruct (over_limit p out) eqn:Eo.
  - destruct (always_allow now p a) as [[]| |] eqn:Ea; [right|left|done|done].
    + split; [done|]. split; [done|]. by apply Hk.
    + split; [done|]. split; [done|]. split; [done|]. by injection H as <-.
  - right. split; [done|]. split; [done|]. by apply Hk.
Qed.
Lemma unregister_ok p a q p' :
  (forall q i, pm_online p !! q = Some i -> ma_peer (pi_addr i) = Some q) ->
  ma_peer a = Some q -> unregister p a = Ok p' ->
  pm_online p' = delete q (pm_online p) /\ ps_book (pm_store p') = ps_book (pm_store p) /\ ps_bans (pm_store p') = ps_bans (pm_store p) /\
  ps_conn (pm_store p') = (match pm_online p !! q with Some _ => ps_conn (pm_store p) ∖ {[q]} | None => ps_conn (pm_store p) end) /\
  pm_max p' = pm_max p /\ pm_inlimit p' = pm_inlimit p /\ pm_boot p' = pm_boot p /\ pm_cons p' = pm_cons p.
Proof.
  intros Hp Hq. unfold unregister. rewrite Hq. destruct (pm_online p !! q) as [i|] eqn:Ei.
  - rewrite (Hp _ _ Ei). intros [= <-]. cbn. repeat (apply conj; [reflexivity|]). reflexivity.
  - intros [= <-]. cbn. repeat (apply conj; [reflexivity|]). reflexivity.
Qed.

Lemma filter_all {A} (l : list A) : length (List.filter (fun _ => true) l) = length l.
Proof. induction l as [|? l IH]; [done|]. cbn. by rewrite IH. Qed.
Lemma ns_eta s : s = NS (ns_pm s) (ns_open s) (ns_now s).
Proof. by destruct s. Qed.

(** Bans raised by an event: the address and the time span. *)
Definition raises (s : nstate) (e : nev) (y : ip) (d : N) : Prop :=
  match e with
  | NBan q d' => d' = d /\ exists sid a out port, connected s q sid a out /\ ma_sock a = Some (y, port)
  | NProtoErr sid => d = 300000 /\ exists q a out port, connected s q sid a out /\ ma_sock a = Some (y, port)
  | _ => False
  end.
(** fetching takes a positive count, as all callers do *)
Definition fetch_pos (e : nev) : Prop := match e with NFetch _ _ c => 0 < c | _ => True end.

Lemma conn_inj s q i q' i' : ninv s -> pm_online (ns_pm s) !! q = Some i -> pm_online (ns_pm s) !! q' = Some i' -> pi_sid i = pi_sid i' -> q = q' /\ i = i'.
Proof.
  intros H Hq Hq' E. destruct (ni_open s H _ _ Hq) as [Ho Hp], (ni_open s H _ _ Hq') as [Ho' Hp'].
  rewrite E, Ho' in Ho. injection Ho as Ea Eo. assert (q = q') as -> by congruence. split; [done|congruence].
Qed.

Definition same_store (p p' : pm) : Prop :=
  ps_book (pm_store p') = ps_book (pm_store p) /\ ps_bans (pm_store p') = ps_bans (pm_store p).

(** Effect of one event on bans, on connected peers and on the invariant. *)
Lemma step_ok s e s' acts :
  ninv s -> fetch_pos e -> nstep s e = Ok (s', acts) ->
  ninv s' /\ ns_now s <= ns_now s' /\ pm_max (ns_pm s') = pm_max (ns_pm s) /\ pm_inlimit (ns_pm s') = pm_inlimit (ns_pm s) /\
  pm_boot (ns_pm s') = pm_boot (ns_pm s) /\
  (forall y d, raises s e y d -> forall t, ns_now s <= t -> banned s' t y = (t <? ns_now s + d)) /\
  (forall y, (forall d, ~ raises s e y d) -> forall t, ns_now s <= t -> banned s' t y = banned s t y) /\
  (forall q i, pm_online (ns_pm s) !! q = Some i -> e <> NClose (pi_sid i) -> pm_online (ns_pm s') !! q = Some i) /\
  (forall q i, pm_online (ns_pm s') !! q = Some i -> pm_online (ns_pm s) !! q = Some i \/ e = NOpen (pi_sid i) (pi_addr i) (pi_out i)).
Proof.
  intros H Hf Hst.
  (* events that change neither sessions nor bans *)
  assert (Hquiet : forall p2 o n2, s' = NS p2 o n2 -> o = ns_open s -> ns_now s <= n2 -> (forall y d, ~ raises s e y d) -> e = e ->
            pm_online p2 = pm_online (ns_pm s) -> sinv (pm_store p2) -> ps_bans (pm_store p2) = ps_bans (pm_store (ns_pm s)) ->
            ps_conn (pm_store p2) = ps_conn (pm_store (ns_pm s)) -> pm_max p2 = pm_max (ns_pm s) -> pm_inlimit p2 = pm_inlimit (ns_pm s) ->
            pm_boot p2 = pm_boot (ns_pm s) ->
            ninv s' /\ ns_now s <= ns_now s' /\ pm_max (ns_pm s') = pm_max (ns_pm s) /\ pm_inlimit (ns_pm s') = pm_inlimit (ns_pm s) /\
            pm_boot (ns_pm s') = pm_boot (ns_pm s) /\
            (forall y d, raises s e y d -> forall t, ns_now s <= t -> banned s' t y = (t <? ns_now s + d)) /\
            (forall y, (forall d, ~ raises s e y d) -> forall t, ns_now s <= t -> banned s' t y = banned s t y) /\
            (forall q i, pm_online (ns_pm s) !! q = Some i -> e <> NClose (pi_sid i) -> pm_online (ns_pm s') !! q = Some i) /\
            (forall q i, pm_online (ns_pm s') !! q = Some i -> pm_online (ns_pm s) !! q = Some i \/ e = NOpen (pi_sid i) (pi_addr i) (pi_out i))).
  { intros p2 o n2 -> -> Hn Hr _ Eo Hs Eb Ec Em Ei Eboot. cbn [ns_pm ns_open ns_now].
    apply conj; [|split; [done|split; [done|split; [done|split; [done|]]]]].
    - split; cbn [ns_pm ns_open ns_now]; [done|rewrite Eo; apply (ni_open s H)|apply (ni_peer s H)|apply (ni_uniq s H)|rewrite Em; apply (ni_size s H)|].
      by rewrite Ec, Eo, (ni_conn s H).
    - split; [intros y d Hy; by apply Hr in Hy|]. split; [intros y _ t _; unfold banned; cbn; by rewrite Eb|].
      rewrite Eo. split; [auto|by left]. }
  (* bans *)
  assert (Hban : forall q i st d, pm_online (ns_pm s) !! q = Some i -> ps_ban_addr (ns_now s) d (pi_addr i) (pm_store (ns_pm s)) = Ok st ->
            s' = NS (with_store (ns_pm s) st) (ns_open s) (ns_now s) ->
            (forall y d', raises s e y d' <-> d' = d /\ exists port, ma_sock (pi_addr i) = Some (y, port)) ->
            ninv s' /\ ns_now s <= ns_now s' /\ pm_max (ns_pm s') = pm_max (ns_pm s) /\ pm_inlimit (ns_pm s') = pm_inlimit (ns_pm s) /\
            pm_boot (ns_pm s') = pm_boot (ns_pm s) /\
            (forall y d, raises s e y d -> forall t, ns_now s <= t -> banned s' t y = (t <? ns_now s + d)) /\
            (forall y, (forall d, ~ raises s e y d) -> forall t, ns_now s <= t -> banned s' t y = banned s t y) /\
            (forall q i, pm_online (ns_pm s) !! q = Some i -> e <> NClose (pi_sid i) -> pm_online (ns_pm s') !! q = Some i) /\
            (forall q i, pm_online (ns_pm s') !! q = Some i -> pm_online (ns_pm s) !! q = Some i \/ e = NOpen (pi_sid i) (pi_addr i) (pi_out i))).
  { intros q i st d Hq Hb -> Hr. destruct (ban_addr_ok _ _ _ _ _ (ni_store s H) Hb) as (Hs & Hc & _ & Hbans). cbn [ns_pm ns_open ns_now].
    apply conj; [|split; [lia|split; [done|split; [done|split; [done|]]]]].
    - split; cbn [ns_pm ns_open ns_now with_store pm_store pm_online pm_max]; [done|apply (ni_open s H)|apply (ni_peer s H)|apply (ni_uniq s H)|apply (ni_size s H)|].
      by rewrite Hc, (ni_conn s H).
    - split; [|split; [|split; [auto|by left]]].
      + intros y d' (-> & port & Hsk)%Hr t Ht. unfold banned. cbn. rewrite Hbans by done. rewrite Hsk. by rewrite decide_True.
      + intros y Hy t Ht. unfold banned. cbn. rewrite Hbans by done. destruct (ma_sock (pi_addr i)) as [[y' port]|] eqn:Esk; [|done].
        cbn. rewrite decide_False; [done|]. intros ->. apply (Hy d), Hr. split; [done|]. by exists port. }
  assert (Hex : forall q i, pm_online (ns_pm s) !! q = Some i -> connected s q (pi_sid i) (pi_addr i) (pi_out i)) by (intros q [a0 s0 o0]; done).
  destruct e as [sid a out|sid|sid|q until|c|a|a|a|evict a|a|a|which picks count|dt]; cbn [nstep] in Hst.
  - (* NOpen *)
    destruct (open_ok s sid a) eqn:Eok.
    2:{ injection Hst as Es Ea. subst s'. eapply (Hquiet _ _ _ (ns_eta s)); try done; try lia; try (by intros ? ? []); try apply (ni_store s H). }
    apply open_ok_iff in Eok as (Hfresh & Hpa & Huq & Hsz).
    destruct (session_open (ns_now s) (ns_pm s) sid a out) as [r| |] eqn:Eso; [|done|done]. cbn [lift] in Hst. destruct r as [p2 acts2].
    injection Hst as <- ->. apply session_open_cases in Eso. cbv zeta in Eso.
    assert (Hinv : forall p2, sinv (pm_store p2) -> pm_max p2 = pm_max (ns_pm s) ->
                (forall q i, pm_online p2 !! q = Some i -> pm_online (ns_pm s) !! q = Some i \/ (i = PInfo a sid out /\ ma_peer a = Some q)) ->
                ps_conn (pm_store p2) = dom (pm_online p2) -> ninv (NS p2 (<[sid := (a, out)]> (ns_open s)) (ns_now s))).
    { intros p3 Hs3 Hm3 Ho3 Hc3. split; cbn [ns_pm ns_open ns_now]; [done| | | | |done].
      - intros q i [Hq|[Hi3 Hq]]%Ho3; [|subst i; cbn; by rewrite lookup_insert].
        destruct (ni_open s H _ _ Hq) as [Ho Hp]. split; [|done]. rewrite lookup_insert_ne; [done|]. intros E; rewrite <- E in Ho; congruence.
      - intros sid' a' o'. rewrite lookup_insert_Some. intros [[<- [= <- <-]]|[_ Ho]]; [done|]. by eapply (ni_peer s H).
      - intros s1 s2 a1 a2 o1 o2. rewrite !lookup_insert_Some.
        intros [[<- [= <- <-]]|[Hn1 H1]] [[<- [= <- <-]]|[Hn2 H2]] E; [done| | |by eapply (ni_uniq s H)].
        + by destruct (Huq _ _ _ H2). + by destruct (Huq _ _ _ H1).
      - rewrite map_size_insert, Hfresh. cbn. rewrite Hm3. lia. }
    destruct Eso as [[Hfe [= -> ->]]|[(Hfe & Hov & Hal & [= -> ->])|(Hfe & Hal & q & p3 & Hq & [= -> ->] & Ho & Hbk & Hbn & Hcn & Hm & Hi & Hbt & Hcs & _)]];
      cbn [ns_pm ns_open ns_now].
    + apply conj; [apply Hinv; cbn; [apply (ni_store s H)|done|by left|apply (ni_conn s H)]|].
      split; [lia|split; [done|split; [done|split; [done|split; [done|split; [done|split; [done|by left]]]]]]].
    + apply conj; [apply Hinv; cbn; [apply (ni_store s H)|done|by left|apply (ni_conn s H)]|].
      split; [lia|split; [done|split; [done|split; [done|split; [done|split; [done|split; [done|by left]]]]]]].
    + apply conj.
      { apply Hinv; [split; [rewrite Hbk; apply (si_book _ (ni_store s H))|rewrite Hbn; apply (si_host _ (ni_store s H))]|done| |].
        - intros q' i. rewrite Ho, lookup_insert_Some. intros [[<- <-]|[_ ?]]; [right|left]; done.
        - rewrite Hcn, Ho, dom_insert_L. by rewrite (ni_conn s H). }
      split; [lia|split; [done|split; [done|split; [done|split; [done|split; [intros y _ t _; unfold banned; cbn; by rewrite Hbn|split]]]]]].
      * intros q' i Hq' _. rewrite Ho. rewrite lookup_insert_ne; [done|]. intros <-.
        destruct (ni_open s H _ _ Hq') as [Hoo Hpp]. apply (Huq _ _ _ Hoo). congruence.
      * intros q' i. rewrite Ho, lookup_insert_Some. intros [[<- <-]|[_ ?]]; [right|left]; done.
  - (* NClose *)
    destruct (ns_open s !! sid) as [[a out]|] eqn:Eo.
    2:{ injection Hst as Es Ea. subst s'. eapply (Hquiet _ _ _ (ns_eta s)); try done; try lia; try (by intros ? ? []); try apply (ni_store s H). }
    destruct (ma_peer a) as [q|] eqn:Ea; [|by destruct (ni_peer s H _ _ _ Eo)].
    destruct (unregister (ns_pm s) a) as [p2| |] eqn:Eu; [|done|done]. cbn [lift] in Hst. injection Hst as <- <-.
    destruct (unregister_ok _ _ q _ (fun q i Hq => proj2 (ni_open s H q i Hq)) Ea Eu) as (Ho & Hbk & Hbn & Hcn & Hm & Hi & Hbt & Hcs).
    assert (Hsid : forall q' i, pm_online (ns_pm s) !! q' = Some i -> pi_sid i = sid <-> q' = q).
    { intros q' i Hq'. destruct (ni_open s H _ _ Hq') as [Hoo Hpp]. split; [intros E; rewrite E, Eo in Hoo; congruence|].
      intros ->. eapply (ni_uniq s H); [exact Hoo|exact Eo|congruence]. }
    cbn [ns_pm ns_open ns_now]. apply conj.
    { split; cbn [ns_pm ns_open ns_now].
      - split; [rewrite Hbk; apply (si_book _ (ni_store s H))|rewrite Hbn; apply (si_host _ (ni_store s H))].
      - intros q' i. rewrite Ho, lookup_delete_Some. intros [Hne Hq']. destruct (ni_open s H _ _ Hq') as [Hoo Hpp]. split; [|done].
        rewrite lookup_delete_ne; [done|]. intros E. apply Hne. symmetry. apply (Hsid _ _ Hq'). done.
      - intros sid' a' o' [_ Ho']%lookup_delete_Some. by eapply (ni_peer s H).
      - intros s1 s2 a1 a2 o1 o2 [_ H1]%lookup_delete_Some [_ H2]%lookup_delete_Some. by eapply (ni_uniq s H).
      - rewrite Hm, map_size_delete, Eo. cbn. pose proof (ni_size s H). lia.
      - rewrite Hcn, Ho, dom_delete_L, (ni_conn s H). destruct (pm_online (ns_pm s) !! q) eqn:E; [done|].
        apply not_elem_of_dom in E. set_solver. }
    split; [lia|split; [done|split; [done|split; [done|split; [done|split; [intros y _ t _; unfold banned; cbn; by rewrite Hbn|split]]]]]].
    + intros q' i Hq' Hne. rewrite Ho. rewrite lookup_delete_ne; [done|]. intros <-. apply Hne. f_equal. symmetry. by apply (Hsid _ _ Hq').
    + intros q' i. rewrite Ho, lookup_delete_Some. intros [_ ?]. by left.
  - (* NProtoErr *)
    destruct (ns_open s !! sid) as [ao|] eqn:Eo.
    2:{ injection Hst as Es Ea. subst s'. eapply (Hquiet _ _ _ (ns_eta s)); try done; try lia; try (by intros ? ? []); try apply (ni_store s H).
        intros y d (_ & q & a & out & port & Hc & _). destruct (ni_open s H _ _ Hc) as [Hoo _]. cbn in Hoo. congruence. }
    unfold protocol_error, ban_session_id in Hst. destruct (find_sid sid _) as [i|] eqn:Efs.
    + apply find_sid_some in Efs as (q & Hq & Hs). destruct (ps_ban_addr _ _ _ _) as [st| |] eqn:Eb; [|done|done].
      cbn [lift] in Hst. injection Hst as <- <-. apply (Hban q i st 300000 Hq Eb eq_refl). intros y d'. split.
      * intros (-> & q' & a & out & port & Hc & Hsk). split; [done|]. exists port.
        destruct (conn_inj s q i q' _ H Hq Hc) as [_ ->]; [cbn; congruence|done].
      * intros (-> & port & Hsk). split; [done|]. exists q, (pi_addr i), (pi_out i), port. split; [|done]. rewrite <- Hs. by apply Hex.
    + cbn [lift] in Hst. injection Hst as <- <-. eapply (Hquiet _ _ _ eq_refl); try done; try lia; try (by intros ? ? []); try apply (ni_store s H).
      intros y d (_ & q & a & out & port & Hc & _). by apply (find_sid_none _ _ Efs _ _ Hc).
  - (* NBan *)
    unfold tag_ban, ban_id in Hst. destruct (pm_online (ns_pm s) !! q) as [i|] eqn:Eq.
    + destruct (ps_ban_addr _ _ _ _) as [st| |] eqn:Eb; [|done|done].
      cbn [lift] in Hst. injection Hst as <- <-. apply (Hban q i st until Eq Eb eq_refl). intros y d'. split.
      * intros (-> & sid & a & out & port & Hc & Hsk). split; [done|]. exists port. unfold connected in Hc. rewrite Eq in Hc. by injection Hc as ->.
      * intros (-> & port & Hsk). split; [done|]. exists (pi_sid i), (pi_addr i), (pi_out i), port. split; [|done]. by apply Hex.
    + cbn [lift] in Hst. injection Hst as <- <-. eapply (Hquiet _ _ _ eq_refl); try done; try lia; try (by intros ? ? []); try apply (ni_store s H).
      intros y d (_ & sid & a & out & port & Hc & _). unfold connected in Hc. congruence.
  - injection Hst as <- <-. eapply (Hquiet _ _ _ eq_refl); try done; try lia; try (by intros ? ? []); try apply (ni_store s H).
  - unfold dial_feeler in Hst. destruct (ma_peer a); [|done].
    destruct (_ && _ && _); cbn [lift] in Hst; injection Hst as <- <-; (eapply (Hquiet _ _ _ eq_refl); try done; try lia; try (by intros ? ? []); try apply (ni_store s H)).
  - unfold dial_identify in Hst. destruct (ma_peer a); [|done].
    destruct (_ && _ && _); cbn [lift] in Hst; injection Hst as <- <-; (eapply (Hquiet _ _ _ eq_refl); try done; try lia; try (by intros ? ? []); try apply (ni_store s H)).
  - injection Hst as <- <-. eapply (Hquiet _ _ _ eq_refl); try done; try lia; try (by intros ? ? []); try apply (ni_store s H).
  - destruct (ps_add_addr _ _ _ _) as [st| |] eqn:Ea; cbn [lift_store] in Hst; [|injection Hst as Es _; subst s'|done].
    + injection Hst as <- <-. destruct (add_addr_ok _ _ _ _ _ (ni_store s H) Ea) as (? & ? & ?). eapply (Hquiet _ _ _ eq_refl); try done; try lia; try (by intros ? ? []).
    + eapply (Hquiet _ _ _ (ns_eta s)); try done; try lia; try (by intros ? ? []); try apply (ni_store s H).
  - destruct (ps_add_outbound _ _ _) as [st| |] eqn:Ea; cbn [lift_store] in Hst; [|injection Hst as Es _; subst s'|done].
    + injection Hst as <- <-. destruct (add_outbound_ok _ _ _ _ (ni_store s H) Ea) as (? & ? & ?). eapply (Hquiet _ _ _ eq_refl); try done; try lia; try (by intros ? ? []).
    + eapply (Hquiet _ _ _ (ns_eta s)); try done; try lia; try (by intros ? ? []); try apply (ni_store s H).
  - injection Hst as <- <-. eapply (Hquiet _ _ _ eq_refl); try done; try lia; try (by intros ? ? []).
    split; cbn; [|apply (si_host _ (ni_store s H))].
    apply (update_ok _ _ _ (mark_tried_ok (ns_now s)) (si_book _ (ni_store s H))).
  - destruct (ps_fetch _ _ _ _ _) as [[st l]| |] eqn:Ea; [|done|done]. injection Hst as <- <-.
    destruct (fetch_store_ok _ _ _ _ _ _ _ (ni_store s H) Hf Ea) as (? & ? & ?). eapply (Hquiet _ _ _ eq_refl); try done; try lia; try (by intros ? ? []).
  - injection Hst as <- <-. eapply (Hquiet _ _ _ eq_refl); try done; try lia; try (by intros ? ? []); try apply (ni_store s H).
Qed.

Lemma ninv_init boot max inl now : ninv (ninit boot max inl now).
Proof.
  split; cbn; [split; cbn; [apply minv_empty|]|..]; try (intros *; rewrite lookup_empty; done).
  - rewrite map_size_empty. lia.
  - by rewrite dom_empty_L.
Qed.
Lemma run_step s0 e h s' : nrun s0 (e :: h) = Ok s' -> exists s acts, nrun s0 h = Ok s /\ nstep s e = Ok (s', acts).
Proof.
  cbn. destruct (nrun s0 h) as [s| |]; [|done|done]. destruct (nstep s e) as [[s1 acts]| |] eqn:E; [|done|done]. intros [= <-]. by exists s, acts.
Qed.
Lemma run_inv s0 h s :
  ninv s0 -> Forall fetch_pos h -> nrun s0 h = Ok s ->
  ninv s /\ ns_now s0 <= ns_now s /\ pm_max (ns_pm s) = pm_max (ns_pm s0) /\ pm_inlimit (ns_pm s) = pm_inlimit (ns_pm s0) /\ pm_boot (ns_pm s) = pm_boot (ns_pm s0).
Proof.
  intros H0. revert s. induction h as [|e h IH]; intros s Hf Hr; [injection Hr as <-; split; [done|]; split; [lia|done]|].
  apply Forall_cons in Hf as [He Hf]. apply run_step in Hr as (s1 & acts & Hr1 & Hst). destruct (IH s1 Hf Hr1) as (Hi1 & Hn1 & Hm1 & Hl1 & Hb1).
  destruct (step_ok s1 e s acts Hi1 He Hst) as (Hi & Hn & Hm & Hl & Hb & _). split; [done|]. split; [lia|]. split; [congruence|]. split; congruence.
Qed.

(* ---------------------------------------------------------------------- *)
(** * C46 *)

Section Reachable.
Context (boot : gset N) (max inl now0 : N) (h : list nev) (s : nstate).
Context (Hf : Forall fetch_pos h) (Hr : nrun (ninit boot max inl now0) h = Ok s).

Lemma reach : ninv s.
Proof. by destruct (run_inv _ _ _ (ninv_init boot max inl now0) Hf Hr). Qed.

(** The ban list: an event that raises a ban of an address for [d] milliseconds bans it exactly until then (also when that is sooner
    than before), every other event leaves the ban of every address as it is.  [raises] says which: a module's ban of a connected
    peer, or a protocol error on a connected peer's session. *)
Theorem C46_ban_exact e s' acts :
  fetch_pos e -> nstep s e = Ok (s', acts) ->
  (forall y d, raises s e y d -> forall t, ns_now s <= t -> banned s' t y = (t <? ns_now s + d)) /\
  (forall y, (forall d, ~ raises s e y d) -> forall t, ns_now s <= t -> banned s' t y = banned s t y).
Proof. intros He Hst. by destruct (step_ok s e s' acts reach He Hst) as (_ & _ & _ & _ & _ & ? & ? & _). Qed.

(** A ban lasts until its time, whatever else happens meanwhile except another ban of the same address. *)
Theorem C46_lasting h' s' y t :
  Forall fetch_pos h' -> nrun s h' = Ok s' -> ns_now s' <= t ->
  (forall h1 e h2 s1 d, h' = h1 ++ e :: h2 -> nrun s h2 = Ok s1 -> ~ raises s1 e y d) ->
  banned s' t y = banned s t y.
Proof.
  revert s'. induction h' as [|e h' IH]; intros s' Hf' Hr' Ht Hno; [by injection Hr' as <-|].
  apply Forall_cons in Hf' as [He Hf']. apply run_step in Hr' as (s1 & acts & Hr1 & Hst).
  destruct (run_inv _ _ _ reach Hf' Hr1) as (Hi1 & Hn1 & _). destruct (step_ok s1 e s' acts Hi1 He Hst) as (_ & Hn & _ & _ & _ & _ & Hsame & _).
  rewrite (Hsame y); [|intros d; by apply (Hno [] e h' s1 d)|lia].
  apply IH; [done|done|lia|]. intros h1 e' h2 s2 d -> Hr2. by apply (Hno (e :: h1) e' h2 s2 d).
Qed.

(** A misbehaving peer: banned for five minutes, disconnected, its address forgotten. *)
Theorem C46_protocol_error q sid a out y port s' acts :
  connected s q sid a out -> ma_sock a = Some (y, port) -> nstep s (NProtoErr sid) = Ok (s', acts) ->
  acts = [ADisconnect sid] /\ (forall t, ns_now s <= t -> banned s' t y = (t <? ns_now s + 300000)) /\
  look (ps_book (pm_store (ns_pm s'))) (y, port) = None.
Proof.
  intros Hc Hsk Hst. assert (Hst2 := Hst). cbn [nstep] in Hst. destruct (ni_open s reach _ _ Hc) as [Ho Hp]. cbn in Ho, Hp. rewrite Ho in Hst.
  unfold protocol_error, ban_session_id in Hst. destruct (find_sid sid _) as [i|] eqn:Efs; [|by destruct (find_sid_none _ _ Efs _ _ Hc)].
  apply find_sid_some in Efs as (q' & Hq' & Hs'). destruct (conn_inj s q' i q _ reach Hq' Hc) as [-> ->]; [done|].
  destruct (ps_ban_addr _ _ _ _) as [st| |] eqn:Eb; [|done|done]. cbn [lift] in Hst. injection Hst as <- <-.
  split; [done|]. split.
  - intros t Ht. destruct (C46_ban_exact (NProtoErr sid) _ _ I Hst2) as [Hb _]. apply Hb; [|done]. split; [done|]. by exists q, a, out, port.
  - cbn. destruct (ban_addr_ok _ _ _ _ _ (ni_store s reach) Eb) as (_ & _ & Hl & _). rewrite Hl. unfold spec_remove. cbn. by rewrite decide_True.
Qed.

(** A banned address is refused when the connection limits are reached, unless the peer is exempt: nothing is registered and the
    session is closed. *)
Theorem C46_refused sid a out y port q s' acts :
  ma_sock a = Some (y, port) -> ma_peer a = Some q -> banned s (ns_now s) y = true -> ~ exempt s q -> a ∉ pm_feeler (ns_pm s) ->
  (max <= conns s anyd \/ (out = false /\ inl <= conns s inb) \/ (out = true /\ max - inl <= conns s outb)) ->
  open_ok s sid a = true -> nstep s (NOpen sid a out) = Ok (s', acts) ->
  acts = [ADisconnect sid] /\ pm_online (ns_pm s') = pm_online (ns_pm s).
Proof.
  intros Hsk Hp Hb Hex Hfe Hlim Hok Hst. cbn [nstep] in Hst. rewrite Hok in Hst.
  destruct (run_inv _ _ _ (ninv_init boot max inl now0) Hf Hr) as (_ & _ & Hm & Hi & _). cbn in Hm, Hi.
  destruct (session_open _ _ _ _ _) as [[p2 acts2]| |] eqn:Eso; [|done|done]. cbn [lift] in Hst. injection Hst as <- <-. cbn [ns_pm].
  assert (Hall : always_allow (ns_now s) (ns_pm s) a = Ok false).
  { unfold always_allow. rewrite Hp. unfold addr_banned. rewrite Hsk. cbn. unfold banned in Hb. rewrite Hb. cbn.
    rewrite !bool_decide_eq_false_2; [done|..]; intros Hin; apply Hex; [by right|by left]. }
  assert (Hov : over_limit (ns_pm s) out = true).
  { unfold over_limit, count_all. rewrite Hm, Hi. apply orb_true_iff. unfold conns, anyd, inb, outb in Hlim.
    assert (Hsz : N.of_nat (length (List.filter (fun _ : N * pinfo => true) (map_to_list (pm_online (ns_pm s))))) = N.of_nat (size (pm_online (ns_pm s)))).
    { f_equal. apply filter_all. }
    rewrite Hsz in Hlim. destruct Hlim as [Hl|[[-> Hl]|[-> Hl]]]; [left|right|right]; apply N.ltb_lt; unfold count_in, count_out; lia. }
  apply session_open_cases in Eso. cbv zeta in Eso. destruct Eso as [[? _]|[(_ & _ & _ & [= -> ->])|(_ & Hal & _)]]; [done|done|].
  specialize (Hal Hov). congruence.
Qed.

(** Banned addresses do not enter the address book. *)
Theorem C46_book e a y port s' acts :
  (exists evict, e = NAdd evict a) \/ e = NAddOut a -> ma_sock a = Some (y, port) -> banned s (ns_now s) y = true ->
  nstep s e = Ok (s', acts) -> s' = s.
Proof.
  intros He Hsk Hb Hst. assert (Had : addr_banned (ns_now s) a (ps_bans (pm_store (ns_pm s))) = true) by (unfold addr_banned; by rewrite Hsk).
  destruct He as [[evict ->]| ->]; cbn [nstep] in Hst; unfold ps_add_addr, ps_add_outbound in Hst; rewrite Had in Hst; injection Hst as <- _;
    destruct s as [p ? ?]; cbn; by destruct p.
Qed.

(* ---------------------------------------------------------------------- *)
(** * C47 *)

(** Never more connected peers than the total limit. *)
Theorem C47_total : conns s anyd <= max.
Proof.
  destruct (run_inv _ _ _ (ninv_init boot max inl now0) Hf Hr) as (_ & _ & Hm & _). cbn in Hm. pose proof reach as H.
  unfold conns, anyd. rewrite <- Hm. etransitivity; [|apply (ni_size s H)].
  assert (Hsz : N.of_nat (length (List.filter (fun _ : N * pinfo => true) (map_to_list (pm_online (ns_pm s))))) = N.of_nat (length (map (fun kv => pi_sid kv.2) (map_to_list (pm_online (ns_pm s)))))).
  { f_equal. rewrite map_length. apply filter_all. }
  rewrite Hsz. assert (Hle : (length (map (fun kv : N * pinfo => pi_sid kv.2) (map_to_list (pm_online (ns_pm s)))) <= size (ns_open s))%nat); [|lia].
  rewrite <- (size_dom (D := gset N)). rewrite <- (size_list_to_set (C := gset N)).
  - apply subseteq_size. intros x Hx%elem_of_list_to_set. apply elem_of_list_fmap in Hx as ([q i] & -> & Hq%elem_of_map_to_list).
    apply elem_of_dom. destruct (ni_open s H _ _ Hq) as [Ho _]. by eexists.
  - apply NoDup_fmap_2_strong; [|apply NoDup_map_to_list].
    intros [q1 i1] [q2 i2] H1%elem_of_map_to_list H2%elem_of_map_to_list E. destruct (conn_inj s _ _ _ _ H H1 H2 E) as [-> ->]. done.
Qed.

(** The registry follows the transport: every listed peer has an open session with the address, direction and peer id listed; a peer
    stays listed until its session closes, and then is removed. *)
Theorem C47_mirror :
  (forall q sid a out, connected s q sid a out -> ns_open s !! sid = Some (a, out) /\ ma_peer a = Some q) /\
  (forall q sid a out e s' acts, connected s q sid a out -> fetch_pos e -> nstep s e = Ok (s', acts) -> e <> NClose sid -> connected s' q sid a out) /\
  (forall q sid a out s' acts sid' a' out', connected s q sid a out -> nstep s (NClose sid) = Ok (s', acts) -> ~ connected s' q sid' a' out').
Proof.
  pose proof reach as H. split; [intros q sid a out Hc; apply (ni_open s H _ _ Hc)|]. split.
  - intros q sid a out e s' acts Hc He Hst Hne. destruct (step_ok s e s' acts H He Hst) as (_ & _ & _ & _ & _ & _ & _ & Hst' & _). by apply Hst'.
  - intros q sid a out s' acts sid' a' out' Hc Hst Hc'. destruct (ni_open s H _ _ Hc) as [Ho Hp]. cbn in Ho, Hp.
    cbn [nstep] in Hst. rewrite Ho in Hst. destruct (unregister _ _) as [p2| |] eqn:Eu; [|done|done]. cbn [lift] in Hst. injection Hst as <- _.
    destruct (unregister_ok _ _ q _ (fun q i Hq => proj2 (ni_open s H q i Hq)) Hp Eu) as (Hon & _). unfold connected in Hc'. cbn in Hc'.
    rewrite Hon, lookup_delete in Hc'. done.
Qed.

(** What happens to a new session: kept apart when it was dialled as a feeler, closed at once, or listed.  It is closed only above a
    limit, and listed above a limit only when the peer is exempt or not banned. *)
Theorem C47_open_partial sid a out s' acts q :
  open_ok s sid a = true -> ma_peer a = Some q -> nstep s (NOpen sid a out) = Ok (s', acts) ->
  let full := max <= conns s anyd \/ (out = false /\ inl <= conns s inb) \/ (out = true /\ max - inl <= conns s outb) in
  let bad := exists y port, ma_sock a = Some (y, port) /\ banned s (ns_now s) y = true in
  (a ∈ pm_feeler (ns_pm s) /\ acts = [] /\ pm_online (ns_pm s') = pm_online (ns_pm s)) \/
  (full /\ bad /\ ~ exempt s q /\ acts = [ADisconnect sid] /\ pm_online (ns_pm s') = pm_online (ns_pm s)) \/
  ((full -> exempt s q \/ ~ bad) /\ acts = [] /\ connected s' q sid a out).
Proof.
  intros Hok Hp Hst full bad. cbn [nstep] in Hst. rewrite Hok in Hst.
  destruct (run_inv _ _ _ (ninv_init boot max inl now0) Hf Hr) as (_ & _ & Hm & Hi & _). cbn in Hm, Hi.
  destruct (session_open _ _ _ _ _) as [[p2 acts2]| |] eqn:Eso; [|done|done]. cbn [lift] in Hst. injection Hst as <- <-. cbn [ns_pm].
  assert (Hall : forall b, always_allow (ns_now s) (ns_pm s) a = Ok b -> if b then exempt s q \/ ~ bad else bad /\ ~ exempt s q).
  { intros b. unfold always_allow. rewrite Hp. intros [= <-]. unfold addr_banned, bad, exempt, banned.
    destruct (bool_decide (q ∈ pm_boot (ns_pm s))) eqn:E1; [apply bool_decide_eq_true in E1; cbn; by left; left|].
    destruct (bool_decide (q ∈ pm_cons (ns_pm s))) eqn:E2; [apply bool_decide_eq_true in E2; cbn; by left; right|].
    apply bool_decide_eq_false in E1, E2. cbn. destruct (ma_sock a) as [[y port]|]; cbn.
    - destruct (ip_banned (ns_now s) y _) eqn:Eb; cbn.
      + split; [by exists y, port|]. by intros [?|?].
      + right. intros (y' & port' & [= <- <-] & ?). congruence.
    - right. by intros (y' & port' & ? & ?). }
  assert (Hov : over_limit (ns_pm s) out = true <-> full).
  { unfold over_limit, count_all, full. rewrite Hm, Hi, orb_true_iff. unfold conns, anyd, inb, outb.
    assert (Hsz : N.of_nat (length (List.filter (fun _ : N * pinfo => true) (map_to_list (pm_online (ns_pm s))))) = N.of_nat (size (pm_online (ns_pm s)))).
    { f_equal. apply filter_all. }
    rewrite Hsz. unfold count_in, count_out. rewrite N.ltb_lt. destruct out; rewrite N.ltb_lt.
    - split; [intros [?|?]; [left; lia|right; right; split; [done|lia]]|intros [?|[[? _]|[_ ?]]]; [left; lia|done|right; lia]].
    - split; [intros [?|?]; [left; lia|right; left; split; [done|lia]]|intros [?|[[_ ?]|[? _]]]; [left; lia|right; lia|done]]. }
  apply session_open_cases in Eso. cbv zeta in Eso.
  destruct Eso as [[Hfe [= -> ->]]|[(Hfe & Ho & Hal & [= -> ->])|(Hfe & Hal & q' & p3 & Hq & [= -> ->] & Hon & _)]].
  - by left.
  - right. left. apply Hall in Hal as [? ?]. split; [by apply Hov|]. done.
  - right. right. assert (q' = q) as -> by congruence. split; [|split; [done|]].
    + intros Hfull. by apply (Hall true), Hal, Hov.
    + unfold connected. cbn. by rewrite Hon, lookup_insert.
Qed.
End Reachable.
