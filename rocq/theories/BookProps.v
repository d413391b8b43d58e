(** C48 (the address book) and C62 (the peer store survives a restart). *)
From Verif Require Import Bytes TxModel PeerModel PeerProofs.
From stdpp Require Import base gmap list.
From Coq Require Import Lia.
#[local] Open Scope N_scope.

(* ---------------------------------------------------------------------- *)
(** * C48 *)

(** All uses of the book by the peer store; the numbers of the random generator and the clock are arguments. *)
Inductive bop :=
| BAdd (i : ainfo)
| BRemove (a : maddr)
| BTried (now : N) (a : maddr)
| BConnected (now : N) (a : maddr)
| BFetch (picks : list nat) (now : N) (count : positive) (flt : ainfo -> bool).
Definition bstep (m : mgr) (o : bop) : outcome mgr :=
  match o with
  | BAdd i => mgr_add m i
  | BRemove a => match mgr_remove m a with Ok (m', _) => Ok m' | Err => Err | Panic => Panic end
  | BTried now a => Ok (mgr_update (mark_tried now) m a)
  | BConnected now a => Ok (mgr_update (mark_connected now) m a)
  | BFetch picks now count flt => match mgr_fetch picks now (Npos count) flt m with Ok (m', _) => Ok m' | Err => Err | Panic => Panic end
  end.
(** newest operation first *)
Fixpoint brun (h : list bop) : outcome mgr :=
  match h with
  | [] => Ok mgr_empty
  | o :: h' => match brun h' with Ok m => bstep m o | Err => Err | Panic => Panic end
  end.

(** The same operations on a map from socket addresses to entries. *)
Definition spec_step (b : sock -> option ainfo) (o : bop) : sock -> option ainfo :=
  match o with
  | BAdd i => spec_add b i
  | BRemove a => spec_remove b a
  | BTried now a => fun s => if decide (ma_sock a = Some s) then mark_tried now <$> b s else b s
  | BConnected now a => fun s => if decide (ma_sock a = Some s) then mark_connected now <$> b s else b s
  | BFetch _ _ _ _ => b
  end.
Fixpoint spec_run (h : list bop) : sock -> option ainfo :=
  match h with
  | [] => fun _ => None
  | o :: h' => spec_step (spec_run h') o
  end.
Definition adds (h : list bop) : N := N.of_nat (length (List.filter (fun o => match o with BAdd _ => true | _ => false end) h)).

Lemma mark_tried_ok now i :
  ai_addr (mark_tried now i) = ai_addr i /\ ai_pos (mark_tried now i) = ai_pos i /\ strip (mark_tried now i) = mark_tried now (strip i).
Proof. done. Qed.
Lemma mark_connected_ok now i :
  ai_addr (mark_connected now i) = ai_addr i /\ ai_pos (mark_connected now i) = ai_pos i /\ strip (mark_connected now i) = mark_connected now (strip i).
Proof. done. Qed.
Lemma spec_add_ext b b' i s : (forall s, b s = b' s) -> spec_add b i s = spec_add b' i s.
Proof. intros E. unfold spec_add. by rewrite E. Qed.
Lemma spec_remove_ext b b' a s : (forall s, b s = b' s) -> spec_remove b a s = spec_remove b' a s.
Proof. intros E. unfold spec_remove. by rewrite E. Qed.

Lemma run_ok h :
  adds h < 2 ^ 64 ->
  exists m, brun h = Ok m /\ minv m /\ m_next m <= adds h /\ (forall s, look m s = spec_run h s).
Proof.
  induction h as [|o h IH]; intros Hn.
  - exists mgr_empty. split; [done|]. split; [apply minv_empty|]. split; [done|]. done.
  - assert (Hn' : adds h <= adds (o :: h)) by (unfold adds; cbn; destruct o; cbn [length]; lia).
    destruct IH as (m & Hr & Hm & Hnx & Hl); [lia|]. cbn [brun]. rewrite Hr. destruct o as [i|a|now a|now a|picks now count flt]; cbn [bstep spec_run spec_step].
    + assert (Ha : adds (BAdd i :: h) = adds h + 1) by (unfold adds; cbn; lia).
      destruct (add_ok m i Hm) as (m' & Hr' & Hm' & Hnx' & Hl' & _); [left; lia|].
      exists m'. split; [done|]. split; [done|]. split; [lia|]. intros s. rewrite Hl'. by apply spec_add_ext.
    + destruct (remove_ok m a Hm) as (m' & r & Hr' & Hm' & Hnx' & Hl' & _). rewrite Hr'.
      exists m'. split; [done|]. split; [done|]. split; [lia|]. intros s. rewrite Hl'. by apply spec_remove_ext.
    + destruct (update_ok _ m a (mark_tried_ok now) Hm) as (Hm' & Hnx' & Hl' & _).
      eexists. split; [done|]. split; [done|]. split; [lia|]. intros s. rewrite Hl', Hl. done.
    + destruct (update_ok _ m a (mark_connected_ok now) Hm) as (Hm' & Hnx' & Hl' & _).
      eexists. split; [done|]. split; [done|]. split; [lia|]. intros s. rewrite Hl', Hl. done.
    + destruct (fetch_ok m picks now (Npos count) flt Hm) as (m' & l & Hr' & Hm' & Hnx' & Hl' & _); [lia|]. rewrite Hr'.
      exists m'. split; [done|]. split; [done|]. split; [lia|]. intros s. by rewrite Hl'.
Qed.

(** The book is a map: in every sequence of operations none panics (the id counter aside), and every address looks up exactly as in
    a plain map from socket addresses to entries. *)
Theorem C48_refines h :
  adds h < 2 ^ 64 ->
  exists m, brun h = Ok m /\
    (forall a, strip <$> mgr_get m a = (s ← ma_sock a; spec_run h s)) /\
    (forall l, NoDup l -> (forall s, s ∈ l <-> spec_run h s <> None) -> mgr_count m = N.of_nat (length l)).
Proof.
  intros Hn. destruct (run_ok h Hn) as (m & Hr & Hm & _ & Hl). exists m. split; [done|]. split.
  - intros a. rewrite get_look by done. destruct (ma_sock a) as [s|]; [|done]. cbn. apply Hl.
  - intros l Hnd Hiff. unfold mgr_count. f_equal.
    assert (Hd : dom (m_addr m) = list_to_set l :> gset sock).
    { apply leibniz_equiv. intros s. rewrite elem_of_dom, elem_of_list_to_set, Hiff, <- Hl. unfold look. split.
      - intros [id Hid]. rewrite Hid. cbn. destruct (mi_addr m Hm _ _ Hid) as (i & Hi & _). by rewrite Hi.
      - intros Hne. destruct (m_addr m !! s) as [id|]; [by exists id|done]. }
    rewrite <- (size_dom (D := gset sock)), Hd. apply size_list_to_set. done.
Qed.

(** Selection for dialing and discovery, on every reachable book and for every sequence of random numbers. *)
Theorem C48_fetch h picks now count flt :
  adds h < 2 ^ 64 -> 0 < count ->
  exists m m' l, brun h = Ok m /\ mgr_fetch picks now count flt m = Ok (m', l) /\
    N.of_nat (length l) <= count /\
    (forall e, e ∈ l -> is_connectable now e = true /\ flt e = true /\ exists s, ma_sock (ai_addr e) = Some s /\ spec_run h s = Some (strip e)) /\
    NoDup (map (fun e => ma_sock (ai_addr e)) l) /\
    (forall k1 k2 e1 e2 x, l !! k1 = Some e1 -> l !! k2 = Some e2 -> ip_of e1 = Some x -> ip_of e2 = Some x -> test_ip x = false -> k1 = k2) /\
    (N.of_nat (length l) < count ->
       forall s y, spec_run h s = Some y -> is_connectable now y = true -> (forall p, flt (set_pos p y) = true) ->
         (test_ip s.1 = true \/ (forall s' y', spec_run h s' = Some y' -> s'.1 = s.1 -> s' = s)) -> exists e, e ∈ l /\ strip e = y).
Proof.
  intros Hn Hc. destruct (run_ok h Hn) as (m & Hr & Hm & _ & Hl).
  destruct (fetch_ok m picks now count flt Hm Hc) as (m' & l & Hf & _ & _ & _ & _ & H1 & H2 & H3 & H4 & H5).
  exists m, m', l. split; [done|]. split; [done|]. split; [done|]. split; [|split; [done|split; [done|]]].
  - intros e He. destruct (H2 e He) as (? & ? & s & ? & Hs). split; [done|]. split; [done|]. exists s. by rewrite <- Hl.
  - intros Hlt s y Hy. rewrite <- Hl in Hy. intros Hcn Hfl Hu. apply (H5 Hlt s y Hy Hcn Hfl).
    destruct Hu as [Hu|Hu]; [by left|right]. intros s' y'. rewrite Hl. apply Hu.
Qed.

(** Look-up by peer id, when every socket address is only ever used with the same peer id: never panics and returns exactly the
    addresses of that peer. *)
Definition owned (owner : sock -> option N) (a : maddr) : Prop := forall s, ma_sock a = Some s -> ma_peer a = owner s.
Definition owned_op (owner : sock -> option N) (o : bop) : Prop :=
  match o with BAdd i => owned owner (ai_addr i) | BRemove a => owned owner a | _ => True end.

Lemma no_stale_run owner h m :
  adds h < 2 ^ 64 -> Forall (owned_op owner) h -> brun h = Ok m ->
  no_stale m /\ forall s e, look m s = Some e -> ma_peer (ai_addr e) = owner s.
Proof.
  revert m. induction h as [|o h IH]; intros m2 Hn Hall Hrun.
  - injection Hrun as <-. split; [intros p set id Hset; cbn in Hset; by rewrite lookup_empty in Hset|done].
  - assert (Hn' : adds h <= adds (o :: h)) by (unfold adds; cbn; destruct o; cbn [length]; lia).
    apply Forall_cons in Hall as [Ho Hall].
    destruct (run_ok h) as (m & Hr & Hm & Hnx & Hl); [lia|]. cbn [brun] in Hrun. rewrite Hr in Hrun.
    destruct (IH m) as [Hst Hown]; [lia|done|done|].
    destruct o as [i|a|now a|now a|picks now count flt]; cbn [bstep owned_op] in *.
    + destruct (add_inv m i m2 Hm Hrun) as (_ & _ & Hl' & Hst'). split.
      * apply Hst'; [done|]. intros s e Hs He. rewrite (Ho s Hs). symmetry. by apply Hown.
      * intros s e. rewrite Hl'. unfold spec_add. case_decide as Hd; [|apply Hown].
        destruct (look m s) as [old|] eqn:El.
        { destruct (ai_conn old <? ai_conn i); [|intros [= <-]; by apply Hown].
          destruct (ma_peer (ai_addr i)) eqn:Ep; [|done]. intros [= <-]. rewrite strip_addr. by apply Ho. }
        destruct (ma_peer (ai_addr i)) eqn:Ep; [|done]. intros [= <-]. rewrite strip_addr. by apply Ho.
    + destruct (remove_ok m a Hm) as (m' & r & Hr' & Hm' & Hnx' & Hl' & _ & Hst'). rewrite Hr' in Hrun. injection Hrun as <-. split.
      * apply Hst'; [done|]. intros s e Hs He. rewrite (Ho s Hs). symmetry. by apply Hown.
      * intros s e. rewrite Hl'. unfold spec_remove. case_decide; [done|apply Hown].
    + injection Hrun as <-. destruct (update_ok _ m a (mark_tried_ok now) Hm) as (Hm' & Hnx' & Hl' & Hst'). split; [by apply Hst'|].
      intros s e. rewrite Hl'. case_decide; [|apply Hown]. intros (x & Hx & ->)%fmap_some. by apply (Hown s x).
    + injection Hrun as <-. destruct (update_ok _ m a (mark_connected_ok now) Hm) as (Hm' & Hnx' & Hl' & Hst'). split; [by apply Hst'|].
      intros s e. rewrite Hl'. case_decide; [|apply Hown]. intros (x & Hx & ->)%fmap_some. by apply (Hown s x).
    + destruct (fetch_ok m picks now (Npos count) flt Hm) as (m' & l & Hr' & Hm' & Hnx' & Hl' & Hst' & _); [lia|]. rewrite Hr' in Hrun.
      injection Hrun as <-. split; [by apply Hst'|]. intros s e. rewrite Hl'. apply Hown.
Qed.

Lemma by_peer_fold now flt m l :
  (forall id, id ∈ l -> exists i, m_info m !! id = Some i) ->
  exists r, foldr (fun id r =>
               match r, m_info m !! id with
               | Ok l, Some i => Ok (if is_connectable now i && flt i then {[ai_addr i]} ∪ l else l)
               | _, _ => Panic
               end) (Ok ∅) l = Ok r /\
    forall a, a ∈ (r : gset maddr) <-> exists id i, id ∈ l /\ m_info m !! id = Some i /\ is_connectable now i = true /\ flt i = true /\ ai_addr i = a.
Proof.
  induction l as [|id l IH]; intros Hall.
  - exists ∅. split; [done|]. intros a. split; [set_solver|]. intros (? & ? & ? & _). set_solver.
  - destruct IH as (r & Hr & Hin); [intros id' ?; apply Hall; by right|]. cbn [foldr]. rewrite Hr.
    destruct (Hall id) as [i Hi]; [by left|]. rewrite Hi. eexists. split; [done|]. intros a.
    destruct (is_connectable now i && flt i) eqn:E.
    + apply andb_prop in E as [E1 E2]. rewrite elem_of_union, elem_of_singleton, Hin. split.
      * intros [->|(id' & i' & ? & ?)]; [exists id, i; split; [by left|done]|exists id', i'; split; [by right|done]].
      * intros (id' & i' & [->|Hl]%elem_of_cons & Hi' & ? & ? & ?); [left; congruence|right; by exists id', i'].
    + rewrite Hin. split.
      * intros (id' & i' & ? & ?). exists id', i'. split; [by right|done].
      * intros (id' & i' & [->|Hl]%elem_of_cons & Hi' & H1 & H2 & ?); [|by exists id', i'].
        assert (i' = i) as -> by congruence. by rewrite H1, H2 in E.
Qed.

Theorem C48_by_peer_partial owner h now flt p :
  adds h < 2 ^ 64 -> Forall (owned_op owner) h -> (forall k i, flt (set_pos k i) = flt i) ->
  exists m r, brun h = Ok m /\ mgr_by_peer now flt m p = Ok r /\
    forall a, a ∈ r <-> exists s e, spec_run h s = Some e /\ ai_addr e = a /\ ma_peer a = Some p /\ is_connectable now e = true /\ flt e = true.
Proof.
  intros Hn Hall Hflt. destruct (run_ok h Hn) as (m & Hr & Hm & _ & Hl).
  destruct (no_stale_run owner h m Hn Hall Hr) as [Hst _].
  unfold mgr_by_peer. destruct (m_peer m !! p) as [ids|] eqn:Ep.
  - destruct (by_peer_fold now flt m (elements ids)) as (r & Hf & Hin).
    { intros id Hid%elem_of_elements. destruct (Hst _ _ _ Ep Hid) as (i & Hi & _). by exists i. }
    exists m, r. split; [done|]. split; [rewrite Ep; exact Hf|]. intros a. rewrite Hin. split.
    + intros (id & i & Hid%elem_of_elements & Hi & Hc & Hfl & Ha).
      destruct (mi_info m Hm _ _ Hi) as (s & Hs & Has). exists s, (strip i).
      destruct (Hst _ _ _ Ep Hid) as (i' & Hi' & Hp'). assert (i' = i) as -> by congruence.
      split; [rewrite <- Hl; apply look_some; by exists id, i|]. split; [done|]. split; [by rewrite <- Ha|].
      split; [by rewrite (strip_conn now (strip i) i)|]. unfold strip. by rewrite Hflt.
    + intros (s & e & Hs & Ha & Hp & Hc & Hfl). rewrite <- Hl in Hs. apply look_some in Hs as (id & i & Hid & Hi & ->).
      exists id, i. destruct (mi_peer m Hm _ _ Hi) as (q & set & Hq & Hset & Hin').
      assert (q = p) as -> by (rewrite strip_addr in Ha; congruence). assert (set = ids) as -> by congruence.
      split; [by apply elem_of_elements|]. split; [done|]. split; [by rewrite (strip_conn now i (strip i))|].
      split; [|done]. unfold strip in Hfl. by rewrite Hflt in Hfl.
  - exists m, ∅. split; [done|]. split; [by rewrite Ep|]. intros a. split; [set_solver|].
    intros (s & e & Hs & Ha & Hp & _). rewrite <- Hl in Hs. apply look_some in Hs as (id & i & Hid & Hi & ->).
    destruct (mi_peer m Hm _ _ Hi) as (q & set & Hq & Hset & Hin'). rewrite strip_addr in Ha. congruence.
Qed.

(** Finding: when a node comes back at its old socket address with a new key, the entry of the old key is replaced but its id stays
    filed under the old key; the next look-up of the old key (every ten seconds while it is in the validator list) panics. *)
Definition exA : maddr := MAddr (Some ((false, 134744072), 8000)) (Some 1) 0.
Definition exB : maddr := MAddr (Some ((false, 134744072), 8000)) (Some 2) 0.
Definition exC : maddr := MAddr (Some ((false, 134744073), 8001)) (Some 1) 0.
Theorem C48_by_peer_refuted :
  exists h m, adds h < 2 ^ 64 /\ brun h = Ok m /\ mgr_by_peer 100000 (by_peer_filter 100000) m 1 = Panic.
Proof.
  eexists [BAdd (ai_new exB 60000 100); BAdd (ai_new exA 50000 100)], _.
  split; [done|]. split; [reflexivity|]. vm_compute. reflexivity.
Qed.

(** Finding: an address without peer id and a later connection time deletes the stored entry. *)
Theorem C48_no_peer_refuted :
  exists h i s, spec_run h s <> None /\ spec_run (BAdd i :: h) s = None.
Proof.
  exists [BAdd (ai_new exA 50000 100)], (ai_new (MAddr (ma_sock exA) None 0) 60000 100), ((false, 134744072), 8000).
  split; vm_compute; congruence.
Qed.

(** Three entries, one replaced, one removed again, a selection in between. *)
Example C48_nontrivial :
  let h := [BTried 90000 exC; BRemove exA; BFetch [1%nat; 0%nat] 70000 2 (fun _ => true); BAdd (ai_new exC 0 100); BAdd (ai_new exB 60000 100); BAdd (ai_new exA 50000 100)] in
  adds h < 2 ^ 64 /\ spec_run h ((false, 134744073), 8001) = Some (AInfo exC 100 0 90000 1 0%nat) /\
  match brun h with Ok m => mgr_count m = 1 | _ => False end /\
  Forall (owned_op (fun s => if s.1.2 =? 134744072 then Some 1 else Some 1)) [BRemove exA; BAdd (ai_new exC 0 100); BAdd (ai_new exA 50000 100)].
Proof.
  cbn zeta. split; [done|]. split; [reflexivity|]. split; [vm_compute; reflexivity|].
  repeat apply Forall_cons_2; [| | |apply Forall_nil_2]; intros s [= <-]; reflexivity.
Qed.

(* ---- the size bound ---- *)
Lemma swap_m_addr m i j m' : swap_random m i j = Ok m' -> m_addr m' = m_addr m.
Proof. unfold swap_random. destruct (Nat.eqb i j); [by intros [= <-]|]. repeat case_match; try done. by intros [= <-]. Qed.
Lemma remove_m_addr m a m' r :
  mgr_remove m a = Ok (m', r) -> m_addr m' = match ma_sock a with Some s => delete s (m_addr m) | None => m_addr m end.
Proof.
  unfold mgr_remove. destruct (ma_sock a) as [s|]; [|by intros [= <- _]].
  destruct (m_addr m !! s) as [id|] eqn:Ea; [|intros [= <- _]; by rewrite delete_notin].
  destruct (m_info m !! id) as [i|]; [|done]. destruct (length (m_rand m)); [done|].
  destruct (swap_random _ _ _) as [m2| |] eqn:Es; [|done|done]. intros [= <- _]. cbn [m_addr]. by rewrite (swap_m_addr _ _ _ _ Es).
Qed.
Lemma remove_count m a m' r : mgr_remove m a = Ok (m', r) -> mgr_count m' <= mgr_count m.
Proof.
  intros H%remove_m_addr. unfold mgr_count. rewrite H. destruct (ma_sock a) as [s|]; [|lia].
  rewrite map_size_delete. destruct (m_addr m !! s); cbn; lia.
Qed.
Lemma remove_all_count l : forall m m', remove_all m l = Ok m' -> mgr_count m' <= mgr_count m.
Proof.
  induction l as [|a l IH]; intros m m'; cbn [remove_all]; [intros [= <-]; lia|].
  destruct (mgr_remove m a) as [[m1 r]| |] eqn:E; [|done|done]. intros H%IH. apply remove_count in E. lia.
Qed.
Lemma remove_all_minv l : forall m, minv m -> exists m', remove_all m l = Ok m' /\ minv m' /\ m_next m' = m_next m.
Proof.
  induction l as [|a l IH]; intros m Hm; cbn [remove_all]; [by exists m|].
  destruct (remove_ok m a Hm) as (m1 & r & Hr & Hm1 & Hn1 & _). rewrite Hr. destruct (IH m1 Hm1) as (m' & ? & ? & ?). exists m'. split; [done|]. split; [done|congruence].
Qed.
Lemma remove_stored_count m a m' r s :
  mgr_remove m a = Ok (m', r) -> ma_sock a = Some s -> m_addr m !! s <> None -> mgr_count m' + 1 = mgr_count m.
Proof.
  intros H%remove_m_addr Hs Hne. unfold mgr_count. rewrite H, Hs, map_size_delete.
  destruct (m_addr m !! s) eqn:E; [|done]. cbn. assert (size (m_addr m) <> 0%nat); [|lia].
  intros Hz. apply map_size_empty_iff in Hz. by rewrite Hz, lookup_empty in E.
Qed.
Lemma add_count m i m' : minv m -> mgr_add m i = Ok m' -> mgr_count m' <= mgr_count m + 1.
Proof.
  intros Hm. unfold mgr_add. destruct (ma_sock (ai_addr i)) as [s|]; [|intros [= <-]; lia].
  assert (Hins : forall m0, mgr_insert m0 s i = Ok m' -> mgr_count m' <= mgr_count m0 + 1).
  { intros m0. unfold mgr_insert. destruct (ma_peer _); [|intros [= <-]; lia]. destruct (_ <? _); [|done]. intros [= <-].
    unfold mgr_count. cbn [m_addr]. rewrite map_size_insert. destruct (m_addr m0 !! s); cbn; lia. }
  destruct (mgr_get m (ai_addr i)) as [old|]; [|apply Hins]. destruct (_ <? _); [|intros [= <-]; lia].
  destruct (mgr_remove m (ai_addr i)) as [[m1 r]| |] eqn:E; [|done|done]. intros H%Hins. apply remove_count in E. lia.
Qed.

(** Discovered addresses never push the book over its limit; when nothing can be evicted the book is left as it is.  [evict] is any
    choice of stored addresses. *)
Theorem C48_bounded evict now a p p' :
  minv (ps_book p) -> mgr_count (ps_book p) <= ADDR_COUNT_LIMIT ->
  Forall (fun b => exists s, ma_sock b = Some s /\ look (ps_book p) s <> None) evict ->
  ps_add_addr evict now a p = Ok p' -> mgr_count (ps_book p') <= ADDR_COUNT_LIMIT.
Proof.
  intros Hm Hc Hev. unfold ps_add_addr. destruct (addr_banned now a (ps_bans p)); [by intros [= <-]|].
  assert (Hstored : forall b s, ma_sock b = Some s -> look (ps_book p) s <> None -> m_addr (ps_book p) !! s <> None).
  { intros b s Hs Hne E. unfold look in Hne. by rewrite E in Hne. }
  assert (Hdrop : forall b l m1, (exists s, ma_sock b = Some s /\ look (ps_book p) s <> None) ->
            remove_all (ps_book p) (b :: l) = Ok m1 -> mgr_count m1 + 1 <= mgr_count (ps_book p)).
  { intros b l m1 (s & Hs & Hne). cbn [remove_all]. destruct (mgr_remove (ps_book p) b) as [[m2 r]| |] eqn:E; [|done|done].
    intros H%remove_all_count. apply (remove_stored_count _ _ _ _ s) in E; [lia|done|]. by eapply Hstored. }
  unfold check_purge. destruct (mgr_count (ps_book p) <? ADDR_COUNT_LIMIT) eqn:El.
  - destruct (mgr_add _ _) as [m'| |] eqn:Ea; [|done|done]. intros [= <-]. apply (add_count _ _ _ Hm) in Ea. cbn. apply N.ltb_lt in El. lia.
  - assert (Hgo : forall l, l <> [] -> Forall (fun b => exists s, ma_sock b = Some s /\ look (ps_book p) s <> None) l ->
       match remove_all (ps_book p) l with
       | Ok m => match mgr_add m (ai_new a 0 DEFAULT_SCORE) with Ok m' => Ok (set_book p m') | Err => Err | Panic => Panic end
       | Err => Err | Panic => Panic end = Ok p' -> mgr_count (ps_book p') <= ADDR_COUNT_LIMIT).
    { intros [|b l] Hne Hall; [done|]. apply Forall_cons in Hall as [Hb _].
      destruct (remove_all_minv (b :: l) _ Hm) as (m1 & Hr1 & Hm1 & _).
      specialize (Hdrop b l m1 Hb Hr1). cbn [remove_all] in Hr1 |- *. rewrite Hr1.
      destruct (mgr_add m1 _) as [m'| |] eqn:Ea; [|done|done]. intros [= <-]. apply (add_count _ _ _ Hm1) in Ea. cbn. lia. }
    destruct (dead_addrs now (ps_book p)) as [|d l] eqn:Ed.
    + destruct evict as [|b l]; [done|]. apply Hgo; [done|exact Hev].
    + apply Hgo; [done|]. rewrite <- Ed. apply Forall_forall. intros b Hb. unfold dead_addrs in Hb.
      apply elem_of_list_fmap in Hb as ([id i] & -> & Hi). apply elem_of_list_In, filter_In in Hi as [Hi _].
      apply elem_of_list_In, elem_of_map_to_list in Hi. cbn.
      destruct (mi_info _ Hm _ _ Hi) as (s & Hs & Has). exists s. split; [done|]. unfold look. rewrite Has. cbn. by rewrite Hi.
Qed.

(* ---------------------------------------------------------------------- *)
(** * C62 *)

Lemma load_ok l : forall m,
  minv m -> m_next m + N.of_nat (length l) < 2 ^ 64 ->
  Forall (fun i => ma_sock (ai_addr i) <> None /\ ma_peer (ai_addr i) <> None) l ->
  NoDup (map (fun i => ma_sock (ai_addr i)) l) ->
  (forall i s, i ∈ l -> ma_sock (ai_addr i) = Some s -> look m s = None) ->
  exists m', fold_left (fun r i => match r with Ok m => mgr_add m i | Err => Err | Panic => Panic end) l (Ok m) = Ok m' /\ minv m' /\
    forall s e, look m' s = Some e <-> look m s = Some e \/ exists i, i ∈ l /\ ma_sock (ai_addr i) = Some s /\ e = strip i.
Proof.
  induction l as [|i l IH]; intros m Hm Hn Hall Hnd Hfresh.
  - exists m. split; [done|]. split; [done|]. intros s e. split; [by left|]. intros [?|(i & Hi & _)]; [done|set_solver].
  - cbn [fold_left]. apply Forall_cons in Hall as [[Hsi Hpi] Hall]. cbn [map] in Hnd. apply NoDup_cons in Hnd as [Hnin Hnd].
    cbn [length] in Hn.
    destruct (add_ok m i Hm) as (m1 & Hr & Hm1 & Hn1 & Hl1 & _); [left; lia|]. rewrite Hr.
    destruct (ma_sock (ai_addr i)) as [s0|] eqn:Es0; [|done]. destruct (ma_peer (ai_addr i)) as [p0|] eqn:Ep0; [|done].
    assert (Hl1' : forall s, look m1 s = if decide (s = s0) then Some (strip i) else look m s).
    { intros s. rewrite Hl1. unfold spec_add. rewrite Es0, Ep0. destruct (decide (s = s0)) as [->|Hne].
      - rewrite decide_True by done. rewrite (Hfresh i s0); [done|by left|done].
      - rewrite decide_False by congruence. done. }
    destruct (IH m1) as (m' & Hr' & Hm' & Hl'); [done|lia|done|done| |].
    { intros j s Hj Hs. rewrite Hl1'. rewrite decide_False; [apply (Hfresh j); [by right|done]|].
      intros ->. apply Hnin. rewrite <- Hs. apply elem_of_list_fmap. by exists j. }
    exists m'. split; [done|]. split; [done|]. intros s e. rewrite Hl', Hl1'. split.
    + intros [Hs|(j & Hj & Hjs & ->)].
      * destruct (decide (s = s0)) as [->|]; [|by left]. injection Hs as <-. right. exists i. split; [by left|done].
      * right. exists j. split; [by right|done].
    + intros [Hs|(j & [->|Hj]%elem_of_cons & Hjs & ->)].
      * left. rewrite decide_False; [done|]. intros ->. rewrite (Hfresh i s0) in Hs; [done|by left|done].
      * left. rewrite decide_True by congruence. done.
      * right. by exists j.
Qed.

(** A restart restores the address book: whatever order the hash map is dumped in, loading never panics and every address looks up
    as before. *)
Theorem C62_book h m l :
  adds h < 2 ^ 64 -> brun h = Ok m -> l ≡ₚ (map_to_list (m_info m)).*2 -> N.of_nat (length l) < 2 ^ 64 ->
  exists m', mgr_load l = Ok m' /\ (forall a, strip <$> mgr_get m' a = strip <$> mgr_get m a) /\ mgr_count m' = mgr_count m.
Proof.
  intros Hn Hr Hperm Hlen. destruct (run_ok h Hn) as (m0 & Hr0 & Hm & _ & _). assert (m0 = m) as -> by congruence.
  assert (Hin : forall i, i ∈ l <-> exists id, m_info m !! id = Some i).
  { intros i. rewrite Hperm, elem_of_list_fmap. split.
    - intros ([id i'] & -> & Hi%elem_of_map_to_list). by exists id.
    - intros [id Hi]. exists (id, i). split; [done|]. by apply elem_of_map_to_list. }
  destruct (load_ok l mgr_empty minv_empty) as (m' & Hl & Hm' & Hlook).
  - cbn. lia.
  - apply Forall_forall. intros i Hi. apply Hin in Hi as [id Hi]. destruct (mi_info m Hm _ _ Hi) as (s & Hs & _).
    destruct (mi_peer m Hm _ _ Hi) as (p & set & Hp & _). by rewrite Hs, Hp.
  - rewrite Hperm. rewrite <- list_fmap_compose. apply NoDup_fmap_2_strong; [|apply NoDup_map_to_list].
    intros [id1 i1] [id2 i2] H1%elem_of_map_to_list H2%elem_of_map_to_list. cbn. intros E.
    destruct (mi_info m Hm _ _ H1) as (s1 & Hs1 & Ha1). destruct (mi_info m Hm _ _ H2) as (s2 & Hs2 & Ha2). congruence.
  - done.
  - exists m'. split; [exact Hl|].
    assert (Hsame : forall s, look m' s = look m s).
    { intros s. assert (Hiff : forall e, look m' s = Some e <-> look m s = Some e).
      { intros e. rewrite Hlook, (look_some m s). split.
        - intros [He|(i & Hi & Hs & ->)]; [by destruct (look_some mgr_empty s e) as [(?&?&?&?) _]|]. apply Hin in Hi as [id Hi]. destruct (mi_info m Hm _ _ Hi) as (s' & Hs' & Ha').
          exists id, i. split; [congruence|done].
        - intros (id & i & Ha & Hi & ->). right. exists i. split; [apply Hin; by exists id|]. split; [|done].
          destruct (mi_addr m Hm _ _ Ha) as (i' & Hi' & Hs'). congruence. }
      destruct (look m s) as [e|] eqn:E; [by apply Hiff|]. destruct (look m' s) as [e|] eqn:E'; [|done]. by destruct (proj1 (Hiff e) eq_refl). }
    split.
    + intros a. rewrite !get_look by done. destruct (ma_sock a); [apply Hsame|done].
    + unfold mgr_count. f_equal. rewrite <- !(size_dom (D := gset sock)). f_equal. apply leibniz_equiv. intros s. rewrite !elem_of_dom.
      assert (Hd : forall m0, minv m0 -> is_Some (m_addr m0 !! s) <-> look m0 s <> None).
      { intros m1 Hm1. unfold look. split.
        - intros [id Hid]. rewrite Hid. cbn. destruct (mi_addr m1 Hm1 _ _ Hid) as (i & Hi & _). by rewrite Hi.
        - intros Hne. destruct (m_addr m1 !! s) as [id|]; [by exists id|done]. }
      rewrite (Hd _ Hm'), (Hd _ Hm), Hsame. done.
Qed.

(* ---- bans ---- *)
(** An address is banned at time [t] exactly when a stored network that is not expired contains it. *)
Lemma contains_host i : net_contains (ip_to_network i) i = true.
Proof. destruct i as [[] n]; unfold net_contains, ip_to_network; cbn; by rewrite N.eqb_refl. Qed.
Lemma ip_banned_iff t i b :
  ip_banned t i b = true <-> exists n u, bl_map b !! n = Some u /\ t < u /\ net_contains n i = true.
Proof.
  unfold ip_banned.
  assert (Hex : existsb (fun kv : net * N => (t <? kv.2) && net_contains kv.1 i) (map_to_list (bl_map b)) = true <->
                exists n u, bl_map b !! n = Some u /\ t < u /\ net_contains n i = true).
  { rewrite existsb_exists. split.
    - intros ([n u] & Hin%elem_of_list_In%elem_of_map_to_list & [Ht%N.ltb_lt Hc]%andb_prop). by exists n, u.
    - intros (n & u & Hin & Ht & Hc). exists (n, u). split; [by apply elem_of_list_In, elem_of_map_to_list|].
      cbn. apply N.ltb_lt in Ht. by rewrite Ht. }
  destruct (bl_map b !! ip_to_network i) as [u|] eqn:E; [|done]. destruct (t <? u) eqn:Et; [|done].
  split; [|done]. intros _. exists (ip_to_network i), u. split; [done|]. split; [by apply N.ltb_lt|apply contains_host].
Qed.
Lemma ban_entries now n until b n' u' :
  bl_map (bl_ban now n until b) !! n' = Some u' ->
  (n' = n /\ u' = until) \/ (n' <> n /\ bl_map b !! n' = Some u').
Proof.
  unfold bl_ban. set (b' := BanList _ _). intros H.
  assert (Hb' : bl_map b' !! n' = Some u').
  { destruct (_ =? 0); [|done]. cbn [clear_expires bl_map] in H. by apply map_filter_lookup_Some in H as [H _]. }
  cbn in Hb'. apply lookup_insert_Some in Hb' as [[<- <-]|[? ?]]; [by left|right]. split; [congruence|done].
Qed.
Lemma ban_keeps now n until b n' u' :
  now < u' -> (n' = n /\ u' = until) \/ (n' <> n /\ bl_map b !! n' = Some u') ->
  bl_map (bl_ban now n until b) !! n' = Some u'.
Proof.
  intros Hu H. unfold bl_ban. set (b' := BanList _ _).
  assert (Hb' : bl_map b' !! n' = Some u').
  { cbn. apply lookup_insert_Some. destruct H as [[-> ->]|[? ?]]; [by left|right]. split; [congruence|done]. }
  destruct (_ =? 0); [|done]. cbn [clear_expires bl_map]. by apply map_filter_lookup_Some.
Qed.

(** A restart keeps every ban that has not expired, whatever the order of the dump. *)
Theorem C62_bans now b l t i :
  l ≡ₚ map_to_list (bl_map b) -> now <= t -> ip_banned t i (bl_load now l) = ip_banned t i b.
Proof.
  intros Hperm Ht.
  assert (Hnd : NoDup (l.*1)) by (rewrite Hperm; apply NoDup_fst_map_to_list).
  assert (Hgen : forall l b0, NoDup (l.*1) -> forall n u, now < u ->
            (bl_map (fold_left (fun b kv => bl_ban now kv.1 kv.2 b) l b0) !! n = Some u <->
             (n, u) ∈ l \/ (n ∉ l.*1 /\ bl_map b0 !! n = Some u))).
  { clear. induction l as [|[n0 u0] l IH]; intros b0 Hnd n u Hu.
    - cbn [fold_left]. split; [intros H; right; split; [apply not_elem_of_nil|done]|]. intros [H|[_ H]]; [set_solver|done].
    - cbn [fold_left]. cbn [fmap list_fmap] in Hnd. apply NoDup_cons in Hnd as [Hn0 Hnd]. rewrite IH by done. cbn [fst snd].
      rewrite elem_of_cons. cbn [fmap list_fmap]. rewrite not_elem_of_cons. split.
      + intros [H|[Hnin H]]; [left; by right|]. apply ban_entries in H as [[-> ->]|[Hne H]]; [left; by left|right]. done.
      + intros [[[= -> ->]|H]|[[Hne Hnin] H]]; [right; split; [done|]; apply ban_keeps; [done|by left]|by left|].
        right. split; [done|]. apply ban_keeps; [done|by right]. }
  apply eq_true_iff_eq. rewrite !ip_banned_iff. unfold bl_load.
  assert (Hsame : forall n u, t < u -> bl_map (fold_left (fun b kv => bl_ban now kv.1 kv.2 b) l bans_empty) !! n = Some u <-> bl_map b !! n = Some u).
  { intros n u Hu. rewrite Hgen by (done || lia). rewrite Hperm, elem_of_map_to_list. cbn [bans_empty bl_map]. rewrite lookup_empty. naive_solver. }
  split; intros (n & u & Hn & Hu & Hc); exists n, u; (split; [by apply Hsame|done]).
Qed.

Example C62_nontrivial :
  let b := bl_ban 10 (ip_to_network (false, 7)) 500 (bl_ban 5 (false, 256, 24) 300 bans_empty) in
  ip_banned 250 (false, 300) b = true /\ ip_banned 250 (false, 7) (bl_load 100 (map_to_list (bl_map b))) = true /\
  ip_banned 300 (false, 300) b = false /\ ip_banned 250 (false, 8) b = false.
Proof. vm_compute. auto. Qed.

Print Assumptions C48_refines.
Print Assumptions C48_fetch.
Print Assumptions C48_by_peer_partial.
Print Assumptions C48_by_peer_refuted.
Print Assumptions C48_no_peer_refuted.
Print Assumptions C48_bounded.
Print Assumptions C62_book.
Print Assumptions C62_bans.
