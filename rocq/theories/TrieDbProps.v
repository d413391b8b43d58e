(** C31: the cached trie database. *)
From Verif Require Import Bytes TxModel TrieDbModel.
From stdpp Require Import base gmap list.
From Coq Require Import Lia.

(* ------------------------------------------------------------------------ *)
(** * Sequential use *)

Inductive top :=
| TGet (k : bytes) | TContains (k : bytes) | TInsert (k v : bytes)
| TBatch (keys vals : list bytes) | TRemove (k : bytes) | TFlush.

(** The value written last, looking from the newest operation back (independent of the store). *)
Fixpoint last_in (l : list (bytes * bytes)) (k : bytes) : option bytes :=
  match l with
  | [] => None
  | (x, v) :: r => match last_in r k with Some w => Some w | None => if decide (x = k) then Some v else None end
  end.
Fixpoint last_write (h : list top) (k : bytes) : option bytes :=
  match h with
  | [] => None
  | TInsert x v :: r => if decide (x = k) then Some v else last_write r k
  | TBatch keys vals :: r =>
      if decide (length keys = length vals) then
        match last_in (zip keys vals) k with Some v => Some v | None => last_write r k end
      else last_write r k
  | _ :: r => last_write r k
  end.

Section Seq.
  Variable rng : nat -> nat -> nat.
  Variable cs : nat.

  (** states after a history (newest first) in which database writes succeed *)
  Inductive thist : list top -> tdb -> Prop :=
  | TH_0 : thist [] tdb0
  | TH_get h s k s' r : thist h s -> tget rng cs s k = Ok (s', r) -> thist (TGet k :: h) s'
  | TH_contains h s k : thist h s -> thist (TContains k :: h) (fst (tcontains s k))
  | TH_insert h s k v s' : thist h s -> tinsert rng cs s k v = Ok s' -> thist (TInsert k v :: h) s'
  | TH_batch h s ks vs s' r : thist h s -> tbatch rng cs s ks vs true = (s', r) -> r <> Panic -> thist (TBatch ks vs :: h) s'
  | TH_remove h s k : thist h s -> thist (TRemove k :: h) (tremove s k)
  | TH_flush h s s' : thist h s -> flush rng cs s = Ok s' -> thist (TFlush :: h) s'.

  Definition coherent (s : tdb) : Prop := forall k v, td_cache s !! k = Some v -> td_db s !! k = Some v.

  Lemma flush_sub s s' : flush rng cs s = Ok s' -> td_db s' = td_db s /\ td_cache s' ⊆ td_cache s.
  Proof using.
    unfold flush. destruct (Nat.leb _ _); [intros [= <-]; done|].
    destruct (rand_remove_list _ _ _) as [ks| |]; try done. intros [= <-]. split; [done|]. cbn.
    generalize (td_cache s). induction ks as [|k ks IH]; intros c; cbn; [done|].
    etransitivity; [apply IH|]. apply delete_subseteq.
  Qed.
  Lemma coherent_sub s s' : coherent s -> td_db s' = td_db s -> td_cache s' ⊆ td_cache s -> coherent s'.
  Proof using. intros C D S k v L. rewrite D. apply C. by eapply lookup_weaken. Qed.

  Lemma put_all_lookup m l k : put_all m l !! k = match last_in l k with Some v => Some v | None => m !! k end.
  Proof using.
    unfold put_all. revert m. induction l as [|[x v] l IH]; intros m; cbn; [done|].
    rewrite IH. destruct (last_in l k); [done|]. destruct (decide (x = k)) as [->|N].
    - by rewrite lookup_insert.
    - by rewrite lookup_insert_ne.
  Qed.

  Lemma thist_inv h s : thist h s -> coherent s /\ forall k, td_db s !! k = last_write h k.
  Proof using.
    induction 1 as [|h s k s' r H [C D] E|h s k H [C D]|h s k v s' H [C D] E|h s ks vs s' r H [C D] E NP|h s k H [C D]|h s s' H [C D] E].
    - split; [intros k v; cbn; by rewrite lookup_empty|]. intros k. cbn. by rewrite lookup_empty.
    - cbn. unfold tget in E. destruct (td_cache s !! k) eqn:L; [injection E as <- <-; done|].
      destruct (td_db s !! k) as [v|] eqn:L2; [|injection E as <- <-; done].
      destruct (flush _ _ _) as [s1| |] eqn:F; try done. injection E as <- <-.
      apply flush_sub in F as [F1 F2]. cbn in F1, F2. rewrite F1. split; [|done].
      apply (coherent_sub (TDb (td_db s) (<[k := v]> (td_cache s))) s1); [|exact F1|exact F2].
      intros k' v'. cbn. destruct (decide (k = k')) as [<-|N].
      + rewrite lookup_insert. by intros [= <-].
      + rewrite lookup_insert_ne by done. apply C.
    - cbn. unfold tcontains. destruct (td_cache s !! k) eqn:L; [done|].
      destruct (td_db s !! k) as [v|] eqn:L2; [|done]. cbn. split; [|done].
      intros k' v'. cbn. destruct (decide (k = k')) as [<-|N].
      + rewrite lookup_insert. by intros [= <-].
      + rewrite lookup_insert_ne by done. apply C.
    - unfold tinsert in E. apply flush_sub in E as [F1 F2]. split.
      + eapply coherent_sub; [|exact F1|exact F2]. intros k' v'. cbn.
        destruct (decide (k = k')) as [<-|N]; [by rewrite !lookup_insert|]. rewrite !lookup_insert_ne by done. apply C.
      + intros k'. rewrite F1. cbn. destruct (decide (k = k')) as [<-|N]; [by rewrite lookup_insert|].
        by rewrite lookup_insert_ne.
    - unfold tbatch in E. cbn [last_write]. destruct (Nat.eqb_spec (length ks) (length vs)) as [LE|LE]; cbn [negb] in E.
      2:{ injection E as <- _. split; [done|]. intros k. by rewrite decide_False. }
      cbn [td_db td_cache] in E.
      destruct (flush _ _ _) as [s1| |] eqn:F; try (injection E as <- <-; done).
      + injection E as <- _. apply flush_sub in F as [F1 F2]. cbn in F1, F2. split.
        * apply (coherent_sub (TDb (put_all (td_db s) (zip ks vs)) (put_all (td_cache s) (zip ks vs))) s1); [|exact F1|exact F2]. intros k v. cbn. rewrite !put_all_lookup.
          destruct (last_in _ k); [done|]. apply C.
        * intros k. rewrite F1, put_all_lookup, decide_True by done. by rewrite D.
      + exfalso. clear -F. unfold flush, rand_remove_list in F. cbn in F. destruct (Nat.leb _ _); [done|].
        destruct (draw _ _ _) as [x| |] eqn:DR; try done. clear F. revert DR.
        match goal with |- draw _ ?n ?l = _ -> _ => generalize n l end. clear.
        induction n as [|n IH]; intros l; cbn; [done|]. destruct l as [|y l]; [done|].
        match goal with |- context [draw rng n ?q] => pose proof (IH q) as IHq; destruct (draw rng n q) eqn:Q end; done.
    - done.
    - apply flush_sub in E as [F1 F2]. split.
      + exact (coherent_sub s s' C F1 F2).
      + intros k. rewrite F1. apply D.
  Qed.

  (** Whatever was cached, flushed or evicted before: a read returns the value written last. *)
  Theorem C31_read_last_write : forall h s k s' r, thist h s -> tget rng cs s k = Ok (s', r) -> r = last_write h k.
  Proof using.
    intros h s k s' r H E. apply thist_inv in H as [C D]. unfold tget in E.
    destruct (td_cache s !! k) eqn:L; [injection E as <- <-; by rewrite <- D, (C _ _ L)|].
    rewrite D in E. destruct (last_write h k); [|by injection E as <- <-].
    destruct (flush _ _ _); by inversion E.
  Qed.
  Theorem C31_contains : forall h s k, thist h s -> snd (tcontains s k) = true <-> last_write h k <> None.
  Proof using.
    intros h s k H. apply thist_inv in H as [C D]. unfold tcontains.
    destruct (td_cache s !! k) eqn:L; cbn.
    - apply C in L. rewrite D in L. rewrite L. done.
    - rewrite D. destruct (last_write h k); cbn; split; congruence.
  Qed.

  (** Operations never get stuck when the configured cache size is not zero, and leave at most twice that many entries. *)
  Lemma draw_ok n l : (n <= length l)%nat -> exists r, draw rng n l = Ok r.
  Proof using.
    revert l. induction n as [|n IH]; intros l L; cbn; [eauto|].
    destruct l as [|y l]; [cbn in L; lia|]. set (l0 := y :: l) in *.
    set (j := (rng (S n) (length l0) mod length l0)%nat).
    assert (J : (j < length l0)%nat) by (apply Nat.mod_upper_bound; done).
    destruct (IH (take j l0 ++ drop (S j) l0)) as [r ->]; [|eauto].
    rewrite app_length, take_length, drop_length. lia.
  Qed.

  Lemma draw_spec n l r : NoDup l -> draw rng n l = Ok r -> NoDup r /\ length r = n /\ forall x, x ∈ r -> x ∈ l.
  Proof using.
    revert l r. induction n as [|n IH]; intros l r ND E; cbn in E.
    - injection E as <-. split; [constructor|]. split; [done|]. intros x I. by apply elem_of_nil in I.
    - destruct l as [|y l]; [done|]. set (l0 := y :: l) in *.
      set (j := (rng (S n) (length l0) mod length l0)%nat) in *.
      assert (J : (j < length l0)%nat) by (apply Nat.mod_upper_bound; done).
      destruct (draw rng n _) as [r'| |] eqn:DR; try done. injection E as <-.
      destruct (lookup_lt_is_Some_2 l0 j J) as [x X]. rewrite X. cbn.
      assert (E0 : l0 = take j l0 ++ x :: drop (S j) l0) by (symmetry; by apply take_drop_middle).
      rewrite E0 in ND. apply NoDup_app in ND as (N1 & N2 & N3). apply NoDup_cons in N3 as [N3 N4].
      assert (ND' : NoDup (take j l0 ++ drop (S j) l0)).
      { apply NoDup_app. split; [done|]. split; [|done]. intros z Z1 Z2. eapply N2; [exact Z1|]. by apply elem_of_cons; right. }
      apply IH in DR as (A & B & C); [|done]. split; [|split].
      + constructor; [|done]. intros I. apply C, elem_of_app in I as [I|I]; [|done].
        eapply N2; [exact I|]. apply elem_of_cons; by left.
      + cbn. by rewrite B.
      + intros z Z. rewrite E0. apply elem_of_cons in Z as [->|Z].
        * apply elem_of_app. right. apply elem_of_cons. by left.
        * apply C, elem_of_app in Z as [Z|Z]; apply elem_of_app; [by left|right]. apply elem_of_cons. by right.
  Qed.

  Lemma flush_ok s : cs <> 0%nat -> exists s', flush rng cs s = Ok s' /\ (size (td_cache s') <= 2 * cs)%nat.
  Proof using.
    intros NZ. unfold flush. destruct (Nat.leb_spec (size (td_cache s)) (cs * 2)) as [L|L].
    - exists s. split; [done|]. lia.
    - set (ks := map fst (map_to_list (td_cache s))).
      assert (LK : length ks = size (td_cache s)) by (unfold ks; by rewrite map_length).
      assert (NK : NoDup ks) by apply NoDup_fst_map_to_list.
      unfold rand_remove_list.
      destruct (draw_ok (size (td_cache s) - cs) (seq 0 (length ks - 1))) as [is DR]; [rewrite seq_length; lia|].
      rewrite DR. eexists. split; [done|]. cbn [td_cache].
      apply draw_spec in DR as (A & B & C); [|apply NoDup_seq].
      assert (G : forall l (c : gmap bytes bytes), NoDup l -> (forall x, x ∈ l -> x ∈ dom c) ->
                  (size (fold_left (fun c k => delete k c) l c) + length l = size c)%nat).
      { clear. induction l as [|k l IH]; intros c ND I; cbn; [lia|]. apply NoDup_cons in ND as [N ND].
        assert (is_Some (c !! k)) as [v K] by (apply elem_of_dom, I, elem_of_cons; by left).
        assert (Sz : size c = S (size (delete k c))).
        { rewrite <- (insert_delete c k v K) at 1. rewrite map_size_insert_None; [done|apply lookup_delete]. }
        assert (G : (size (fold_left (fun c k => delete k c) l (delete k c)) + length l = size (delete k c))%nat); [|rewrite Sz, <- G; apply Nat.add_succ_r].
        apply IH; [done|]. intros x X. apply elem_of_dom.
        rewrite lookup_delete_ne; [|intros ->; done]. apply elem_of_dom, I, elem_of_cons. by right. }
      assert (IN : forall i, i ∈ is -> (i < length ks)%nat).
      { intros i I. apply C, elem_of_seq in I. lia. }
      specialize (G (map (fun i => default [] (ks !! i)) is) (td_cache s)).
      rewrite map_length, B in G. apply Nat.le_trans with cs; [|lia].
      assert (size (fold_left (fun c k => delete k c) (map (fun i => default [] (ks !! i)) is) (td_cache s)) +
              (size (td_cache s) - cs) = size (td_cache s))%nat as GG; [|revert GG L; unfold bytes; generalize (size (fold_left (fun (c : gmap (list N) (list N)) k => delete k c) (map (fun i => default [] (ks !! i)) is) (td_cache s))); intros; lia].
      apply G.
      + clear -A NK IN. induction A as [|i is NI ND IH]; cbn; constructor.
        * intros I. apply elem_of_list_fmap in I as (j & E & J).
          destruct (lookup_lt_is_Some_2 ks i (IN i ltac:(apply elem_of_cons; by left))) as [x X].
          destruct (lookup_lt_is_Some_2 ks j (IN j ltac:(apply elem_of_cons; by right))) as [y Y].
          cbv beta in E. unfold bytes in E, X, Y. rewrite X, Y in E. cbn in E. subst y. pose proof (NoDup_lookup _ _ _ _ NK X Y). by subst j.
        * apply IH. intros j J. apply IN, elem_of_cons. by right.
      + intros x X. apply elem_of_list_fmap in X as (i & -> & I).
        destruct (lookup_lt_is_Some_2 ks i (IN i I)) as [y Y]. cbv beta. unfold bytes in Y |- *. rewrite Y. cbn [default from_option id].
        apply elem_of_list_lookup_2 in Y. apply elem_of_list_fmap in Y as ([k v] & -> & Y).
        apply elem_of_map_to_list in Y. apply elem_of_dom. by exists v.
  Qed.

  Theorem C31_total : forall s k v, cs <> 0%nat ->
    (exists s' r, tget rng cs s k = Ok (s', r)) /\
    (exists s', tinsert rng cs s k v = Ok s' /\ (size (td_cache s') <= 2 * cs)%nat).
  Proof using.
    intros s k v NZ. split.
    - unfold tget. destruct (td_cache s !! k); [eauto|]. destruct (td_db s !! k) as [w|]; [|eauto].
      destruct (flush_ok (TDb (td_db s) (<[k := w]> (td_cache s))) NZ) as (s' & -> & _). eauto.
    - apply flush_ok. done.
  Qed.
End Seq.

(** With a configured cache size of zero the first write panics. *)
Theorem C31_zero_size_refuted : forall rng k v, tinsert rng 0 tdb0 k v = Panic.
Proof.
  intros rng k v. unfold tinsert, flush. cbn [td_cache td_db tdb0].
  assert (E : size (<[k:=v]> (∅ : gmap bytes bytes)) = 1%nat).
  { rewrite map_size_insert_None; [by rewrite map_size_empty|apply lookup_empty]. }
  rewrite E. cbn [Nat.leb Nat.mul]. unfold rand_remove_list.
  rewrite map_length.
  match goal with |- context [length (map_to_list ?m)] => change (length (map_to_list m)) with (size m) end. rewrite E. done.
Qed.

(** A batch whose database write fails has already changed what readers see. *)
Theorem C31_failed_batch_refuted : exists rng s s', thist rng 4 [] s /\ tbatch rng 4 s [[1%N]] [[2%N]] false = (s', Err) /\
  (exists r, tget rng 4 s [1%N] = Ok (r, None)) /\ exists r, tget rng 4 s' [1%N] = Ok (r, Some [2%N]).
Proof.
  exists (fun _ _ => 0%nat), tdb0. eexists. split; [constructor|]. split; [reflexivity|].
  split; eexists; vm_compute; reflexivity.
Qed.

(** A removed key is still there: remove does nothing. *)
Theorem C31_remove_no_effect : forall rng cs h s k, thist rng cs h s ->
  thist rng cs (TRemove k :: h) s /\ last_write (TRemove k :: h) k = last_write h k.
Proof. intros rng cs h s k H. split; [exact (TH_remove rng cs h s k H)|done]. Qed.

Definition ex_ins (s : tdb) (k v : bytes) : tdb :=
  match tinsert (fun _ _ => 0%nat) 1 s k v with Ok s' => s' | _ => s end.
Lemma ex_ins_hist h s k v : thist (fun _ _ => 0%nat) 1 h s -> thist (fun _ _ => 0%nat) 1 (TInsert k v :: h) (ex_ins s k v).
Proof.
  intros H. destruct (proj2 (C31_total (fun _ _ => 0%nat) 1 s k v ltac:(done))) as (s' & E & _).
  unfold ex_ins. rewrite E. exact (TH_insert _ _ _ _ _ _ _ H E).
Qed.
Example C31_ex : exists s h, thist (fun _ _ => 0%nat) 1 h s /\ length h = 4%nat /\
  td_cache s !! [1%N] = None /\ last_write h [1%N] = Some [9%N] /\
  exists s', tget (fun _ _ => 0%nat) 1 s [1%N] = Ok (s', Some [9%N]).
Proof.
  pose (s := ex_ins (ex_ins (ex_ins (ex_ins tdb0 [1%N] [5%N]) [1%N] [9%N]) [2%N] [5%N]) [3%N] [5%N]).
  exists s, [TInsert [3%N] [5%N]; TInsert [2%N] [5%N]; TInsert [1%N] [9%N]; TInsert [1%N] [5%N]]. split.
  - do 4 apply ex_ins_hist. apply TH_0.
  - split; [done|]. split; [vm_compute; reflexivity|]. split; [vm_compute; reflexivity|]. eexists. vm_compute. reflexivity.
Qed.

(* ------------------------------------------------------------------------ *)
(** * Concurrent use *)

Inductive crun : list cevent -> cstate -> Prop :=
| CR_0 : crun [] (CState ∅ ∅ [] [])
| CR_S h s e s' r : crun h s -> cstep s e = Some (s', r) -> crun (e :: h) s'.

(** the pairs written by an event *)
Definition writes (e : cevent) : list (bytes * bytes) :=
  match e with CPut k v => [(k, v)] | CBatchCache l => l | _ => [] end.

Section Conc.
  (** content addressing: the key determines the value, as it does for trie nodes *)
  Variable content : bytes -> bytes.
  Definition addressed (h : list cevent) : Prop := forall e k v, e ∈ h -> (k, v) ∈ writes e -> v = content k.

  Record cinv (s : cstate) : Prop := {
    ci_db : forall k v, cc_db s !! k = Some v -> v = content k;
    ci_cache : forall k v, cc_cache s !! k = Some v -> v = content k;
    ci_fill : forall k v, (k, v) ∈ cc_fill s -> v = content k;
    ci_batch : forall l k v, l ∈ cc_batch s -> (k, v) ∈ l -> v = content k }.

  Lemma last_in_elem l k v : last_in l k = Some v -> (k, v) ∈ l.
  Proof using.
    induction l as [|[x w] l IH]; cbn; [done|]. destruct (last_in l k) as [u|] eqn:E.
    - intros [= ->]. apply elem_of_cons. right. by apply IH.
    - destruct (decide (x = k)) as [->|]; [|done]. intros [= ->]. apply elem_of_cons. by left.
  Qed.

  Lemma crun_inv h s : addressed h -> crun h s -> cinv s.
  Proof using.
    intros A R. induction R as [|h s e s' r R IH E].
    { split; cbn; intros; try (by rewrite lookup_empty in *); by apply elem_of_nil in H. }
    destruct IH as [D C F B]; [intros e' k v I; apply A; apply elem_of_cons; by right|].
    assert (W : forall k v, (k, v) ∈ writes e -> v = content k) by (intros k v; apply A, elem_of_cons; by left).
    destruct e as [k|k|i|k v|l|i|k]; cbn in E.
    - destruct (cc_cache s !! k); [|done]. injection E as <- _. by split.
    - injection E as <- _. split; cbn; try done. intros k' v' I. destruct (cc_db s !! k) as [v|] eqn:L; [|by apply F].
      apply elem_of_cons in I as [[= -> ->]|I]; [by apply D|by apply F].
    - destruct (cc_fill s !! i) as [[k v]|] eqn:L; [|done]. injection E as <- _. split; cbn; try done.
      + intros k' v'. destruct (decide (k = k')) as [<-|N]; [|rewrite lookup_insert_ne by done; apply C].
        rewrite lookup_insert. intros [= <-]. apply F. by eapply elem_of_list_lookup_2.
      + intros k' v' I. apply F. apply elem_of_app in I as [I|I].
        * revert I. idtac. intros I. by eapply elem_of_submseteq; [exact I|apply submseteq_take].
        * by eapply elem_of_submseteq; [exact I|apply submseteq_drop].
    - injection E as <- _. cbn in W. split; cbn; try done.
      + intros k' v'. destruct (decide (k = k')) as [<-|N]; [|rewrite lookup_insert_ne by done; apply D].
        rewrite lookup_insert. intros [= <-]. apply W. by apply elem_of_list_singleton.
      + intros k' v' I. apply elem_of_cons in I as [[= -> ->]|I]; [|by apply F]. apply W. by apply elem_of_list_singleton.
    - injection E as <- _. cbn in W. split; cbn; try done.
      + intros k v. rewrite put_all_lookup. destruct (last_in l k) eqn:L; [|apply C]. intros [= <-].
        by apply W, last_in_elem.
      + intros l' k v I. apply elem_of_cons in I as [->|I]; [apply W|by apply B].
    - destruct (cc_batch s !! i) as [l|] eqn:L; [|done]. injection E as <- _. apply elem_of_list_lookup_2 in L.
      split; cbn; try done.
      + intros k v. rewrite put_all_lookup. destruct (last_in l k) eqn:L2; [|apply D]. intros [= <-].
        eapply B; [exact L|]. by apply last_in_elem.
      + intros l' k v I. apply B. apply elem_of_app in I as [I|I].
        * by eapply elem_of_submseteq; [exact I|apply submseteq_take].
        * by eapply elem_of_submseteq; [exact I|apply submseteq_drop].
    - injection E as <- _. split; cbn; try done. intros k' v'. destruct (decide (k = k')) as [<-|N].
      + by rewrite lookup_delete.
      + rewrite lookup_delete_ne by done. apply C.
  Qed.

  (** the column never loses a key *)
  Lemma db_grows h s e s' r k : crun h s -> cstep s e = Some (s', r) -> is_Some (cc_db s !! k) -> is_Some (cc_db s' !! k).
  Proof using.
    intros _ E [v L]. destruct e as [x|x|i|x w|l|i|x]; cbn in E.
    - destruct (cc_cache s !! x); [|done]. injection E as <- _. by exists v.
    - injection E as <- _. by exists v.
    - destruct (cc_fill s !! i) as [[? ?]|]; [|done]. injection E as <- _. by exists v.
    - injection E as <- _. cbn. destruct (decide (x = k)) as [->|N]; [rewrite lookup_insert; eauto|].
      rewrite lookup_insert_ne by done. eauto.
    - injection E as <- _. by exists v.
    - destruct (cc_batch s !! i) as [l|]; [|done]. injection E as <- _. cbn. rewrite put_all_lookup.
      destruct (last_in l k); eauto.
    - injection E as <- _. by exists v.
  Qed.

  (** Under any interleaving of reads, writes and evictions, a read returns nothing or the content of
      the key, and once the key is in the column (its write has completed) it returns the content. *)
  Theorem C31_concurrent : forall h s e s' k v, addressed h -> crun h s -> cstep s e = Some (s', Some v) ->
    (e = CHit k \/ e = CMiss k) ->
    (v = None \/ v = Some (content k)) /\ (is_Some (cc_db s !! k) -> v = Some (content k)).
  Proof using.
    intros h s e s' k v A R E K. destruct (crun_inv _ _ A R) as [D C F B].
    destruct K as [-> | ->]; cbn in E.
    - destruct (cc_cache s !! k) as [w|] eqn:L; [|done]. injection E as <- <-. apply C in L. subst w. split; [by right|done].
    - injection E as <- <-. destruct (cc_db s !! k) as [w|] eqn:L.
      + apply D in L. subst w. split; [by right|done].
      + split; [by left|]. intros [? ?]. done.
  Qed.
  Theorem C31_write_completes : forall h s k v s' r, crun h s -> cstep s (CPut k v) = Some (s', r) -> is_Some (cc_db s' !! k).
  Proof using. intros h s k v s' r R E. cbn in E. injection E as <- _. cbn. rewrite lookup_insert. eauto. Qed.
  Theorem C31_write_persists : forall h s e s' r k, crun h s -> cstep s e = Some (s', r) ->
    is_Some (cc_db s !! k) -> is_Some (cc_db s' !! k).
  Proof using. exact db_grows. Qed.
End Conc.

Fixpoint crun_of (h : list cevent) : option cstate :=
  match h with
  | [] => Some (CState ∅ ∅ [] [])
  | e :: r => match crun_of r with
              | Some s => match cstep s e with Some (s', _) => Some s' | None => None end
              | None => None end
  end.
Lemma crun_of_run h s : crun_of h = Some s -> crun h s.
Proof.
  revert s. induction h as [|e h IH]; intros s; cbn.
  - intros [= <-]. apply CR_0.
  - destruct (crun_of h) as [s0|]; [|done]. destruct (cstep s0 e) as [[s1 r]|] eqn:E; [|done]. intros [= <-].
    eapply CR_S; [by apply IH|exact E].
Qed.
Lemma crun_of_prop h (P : cstate -> Prop) `{forall s, Decision (P s)} :
  match crun_of h with Some s => bool_decide (P s) | None => false end = true -> exists s, crun h s /\ P s.
Proof.
  destruct (crun_of h) as [s|] eqn:E; [|done]. intros B. exists s. split; [by apply crun_of_run|]. by apply bool_decide_eq_true in B.
Qed.

(** Without content addressing a slow reader can put an old value back over a newer one. *)
Theorem C31_overwrite_race_refuted : exists h s, crun h s /\ cc_db s !! [1%N] = Some [3%N] /\ cc_fill s = [] /\
  cstep s (CHit [1%N]) = Some (s, Some (Some [2%N])).
Proof.
  exists [CFill 0; CFill 0; CPut [1%N] [3%N]; CMiss [1%N]; CEvict [1%N]; CFill 0; CPut [1%N] [2%N]].
  destruct (crun_of_prop [CFill 0; CFill 0; CPut [1%N] [3%N]; CMiss [1%N]; CEvict [1%N]; CFill 0; CPut [1%N] [2%N]]
    (fun s => cc_db s !! [1%N] = Some [3%N] /\ cc_fill s = [] /\ cc_cache s !! [1%N] = Some [2%N])) as (s & R & A & B & C).
  - vm_compute. reflexivity.
  - exists s. split; [done|]. split; [done|]. split; [done|]. cbn [cstep]. unfold bytes in C |- *. by rewrite C.
Qed.

Example C31_concurrent_ex : exists h s s', addressed (fun k => k ++ k) h /\ crun h s /\
  cstep s (CMiss [1%N]) = Some (s', Some (Some [1%N; 1%N])).
Proof.
  pose (h := [CEvict [1%N]; CBatchDb 0; CBatchCache [([1%N], [1%N; 1%N]); ([2%N], [2%N; 2%N])]]).
  destruct (crun_of_prop h (fun s => cc_db s !! [1%N] = Some [1%N; 1%N])) as (s & R & A); [vm_compute; reflexivity|].
  exists h, s. eexists. split; [|split; [exact R|]].
  - intros e k v I W. unfold h in I. rewrite !elem_of_cons, elem_of_nil in I. destruct I as [->|[->|[->|[]]]]; cbn in W.
    1,2: by apply elem_of_nil in W.
    rewrite !elem_of_cons, elem_of_nil in W. destruct W as [[= -> ->]|[[= -> ->]|[]]]; done.
  - cbn [cstep]. unfold bytes in A |- *. rewrite A. reflexivity.
Qed.

Print Assumptions C31_read_last_write.
Print Assumptions C31_contains.
Print Assumptions C31_total.
Print Assumptions C31_zero_size_refuted.
Print Assumptions C31_failed_batch_refuted.
Print Assumptions C31_remove_no_effect.
Print Assumptions C31_concurrent.
Print Assumptions C31_write_completes.
Print Assumptions C31_write_persists.
Print Assumptions C31_overwrite_race_refuted.
