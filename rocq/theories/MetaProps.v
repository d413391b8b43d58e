(** C28 (epochs), C43 (hardforks), C56 (metadata reads back). *)
From Verif Require Import Bytes BytesProofs Rlp TxModel MetaModel MetaProofs.
From stdpp Require Import base gmap list.
From Coq Require Import Lia.
Local Open Scope N_scope.

(* ------------------------------------------------------------------------ *)
(** * Histories: the successful operations on the store, oldest first *)
Inductive mevent :=
| EvAppend (hf : N) (md : metadata)
| EvCount (n : N) (a : bytes)
| EvConfig (hf : N) (c : config)
| EvCkb (i : bytes)
| EvHardfork (b f : N).

Definition mapply (m : meta) (ev : mevent) : outcome meta :=
  match ev with
  | EvAppend hf md => append_metadata hf m md
  | EvCount n a => update_propose_count m n a
  | EvConfig hf c => Ok (update_consensus_config hf m c)
  | EvCkb i => Ok (set_ckb_related_info m i)
  | EvHardfork b f => Ok (set_hardfork_info m b f)
  end.

(** version ends are u64 *)
Definition ev_ok (ev : mevent) : Prop :=
  match ev with EvAppend _ md => mi_end (md_inner md) <= U64_MAX | _ => True end.

Inductive mtrace : list mevent -> meta -> Prop :=
| MT_0 : mtrace [] meta0
| MT_S evs m ev m' : mtrace evs m -> ev_ok ev -> mapply m ev = Ok m' -> mtrace (evs ++ [ev]) m'.

Lemma mtrace_reach evs m : mtrace evs m -> mreach m.
Proof.
  induction 1 as [|evs m ev m' T IH O E]; [constructor|]. econstructor; [done|].
  destruct ev; cbn in E; try (injection E as <-; constructor).
  - by econstructor.
  - by econstructor.
Qed.
Lemma mtrace_inv evs m : mtrace evs m -> minv m.
Proof. intros T. by eapply mreach_inv, mtrace_reach. Qed.

(* ------------------------------------------------------------------------ *)
(** * C28 *)

(** The version range of an epoch.  The start of epoch 0 is never checked by the contract (see
    [C28_genesis_start_refuted]); its range is taken to begin at block 1. *)
Definition in_range (i : meta_inner) (n : N) : Prop :=
  (if mi_epoch i =? 0 then 1 <= n else mi_start i <= n) /\ n <= mi_end i.

(** Looking up a block returns an epoch whose range contains it, and no other stored epoch does. *)
Theorem C28_lookup : forall evs m n md, mtrace evs m -> n <> 0 -> metadata_by_block m n = Ok md ->
  in_range (md_inner md) n /\
  get_metadata m (mi_epoch (md_inner md)) = Ok md /\
  forall e md', get_metadata m e = Ok md' -> in_range (md_inner md') n -> md' = md.
Proof.
  intros evs m n md T NZ E. apply mtrace_inv in T as I.
  unfold metadata_by_block in E. rewrite (proj2 (N.eqb_neq n 0) NZ) in E.
  destruct (get_epoch_number _ n) as [e|] eqn:G; [|done].
  unfold get_metadata, get_metadata_inner in *.
  destruct (mt_inner m !! e) as [i|] eqn:L; [|done].
  destruct (inner_config _ _ _ I L) as [c C]. rewrite C in E. injection E as <-. cbn [md_inner].
  pose proof (mi_ent _ I _ _ L) as (EI & _ & _).
  pose proof G as G'. apply (epoch_of _ _ _ _ I L) in G'.
  split; [unfold in_range; rewrite EI; exact G'|]. split.
  - rewrite EI, L, C. done.
  - intros e' md' E' R. destruct (mt_inner m !! e') as [i'|] eqn:L'; [|done].
    rewrite C in E'. injection E' as <-. cbn [md_inner] in R.
    pose proof (mi_ent _ I _ _ L') as (EI' & _ & _).
    unfold in_range in R. rewrite EI' in R. apply (epoch_of _ _ _ _ I L') in R.
    rewrite G in R. injection R as ->. rewrite L in L'. by injection L' as ->.
Qed.

(** Every block from 1 to the end of the last epoch has an epoch; blocks beyond are refused. *)
Theorem C28_total : forall evs m n, mtrace evs m -> n <> 0 ->
  (n <= seg_last (mt_segment m) -> exists md, metadata_by_block m n = Ok md) /\
  (seg_last (mt_segment m) < n -> metadata_by_block m n = Err).
Proof.
  intros evs m n T NZ. apply mtrace_inv in T as I.
  unfold metadata_by_block. rewrite (proj2 (N.eqb_neq n 0) NZ). split.
  - intros LE. destruct (seg_window_exists _ n 0 (mi_zero _ I)) as (j & x & y & X & Y & H); [lia|].
    assert (G : get_epoch_number (mt_segment m) n = Some (N.of_nat j)).
    { apply epoch_number_iff; [apply I|]. rewrite Nat2N.id. eauto. }
    rewrite G. destruct (epoch_some_inner _ _ _ I G) as [i L].
    unfold get_metadata, get_metadata_inner. rewrite L.
    destruct (inner_config _ _ _ I L) as [c ->]. eauto.
  - intros LT. destruct (get_epoch_number _ n) as [e|] eqn:G; [|done].
    apply epoch_number_iff in G as (a & b & A & B & H); [|apply I].
    pose proof (seg_inc_last _ _ _ (mi_inc _ I) B). lia.
Qed.

(** Once any epoch is stored, the genesis block answers with epoch 0. *)
Theorem C28_genesis : forall evs m e md, mtrace evs m -> get_metadata m e = Ok md ->
  exists md0, metadata_by_block m 0 = Ok md0 /\ get_metadata m 0 = Ok md0 /\ mi_epoch (md_inner md0) = 0.
Proof.
  intros evs m e md T E. apply mtrace_inv in T as I. unfold metadata_by_block. cbn [N.eqb].
  unfold get_metadata, get_metadata_inner in *. destruct (mt_inner m !! e) as [i|] eqn:L; [|done].
  assert (is_Some (mt_inner m !! 0)) as [i0 L0].
  { apply (mi_dom _ I). assert (is_Some (mt_inner m !! e)) as S by eauto. apply (mi_dom _ I) in S. lia. }
  rewrite L0. destruct (inner_config _ _ _ I L0) as [c ->]. eexists. split; [done|]. split; [done|].
  by destruct (mi_ent _ I _ _ L0).
Qed.

(** Neighbouring epochs are contiguous, no epoch is empty, and the stored epochs are exactly
    0 .. k for some k. *)
Theorem C28_contiguous : forall evs m e md, mtrace evs m -> get_metadata m e = Ok md ->
  mi_epoch (md_inner md) = e /\
  (e <> 0 -> mi_start (md_inner md) <= mi_end (md_inner md) /\
     exists prev, get_metadata m (e - 1) = Ok prev /\ mi_start (md_inner md) = mi_end (md_inner prev) + 1).
Proof.
  intros evs m e md T E. apply mtrace_inv in T as I.
  unfold get_metadata, get_metadata_inner in *.
  destruct (mt_inner m !! e) as [i|] eqn:L; [|done].
  destruct (inner_config _ _ _ I L) as [c C]. rewrite C in *. injection E as <-. cbn [md_inner].
  pose proof (mi_ent _ I _ _ L) as (EI & B & P). split; [done|]. intros NZ.
  destruct (P NZ) as (x & X & ST). split.
  - pose proof (mi_inc _ I _ _ _ _ X B ltac:(lia)). lia.
  - assert (is_Some (mt_inner m !! (e - 1))) as [i' L'].
    { apply (mi_dom _ I). apply lookup_lt_Some in X. lia. }
    rewrite L'. pose proof (mi_ent _ I _ _ L') as (_ & B' & _).
    replace (S (N.to_nat (e - 1))) with (N.to_nat e) in B' by lia.
    rewrite X in B'. injection B' as ->. eexists. split; [done|]. done.
Qed.

(** What an append must look like to be accepted, and what it does to lookups: earlier blocks keep
    their epoch, the new range gets the new one. *)
Theorem C28_append : forall evs m hf md m', mtrace evs m -> mi_end (md_inner md) <= U64_MAX ->
  append_metadata hf m md = Ok m' ->
  seg_last (mt_segment m') = mi_end (md_inner md) /\
  seg_last (mt_segment m) < mi_end (md_inner md) /\
  (forall n x, n <> 0 -> n <= seg_last (mt_segment m) -> metadata_by_block m n = Ok x ->
     exists y, metadata_by_block m' n = Ok y /\ md_inner y = md_inner x) /\
  (forall n, seg_last (mt_segment m) < n <= mi_end (md_inner md) ->
     exists y, metadata_by_block m' n = Ok y /\ mi_epoch (md_inner y) = mi_epoch (md_inner md) /\
       mi_start (md_inner y) = mi_start (md_inner md) /\ mi_end (md_inner y) = mi_end (md_inner md) /\
       mi_verifiers (md_inner y) = mi_verifiers (md_inner md)).
Proof.
  intros evs m hf md m' T MX E. apply mtrace_inv in T as I.
  assert (I' : minv m') by exact (minv_append _ _ _ _ I MX E).
  pose proof (append_epoch _ _ _ _ I E) as EP. pose proof (minv_length _ I) as LN.
  apply append_inv in E as (_ & ST & LT & _ & ->).
  set (i := md_inner md) in *. cbn [mt_segment] in *.
  split; [apply seg_last_snoc|]. split; [done|]. split.
  - intros n x NZ LE E. unfold metadata_by_block in *. rewrite (proj2 (N.eqb_neq n 0) NZ) in *.
    destruct (get_epoch_number (mt_segment m) n) as [e|] eqn:G; [|done].
    assert (G' : get_epoch_number (mt_segment m ++ [mi_end i]) n = Some e).
    { apply epoch_number_iff; [apply I'|]. apply epoch_number_iff in G as (a & b & A & B & H); [|apply I].
      exists a, b. split; [by apply lookup_app_l_Some|]. split; [by apply lookup_app_l_Some|done]. }
    cbn [mt_segment]. rewrite G'. unfold get_metadata, get_metadata_inner in *. cbn [mt_inner].
    destruct (mt_inner m !! e) as [x0|] eqn:L; [|done].
    assert (mi_epoch i <> e).
    { intros Q. assert (is_Some (mt_inner m !! e)) as D by eauto. apply (mi_dom _ I) in D. lia. }
    rewrite lookup_insert_ne by done. rewrite L.
    destruct (get_consensus_config m); try done. injection E as <-.
    eexists. split; [reflexivity|done].
  - intros n H.
    assert (G' : get_epoch_number (mt_segment m ++ [mi_end i]) n = Some (mi_epoch i)).
    { apply epoch_number_iff; [apply I'|]. rewrite EP. exists (seg_last (mt_segment m)), (mi_end i).
      assert (NE : mt_segment m <> []) by (intros X; rewrite X in LN; cbn in LN; lia).
      split; [apply lookup_app_l_Some, seg_last_lookup, NE|]. split; [|done].
      rewrite lookup_app_r by lia.
      replace (S (length (mt_segment m) - 1) - length (mt_segment m))%nat with 0%nat by lia. done. }
    unfold metadata_by_block. cbn [mt_segment]. rewrite (proj2 (N.eqb_neq n 0)) by lia. rewrite G'.
    unfold get_metadata, get_metadata_inner. cbn [mt_inner]. rewrite lookup_insert.
    eexists. split; [reflexivity|]. done.
Qed.

(** Which appends are refused: wrong epoch, gap or overlap, or an end that does not grow. *)
Theorem C28_append_refused : forall evs m hf md, mtrace evs m ->
  append_metadata hf m md = Err <->
  (N.to_nat (mi_epoch (md_inner md)) <> length (mt_segment m) - 1)%nat \/
  (seg_last (mt_segment m) <> U64_MAX /\
   (mi_end (md_inner md) <= seg_last (mt_segment m) \/
    (mi_epoch (md_inner md) <> 0 /\ mi_start (md_inner md) <> seg_last (mt_segment m) + 1))).
Proof.
  intros evs m hf md T. apply mtrace_inv in T as I. pose proof (minv_length _ I) as LN.
  unfold append_metadata. cbn zeta. set (i := md_inner md).
  assert (C : ((seg_empty (mt_segment m) && negb (mi_epoch i =? 0))
              || (negb (seg_empty (mt_segment m)) && negb (mi_epoch i =? latest_epoch (mt_segment m) + 1))) = true
              <-> (N.to_nat (mi_epoch i) <> length (mt_segment m) - 1)%nat).
  { unfold seg_empty, latest_epoch. destruct (Nat.eqb_spec (length (mt_segment m)) 1) as [Q|Q]; cbn.
    - rewrite orb_false_r, negb_true_iff, N.eqb_neq. lia.
    - rewrite negb_true_iff, N.eqb_neq. lia. }
  destruct (_ || _).
  { split; [intros _; left; by apply C|done]. }
  assert (C' : ~ (N.to_nat (mi_epoch i) <> length (mt_segment m) - 1)%nat) by (intros X; by apply C in X).
  destruct (N.eqb_spec (seg_last (mt_segment m)) U64_MAX) as [Q|Q].
  { split; [done|]. intros [X|[X _]]; done. }
  destruct (negb (mi_start i =? seg_last (mt_segment m) + 1) && negb (mi_epoch i =? 0)) eqn:D.
  { apply andb_true_iff in D as [D1 D2]. apply negb_true_iff, N.eqb_neq in D1, D2.
    split; [intros _; right; auto|done]. }
  unfold append_endpoint. destruct (N.leb_spec (mi_end i) (seg_last (mt_segment m))) as [Q2|Q2].
  { split; [intros _; right; auto|done]. }
  split; [done|]. intros [X|[_ [X|[X1 X2]]]]; [done|lia|].
  apply andb_false_iff in D as [D|D]; apply negb_false_iff, N.eqb_eq in D; done.
Qed.

(** The stored form of the segment reads back. *)
Theorem C28_segment_codec : forall evs m, mtrace evs m ->
  seg_from_raw (seg_bytes (mt_segment m)) = Some (mt_segment m).
Proof.
  intros evs m T. apply mtrace_inv in T as I.
  pose proof (mi_zero _ I) as Z. pose proof (mi_max _ I) as MX.
  destruct (mt_segment m) as [|z s] eqn:ES; [done|]. cbn in Z. injection Z as ->.
  assert (L : forall l, (length (seg_bytes l) mod 8 = 0)%nat).
  { induction l as [|x l IH]; [done|].
    change (seg_bytes (x :: l)) with (be_fixed 8 x ++ seg_bytes l).
    rewrite app_length, be_fixed_len8. rewrite Nat.add_comm.
    change 8%nat with (1 * 8)%nat at 1. rewrite Nat.mod_add by lia. done. }
  unfold seg_from_raw. pose proof (L (0 :: s)) as L0.
  assert (E : exists r, seg_bytes (0 :: s) = 0 :: r) by (eexists; reflexivity).
  destruct E as [r E]. rewrite E in *. rewrite L0. cbn [Nat.eqb].
  rewrite <- E. f_equal. apply chunks8_concat; [done|lia].
Qed.

(** Nothing ties the start of the first epoch to block 1: block 1 can be given an epoch whose own
    version range does not contain it. *)
Definition ex_cfg : config := Config_ (Config0_ 30000000 3000 15 10 10 7 20000 1024) 0x8000.
Definition ex_val (a : N) (w : N) : validator := Val_ (repeat a 48) (repeat a 33) (repeat a 20) 1 w.
Definition ex_md (e s t : N) : metadata := Metadata_ (Inner_ s t e [ex_val 1 1; ex_val 2 3] []) ex_cfg.

Theorem C28_genesis_start_refuted : exists evs m md,
  mtrace evs m /\ metadata_by_block m 1 = Ok md /\ ~ (mi_start (md_inner md) <= 1 <= mi_end (md_inner md)).
Proof.
  eexists [EvAppend 0 (ex_md 0 50 100)], _, _. split; [|split].
  - eapply (MT_S []); [constructor|vm_compute; discriminate|vm_compute; reflexivity].
  - vm_compute. reflexivity.
  - vm_compute. intros [H _]. by apply H.
Qed.

(** An epoch that ends at the largest block number makes the next append panic instead of fail. *)
Theorem C28_append_panics_refuted : exists evs m md,
  mtrace evs m /\ append_metadata 0 m md = Panic.
Proof.
  eexists [EvAppend 0 (ex_md 0 1 U64_MAX)], _, (ex_md 1 0 1). split.
  - eapply (MT_S []); [constructor|vm_compute; discriminate|vm_compute; reflexivity].
  - vm_compute. reflexivity.
Qed.

Definition ex_evs : list mevent :=
  [EvAppend 0 (ex_md 0 1 100); EvAppend 0 (ex_md 1 101 150); EvCount 120 (repeat 2 20);
   EvHardfork 130 ANDROMEDA; EvAppend ANDROMEDA (ex_md 2 151 151)].
Fixpoint mrun (m : meta) (evs : list mevent) : outcome meta :=
  match evs with [] => Ok m | ev :: r => match mapply m ev with Ok m' => mrun m' r | o => o end end.
Lemma mrun_trace evs0 m evs m' : mtrace evs0 m -> Forall ev_ok evs -> mrun m evs = Ok m' -> mtrace (evs0 ++ evs) m'.
Proof.
  revert evs0 m. induction evs as [|ev evs IH]; cbn; intros evs0 m T F E.
  - injection E as <-. by rewrite app_nil_r.
  - destruct (mapply m ev) eqn:A; try done. apply Forall_cons in F as [F1 F2].
    rewrite cons_middle, app_assoc. eapply IH; [|done|done]. by econstructor.
Qed.
Definition ex_meta : meta := match mrun meta0 ex_evs with Ok m => m | _ => meta0 end.
Lemma ex_trace : mtrace ex_evs ex_meta.
Proof.
  apply (mrun_trace [] meta0); [constructor| |vm_compute; reflexivity].
  unfold ex_evs. repeat (apply Forall_cons; split; [first [exact I|vm_compute; discriminate]|]). constructor.
Qed.

Example C28_ex : mtrace ex_evs ex_meta /\
  (exists md, metadata_by_block ex_meta 150 = Ok md /\ mi_epoch (md_inner md) = 1) /\
  (exists md, metadata_by_block ex_meta 151 = Ok md /\ mi_epoch (md_inner md) = 2) /\
  metadata_by_block ex_meta 152 = Err.
Proof.
  split; [apply ex_trace|]. split; [|split].
  - eexists. split; vm_compute; reflexivity.
  - eexists. split; vm_compute; reflexivity.
  - vm_compute. reflexivity.
Qed.

(* ------------------------------------------------------------------------ *)
(** * C43 *)

Definition active (m : meta) (n k : N) : Prop := N.testbit (hardfork_info m n) k = true.

(** The announcements of a history, oldest first. *)
Fixpoint announced (evs : list mevent) : list (N * N) :=
  match evs with
  | [] => []
  | EvHardfork b f :: r => (b, f) :: announced r
  | _ :: r => announced r
  end.
Lemma announced_app a b : announced (a ++ b) = announced a ++ announced b.
Proof. induction a as [|[]]; cbn; try done. by rewrite IHa. Qed.

Definition sub (a b : N) : Prop := forall k, N.testbit a k = true -> N.testbit b k = true.

Inductive hfok : list (N * N) -> Prop :=
| hfok_nil : hfok []
| hfok_snoc l b f : hfok l -> (forall b' f', In (b', f') l -> b' < b /\ sub f' f) -> hfok (l ++ [(b, f)]).

Lemma hf_at_snoc l b f n : hf_at (l ++ [(b, f)]) n = if n <? b then hf_at l n else f.
Proof. unfold hf_at. rewrite rev_app_distr. cbn. by destruct (n <? b). Qed.

Lemma hf_at_in l n : hf_at l n = 0 \/ exists b, In (b, hf_at l n) l /\ b <= n.
Proof.
  induction l as [|[b f] l IH] using rev_ind; [left; done|].
  rewrite hf_at_snoc. destruct (N.ltb_spec n b) as [L|L].
  - destruct IH as [->|(b' & B & LE)]; [by left|]. right. exists b'. split; [|done].
    apply in_app_iff. by left.
  - right. exists b. split; [|done]. apply in_app_iff. right. by left.
Qed.

Lemma sub_0 a : sub 0 a. Proof. intros k. by rewrite N.bits_0. Qed.
Lemma sub_refl a : sub a a. Proof. by intros k. Qed.
Lemma sub_lor_r a b : sub b (N.lor a b).
Proof. intros k H. rewrite N.lor_spec, H. apply orb_true_r. Qed.
Lemma sub_lor_l a b : sub a (N.lor a b).
Proof. intros k H. rewrite N.lor_spec, H. done. Qed.

Lemma hf_mono l n n' : hfok l -> n <= n' -> sub (hf_at l n) (hf_at l n').
Proof.
  induction 1 as [|l b f OK IH H]; intros L; [apply sub_0|].
  rewrite !hf_at_snoc. destruct (N.ltb_spec n b), (N.ltb_spec n' b); try lia.
  - by apply IH.
  - destruct (hf_at_in l n) as [->|(b' & B & _)]; [apply sub_0|]. by apply (H _ _ B).
  - apply sub_refl.
Qed.

Lemma rev_nil_inv {A} (l : list A) : List.rev l = [] -> l = [].
Proof. intros E. apply (f_equal (@List.rev A)) in E. by rewrite rev_involutive in E. Qed.
Lemma rev_cons_inv {A} (l : list A) x r : List.rev l = x :: r -> l = List.rev r ++ [x].
Proof. intros E. apply (f_equal (@List.rev A)) in E. by rewrite rev_involutive in E. Qed.

Lemma hfok_snoc_inv l b f : hfok (l ++ [(b, f)]) -> hfok l /\ (forall b' f', In (b', f') l -> b' < b /\ sub f' f).
Proof.
  intros H. inversion H as [E|l' b' f' OK K E].
  - symmetry in E. apply app_eq_nil in E as [_ E]. done.
  - apply app_inj_tail in E as [-> [= -> ->]]. done.
Qed.

(** what one push does *)
Lemma hf_push_cases l b f : 
  (l = [] /\ hf_push l b f = [(b, f)]) \/
  exists o lb lf, l = o ++ [(lb, lf)] /\
   ((N.lor f lf = lf /\ hf_push l b f = l) \/ (b < lb /\ hf_push l b f = l) \/
    (lb = b /\ hf_push l b f = o ++ [(b, N.lor f lf)]) \/
    (lb < b /\ hf_push l b f = l ++ [(b, N.lor f lf)])).
Proof.
  unfold hf_push. destruct (List.rev l) as [|[lb lf] r] eqn:R.
  - left. apply rev_nil_inv in R. by subst.
  - right. apply rev_cons_inv in R. exists (List.rev r), lb, lf. split; [done|].
    destruct (N.eqb_spec (N.lor f lf) lf); [by left|]. cbn [orb].
    destruct (N.ltb_spec b lb); [by right; left|].
    destruct (N.eqb_spec lb b) as [->|]; [by right; right; left|].
    right. right. right. split; [lia|done].
Qed.

Lemma hfok_push l b f : hfok l -> hfok (hf_push l b f).
Proof.
  intros OK. destruct (hf_push_cases l b f) as [[-> ->]|(o & lb & lf & -> & C)].
  - apply (hfok_snoc []); [constructor|]. intros ? ? [].
  - pose proof (hfok_snoc_inv _ _ _ OK) as [OKo H].
    destruct C as [[_ ->]|[[_ ->]|[[-> ->]|[L ->]]]]; try done.
    + constructor; [done|]. intros b' f' I. destruct (H _ _ I) as [A B]. split; [done|].
      intros k K. by apply sub_lor_r, B.
    + constructor; [done|]. intros b' f' I. apply in_app_iff in I as [I|[[= -> ->]|[]]].
      * destruct (H _ _ I) as [A B]. split; [lia|]. intros k K. by apply sub_lor_r, B.
      * split; [done|]. apply sub_lor_r.
Qed.

Lemma hf_push_grows l b f n : hfok l -> sub (hf_at l n) (hf_at (hf_push l b f) n).
Proof.
  intros OK. destruct (hf_push_cases l b f) as [[-> ->]|(o & lb & lf & -> & C)].
  - apply sub_0.
  - pose proof (hfok_snoc_inv _ _ _ OK) as [OKo H].
    destruct C as [[_ ->]|[[_ ->]|[[-> ->]|[L ->]]]]; try apply sub_refl.
    + rewrite !hf_at_snoc. destruct (n <? b); [apply sub_refl|apply sub_lor_r].
    + rewrite (hf_at_snoc (_ ++ _)). destruct (N.ltb_spec n b); [apply sub_refl|].
      rewrite hf_at_snoc. rewrite (proj2 (N.ltb_ge n lb)) by lia. apply sub_lor_r.
Qed.

(** state of the hardfork list after a history *)
Lemma hf_trace evs m : mtrace evs m ->
  mt_hardfork m = match announced evs with
                  | [] => None
                  | a => Some (fold_left (fun l x => hf_push l (fst x) (snd x)) a []) end.
Proof.
  induction 1 as [|evs m ev m' T IH O E]; [done|].
  rewrite announced_app. destruct ev; cbn in E; cbn [announced]; rewrite ?app_nil_r.
  - apply append_inv in E as (_ & _ & _ & _ & ->). done.
  - apply count_inv in E as (? & ? & ? & _ & _ & _ & ->). done.
  - injection E as <-. done.
  - injection E as <-. done.
  - injection E as <-. cbn [mt_hardfork set_hardfork_info]. unfold set_hardfork_info. cbn [mt_hardfork]. rewrite IH.
    destruct (announced evs) as [|a r] eqn:A; [done|].
    change ((a :: r) ++ [(b, f)]) with (a :: (r ++ [(b, f)])). cbn [fold_left]. rewrite fold_left_app. done.
Qed.

Definition hf_run (anns : list (N * N)) : list (N * N) := fold_left (fun l x => hf_push l (fst x) (snd x)) anns [].
Lemma hf_run_snoc a x : hf_run (a ++ [x]) = hf_push (hf_run a) (fst x) (snd x).
Proof. unfold hf_run. by rewrite fold_left_app. Qed.
Lemma hf_run_ok a : hfok (hf_run a).
Proof.
  induction a as [|x a IH] using rev_ind; [constructor|]. rewrite hf_run_snoc. by apply hfok_push.
Qed.

Lemma info_run evs m n : mtrace evs m -> hardfork_info m n = hf_at (hf_run (announced evs)) n.
Proof. intros T. unfold hardfork_info. rewrite (hf_trace _ _ T). by destruct (announced evs). Qed.

(** A flag active at a block is active at every later block. *)
Theorem C43_monotone : forall evs m n n' k, mtrace evs m -> n <= n' -> active m n k -> active m n' k.
Proof.
  intros evs m n n' k T L. unfold active. rewrite !(info_run _ _ _ T).
  apply hf_mono; [apply hf_run_ok|done].
Qed.

(** Nothing that happens later switches an active flag off, at any block. *)
Theorem C43_permanent : forall evs evs' m m' n k, mtrace evs m -> mtrace (evs ++ evs') m' -> 
  active m n k -> active m' n k.
Proof.
  intros evs evs' m m' n k T T'. unfold active.
  rewrite (info_run _ _ _ T), (info_run _ _ _ T'), announced_app.
  generalize (announced evs). intros a. generalize (announced evs'). intros b.
  induction b as [|x b IH] using rev_ind; [by rewrite app_nil_r|].
  intros H. rewrite app_assoc, hf_run_snoc. apply hf_push_grows; [apply hf_run_ok|]. by apply IH.
Qed.

(** A flag is active at a block only if it was announced for that block or an earlier one. *)
Theorem C43_not_before : forall evs m n k, mtrace evs m -> active m n k ->
  exists b f, In (EvHardfork b f) evs /\ b <= n /\ N.testbit f k = true.
Proof.
  intros evs m n k T. unfold active. rewrite (info_run _ _ _ T).
  assert (G : forall a, N.testbit (hf_at (hf_run a) n) k = true ->
               exists b f, In (b, f) a /\ b <= n /\ N.testbit f k = true).
  { intros a. assert (Q : forall b f, In (b, f) (hf_run a) -> N.testbit f k = true ->
               exists b' f', In (b', f') a /\ b' <= b /\ N.testbit f' k = true).
    { induction a as [|[b0 f0] a IH] using rev_ind; [intros ? ? []|].
      rewrite hf_run_snoc. intros b f I K. cbn [fst snd] in I.
      assert (W : forall b f, In (b, f) (hf_run a) -> N.testbit f k = true ->
         exists b' f', In (b', f') (a ++ [(b0, f0)]) /\ b' <= b /\ N.testbit f' k = true).
      { intros b1 f1 I1 K1. destruct (IH _ _ I1 K1) as (b' & f' & X & Y). exists b', f'.
        split; [apply in_app_iff; by left|done]. }
      assert (W0 : forall lb lf, In (lb, lf) (hf_run a) -> lb <= b0 -> N.testbit (N.lor f0 lf) k = true ->
         exists b' f', In (b', f') (a ++ [(b0, f0)]) /\ b' <= b0 /\ N.testbit f' k = true).
      { intros lb lf I1 LE K1. rewrite N.lor_spec in K1. apply orb_true_iff in K1 as [K1|K1].
        - exists b0, f0. split; [apply in_app_iff; right; by left|]. split; [lia|done].
        - destruct (W _ _ I1 K1) as (b' & f' & X & Y & Z). exists b', f'. split; [done|]. split; [lia|done]. }
      destruct (hf_push_cases (hf_run a) b0 f0) as [[E E2]|(o & lb & lf & E & C)].
      - rewrite E2 in I. destruct I as [[= <- <-]|[]]. exists b0, f0.
        split; [apply in_app_iff; right; by left|]. split; [lia|done].
      - assert (IL : In (lb, lf) (hf_run a)) by (rewrite E; apply in_app_iff; right; by left).
        destruct C as [[_ E2]|[[_ E2]|[[L E2]|[L E2]]]]; rewrite E2 in I.
        + by apply W in I.
        + by apply W in I.
        + subst lb. apply in_app_iff in I as [I|[[= <- <-]|[]]].
          * eapply W; [|done]. rewrite E. apply in_app_iff. by left.
          * eapply W0; [exact IL|lia|done].
        + apply in_app_iff in I as [I|[[= <- <-]|[]]].
          * by apply W in I.
          * eapply W0; [exact IL|lia|done]. }
    intros H. destruct (hf_at_in (hf_run a) n) as [Z|(b & B & LE)].
    - rewrite Z, N.bits_0 in H. done.
    - destruct (Q _ _ B H) as (b' & f' & X & Y & W). exists b', f'. split; [done|]. split; [lia|done]. }
  intros H. apply G in H as (b & f & I & R). exists b, f. split; [|done].
  clear -I. induction evs as [|[] evs IH]; cbn in *; try (right; auto; done).
  - done.
  - destruct I as [[= <- <-]|I]; [by left|right; auto].
Qed.

(** When announcements are made in order of their activation blocks, a flag is active at a
    block exactly when it was announced for that block or an earlier one. *)
Theorem C43_exact_partial : forall evs m n k, mtrace evs m ->
  (forall i j a c, announced evs !! i = Some a -> announced evs !! j = Some c -> (i < j)%nat -> fst a <= fst c) ->
  active m n k <-> exists b f, In (b, f) (announced evs) /\ b <= n /\ N.testbit f k = true.
Proof.
  intros evs m n k T S. split.
  { intros H. apply (C43_not_before _ _ _ _ T) in H as (b & f & I & R). exists b, f. split; [|done].
    clear -I. induction evs as [|ev evs IH]; [done|].
    destruct I as [->|I]; [by left|]. apply IH in I. destruct ev; cbn; try done. by right. }
  unfold active. rewrite (info_run _ _ _ T). revert S. generalize (announced evs). clear.
  intros a. induction a as [|[b0 f0] a IH] using rev_ind; intros S (b & f & I & L & K); [done|].
  rewrite hf_run_snoc. cbn [fst snd].
  assert (S' : forall i j a0 c, a !! i = Some a0 -> a !! j = Some c -> (i < j)%nat -> fst a0 <= fst c).
  { intros i j a0 c Ia Ja. apply (S i j); by apply lookup_app_l_Some. }
  assert (MX : forall b f, In (b, f) a -> b <= b0).
  { intros b1 f1 I1. apply elem_of_list_In, elem_of_list_lookup in I1 as [i I1].
    apply (S i (length a) (b1, f1) (b0, f0)).
    - by apply lookup_app_l_Some.
    - rewrite lookup_app_r, Nat.sub_diag by lia. done.
    - by apply lookup_lt_Some in I1. }
  assert (MR : forall b f, In (b, f) (hf_run a) -> b <= b0).
  { clear -MX. induction a as [|[b1 f1] a IH] using rev_ind; [intros ? ? []|].
    rewrite hf_run_snoc. cbn [fst snd]. intros b f I.
    assert (MX' : forall b f, In (b, f) a -> b <= b0).
    { intros b2 f2 I2. apply (MX b2 f2). apply in_app_iff. by left. }
    specialize (IH MX'). assert (b1 <= b0) by (apply (MX b1 f1), in_app_iff; right; by left).
    destruct (hf_push_cases (hf_run a) b1 f1) as [[E E2]|(o & lb & lf & E & C)].
    - rewrite E2 in I. destruct I as [[= <- <-]|[]]. done.
    - destruct C as [[_ E2]|[[_ E2]|[[L E2]|[L E2]]]]; rewrite E2 in I; try (by eapply IH).
      + apply in_app_iff in I as [I|[[= <- <-]|[]]]; [|done].
        eapply IH. rewrite E. apply in_app_iff. by left.
      + apply in_app_iff in I as [I|[[= <- <-]|[]]]; [|done]. by eapply IH. }
  apply in_app_iff in I as [I|[[= -> ->]|[]]].
  - apply hf_push_grows; [apply hf_run_ok|]. apply IH; [done|]. by exists b, f.
  - destruct (hf_push_cases (hf_run a) b f) as [[E E2]|(o & lb & lf & E & C)].
    + rewrite E2. change [(b, f)] with ([] ++ [(b, f)]). rewrite hf_at_snoc.
      by rewrite (proj2 (N.ltb_ge n b)) by lia.
    + assert (LB : lb <= b) by (apply (MR lb lf); rewrite E; apply in_app_iff; right; by left).
      destruct C as [[Q E2]|[[Q E2]|[[Q E2]|[Q E2]]]]; rewrite E2.
      * rewrite E, hf_at_snoc. rewrite (proj2 (N.ltb_ge n lb)) by lia. rewrite <- Q. by apply sub_lor_l.
      * lia.
      * rewrite hf_at_snoc. rewrite (proj2 (N.ltb_ge n b)) by lia. by apply sub_lor_l.
      * rewrite hf_at_snoc. rewrite (proj2 (N.ltb_ge n b)) by lia. by apply sub_lor_l.
Qed.

(** An announcement for an earlier block than one already recorded is dropped for good: its flag is
    never active. *)
Theorem C43_dropped_refuted : exists evs m k, mtrace evs m /\ In (EvHardfork 100 (2^k)) evs /\
  forall n, ~ active m n k.
Proof.
  eexists [EvHardfork 200 ANDROMEDA; EvHardfork 100 (2^57)], _, 57. split; [|split].
  - eapply (MT_S [EvHardfork 200 ANDROMEDA]); [|exact I|reflexivity].
    eapply (MT_S []); [constructor|exact I|reflexivity].
  - right. left. reflexivity.
  - intros n. unfold active, hardfork_info. cbn [mt_hardfork set_hardfork_info meta0].
    change (hf_push [(200, ANDROMEDA)] 100 (2 ^ 57)) with ([] ++ [(200, ANDROMEDA)]).
    rewrite hf_at_snoc. destruct (n <? 200); vm_compute; done.
Qed.

Example C43_ex : mtrace ex_evs ex_meta /\ ~ active ex_meta 129 56 /\ active ex_meta 130 56 /\ active ex_meta 9999 56.
Proof. split; [apply ex_trace|]. unfold active. repeat split; vm_compute; done. Qed.

(* ------------------------------------------------------------------------ *)
(** * C56 *)

Fixpoint appended (evs : list mevent) : list metadata :=
  match evs with
  | [] => []
  | EvAppend _ md :: r => md :: appended r
  | _ :: r => appended r
  end.
Lemma appended_app a b : appended (a ++ b) = appended a ++ appended b.
Proof. induction a as [|[]]; cbn; try done. by rewrite IHa. Qed.

Lemma appended_length evs m : mtrace evs m -> length (mt_segment m) = S (length (appended evs)).
Proof.
  induction 1 as [|evs m ev m' T IH O E]; [done|].
  rewrite appended_app, app_length. destruct ev; cbn in E; cbn [appended length].
  - apply append_inv in E as (_ & _ & _ & _ & ->). cbn [mt_segment]. rewrite app_length, IH. cbn. lia.
  - apply count_inv in E as (? & ? & ? & _ & _ & _ & ->). cbn [mt_segment]. lia.
  - injection E as <-. cbn. lia.
  - injection E as <-. cbn. lia.
  - injection E as <-. cbn. lia.
Qed.

Lemma bump_keys l a l' : bump l a = Ok l' -> map fst l' = map fst l.
Proof.
  revert l'. induction l as [|[x n] l IH]; cbn; intros l' E; [by injection E as <-|].
  destruct (beqb x a).
  - destruct (n =? U64_MAX); [done|]. by injection E as <-.
  - destruct (bump l a) eqn:B; try done. injection E as <-. cbn. f_equal. by apply IH.
Qed.

(** The k-th appended epoch reads back with its version, validators and weights unchanged, and
    its counters are exactly those of its validators' addresses. *)
Theorem C56_reads_back_partial : forall evs m k md, mtrace evs m ->
  appended evs !! k = Some md ->
  exists got, get_metadata m (N.of_nat k) = Ok got /\
    mi_epoch (md_inner got) = N.of_nat k /\ mi_epoch (md_inner md) = N.of_nat k /\
    mi_start (md_inner got) = mi_start (md_inner md) /\
    mi_end (md_inner got) = mi_end (md_inner md) /\
    mi_verifiers (md_inner got) = mi_verifiers (md_inner md) /\
    List.NoDup (map fst (mi_counter (md_inner got))) /\
    forall a, In a (map fst (mi_counter (md_inner got))) <-> exists v, In v (mi_verifiers (md_inner md)) /\ v_address v = a.
Proof.
  intros evs m k md T L.
  assert (G : exists i, mt_inner m !! N.of_nat k = Some i /\
    mi_epoch i = N.of_nat k /\ mi_epoch (md_inner md) = N.of_nat k /\
    mi_start i = mi_start (md_inner md) /\ mi_end i = mi_end (md_inner md) /\
    mi_verifiers i = mi_verifiers (md_inner md) /\
    map fst (mi_counter i) = btree_keys (map v_address (mi_verifiers (md_inner md)))).
  { revert k md L. induction T as [|evs m ev m' T IH O E]; intros k md L; [done|].
    apply mtrace_inv in T as I. pose proof (appended_length _ _ T) as LEN.
    rewrite appended_app in L. destruct ev as [hf md0|n a|hf c|c|b f]; cbn in E; cbn [appended] in L; rewrite ?app_nil_r in L.
    - pose proof (append_epoch _ _ _ _ I E) as EP. apply append_inv in E as (_ & _ & _ & _ & ->). cbn [mt_inner].
      apply lookup_app_Some in L as [L|[LE L]].
      + apply lookup_lt_Some in L as LK. rewrite lookup_insert_ne by lia. by apply IH.
      + destruct (k - length (appended evs))%nat eqn:K; [|done]. cbn in L. injection L as <-.
        assert (mi_epoch (md_inner md0) = N.of_nat k) as EK by lia. rewrite EK, lookup_insert.
        eexists. split; [reflexivity|]. cbn. repeat split; try done.
        rewrite map_map. cbn. by rewrite map_id.
    - apply count_inv in E as (e & i & c & _ & LI & B & ->). cbn [mt_inner].
      destruct (IH _ _ L) as (i0 & L0 & R). pose proof (mi_ent _ I _ _ LI) as (EI & _).
      rewrite EI. destruct (decide (e = N.of_nat k)) as [->|N].
      + rewrite lookup_insert. rewrite L0 in LI. injection LI as <-.
        eexists. split; [reflexivity|]. cbn. apply bump_keys in B. rewrite B. split; [done|exact (proj2 R)].
      + rewrite lookup_insert_ne by done. eauto.
    - injection E as <-. cbn. by apply IH.
    - injection E as <-. cbn. by apply IH.
    - injection E as <-. cbn. by apply IH. }
  destruct G as (i & LI & R). apply mtrace_inv in T as I. destruct (inner_config _ _ _ I LI) as [c C].
  exists (Metadata_ i c). unfold get_metadata, get_metadata_inner. rewrite LI, C. cbn.
  destruct R as (R1 & R2 & R3 & R4 & R5 & R6). rewrite R6.
  pose proof (btree_keys_spec (map v_address (mi_verifiers (md_inner md)))) as [K1 K2].
  repeat split; try done.
  - intros J. apply K2, in_map_iff in J as (v & <- & V). eauto.
  - intros (v & V & <-). apply K2, in_map_iff. eauto.
Qed.

(** The consensus configuration is not stored per epoch: the one reported with a past epoch is the
    one written last. *)
Theorem C56_config_refuted : exists evs m md got, mtrace evs m /\ appended evs !! 0%nat = Some md /\
  get_metadata m 0 = Ok got /\ cf_gas_limit (cf_base (md_config got)) <> cf_gas_limit (cf_base (md_config md)).
Proof.
  set (c2 := Config_ (Config0_ 1 2 3 4 5 6 7 8) 9).
  eexists [EvAppend 0 (ex_md 0 1 100); EvConfig 0 c2], _, _, _. split; [|split; [|split]].
  - eapply (MT_S [EvAppend 0 (ex_md 0 1 100)]); [|exact I|reflexivity].
    eapply (MT_S []); [constructor|vm_compute; discriminate|vm_compute; reflexivity].
  - reflexivity.
  - vm_compute. reflexivity.
  - vm_compute. discriminate.
Qed.

(** What is reported is the last written configuration; before the Andromeda hardfork its contract size
    limit is replaced by the default. *)
Theorem C56_config_current : forall evs m ev m', mtrace evs m -> ev_ok ev -> mapply m ev = Ok m' ->
  forall hf c, (exists md, ev = EvAppend hf md /\ md_config md = c) \/ ev = EvConfig hf c ->
  exists c', get_consensus_config m' = Ok c' /\ cf_base c' = cf_base c /\
    (N.testbit hf 56 = true -> c' = c) /\
    (N.testbit hf 56 = false -> cf_max_contract c' = 0x6000).
Proof.
  intros evs m ev m' T O E hf c H.
  assert (G : mt_config m' = Some (encode_config hf c)).
  { destruct H as [(md & -> & <-)| ->]; cbn in E.
    - apply append_inv in E as (_ & _ & _ & _ & ->). done.
    - injection E as <-. done. }
  unfold get_consensus_config. rewrite G. eexists. split; [reflexivity|].
  assert (EN : enabled ANDROMEDA hf = N.testbit hf 56).
  { unfold enabled, ANDROMEDA. destruct (N.testbit hf 56) eqn:B.
    - apply N.eqb_eq. apply N.bits_inj. intros k. rewrite N.land_spec, N.pow2_bits_eqb.
      destruct (N.eqb_spec 56 k) as [<-|]; [by rewrite B|done].
    - apply N.eqb_neq. intros Q. apply (f_equal (fun x => N.testbit x 56)) in Q.
      rewrite N.land_spec, N.pow2_bits_eqb, B in Q. by rewrite N.eqb_refl in Q. }
  unfold encode_config. rewrite EN. destruct (N.testbit hf 56); cbn; repeat split; try done.
Qed.

Example C56_ex : mtrace ex_evs ex_meta /\ appended ex_evs !! 1%nat = Some (ex_md 1 101 150) /\
  exists got, get_metadata ex_meta 1 = Ok got /\ mi_counter (md_inner got) = [(repeat 1 20, 0); (repeat 2 20, 1)].
Proof. split; [apply ex_trace|]. split; [done|]. eexists. split; vm_compute; reflexivity. Qed.

Print Assumptions C28_lookup.
Print Assumptions C28_total.
Print Assumptions C28_genesis.
Print Assumptions C28_contiguous.
Print Assumptions C28_append.
Print Assumptions C28_append_refused.
Print Assumptions C28_segment_codec.
Print Assumptions C28_genesis_start_refuted.
Print Assumptions C28_append_panics_refuted.
Print Assumptions C43_monotone.
Print Assumptions C43_permanent.
Print Assumptions C43_not_before.
Print Assumptions C43_exact_partial.
Print Assumptions C43_dropped_refuted.
Print Assumptions C56_reads_back_partial.
Print Assumptions C56_config_refuted.
Print Assumptions C56_config_current.
