(** C51, C63: block filters and log filters. *)
From Verif Require Import Bytes TxModel ApiModel ApiProps.
From stdpp Require Import base gmap list.
From Coq Require Import Lia.
#[local] Open Scope N_scope.

(* ---------------------------------------------------------------------- *)
(** * Specification *)

(** the hashes of the blocks above [a] up to [b] *)
Definition hashes (c : chain) (a b : N) : list N := map ab_hash (filter (fun k => a < ab_number k /\ ab_number k <= b) (ch_blocks c)).

(** what the polls of filter [id] returned in a run, in order *)
Definition blocks_of (id : N) (tr : list (fev * option answer)) : list N :=
  flat_map (fun ea => match ea with (FPoll i _, Some (ABlocks l)) => if i =? id then l else [] | _ => [] end) tr.
Definition logs_of (id : N) (tr : list (fev * option answer)) : list wlog :=
  flat_map (fun ea => match ea with (FPoll i _, Some (ALogs l)) => if i =? id then l else [] | _ => [] end) tr.

(** the random id is not drawn again *)
Definition fresh (id : N) (es : list fev) : Prop :=
  Forall (fun e => match e with FNewBlocks i _ => i <> id | FNewLogs i _ _ => i <> id | _ => True end) es.

(* ---------------------------------------------------------------------- *)
(** * Runs *)

Definition grown (es : list fev) : list ablock := omap (fun e => match e with FGrow b => Some b | _ => None end) es.
Lemma fstep_chain r s e : fs_chain (fstep r s e).1 = Chain (ch_blocks (fs_chain s) ++ grown [e]) (ch_receipts (fs_chain s)).
Proof.
  assert (E : Chain (ch_blocks (fs_chain s) ++ []) (ch_receipts (fs_chain s)) = fs_chain s) by (rewrite app_nil_r; by destruct (fs_chain s)).
  destruct e as [id g|id f g|id g|id g| |dt|b]; cbn -[fh_alive]; rewrite ?E; try done.
  - destruct (fh_alive _); [|done]. unfold reply. destruct (match new_blocks _ _ _ _ with Ok _ => _ | _ => _ end) as [[h a]| |]; [destruct g|..]; done.
  - destruct (bad_range f); [done|]. destruct (fh_alive _); [|done]. unfold reply. destruct (match new_logs _ _ _ _ _ with Ok _ => _ | _ => _ end) as [[h a]| |]; [destruct g|..]; done.
  - destruct (fh_alive _); [|done]. unfold reply. destruct (poll _ _ _ _ _) as [[h a]| |]; [destruct g|..]; done.
  - destruct (fh_alive _); [|done]. destruct (uninstall _ _). unfold reply. by destruct g.
  - by destruct (fh_alive _).
Qed.
Lemma frun_cons r s e es :
  frun r s (e :: es) = ((frun r (fstep r s e).1 es).1, (e, (fstep r s e).2) :: (frun r (fstep r s e).1 es).2).
Proof. cbn [frun]. destruct (fstep r s e) as [s1 a]. cbn. by destruct (frun r s1 es). Qed.
Lemma frun_app r es1 es2 : forall s,
  frun r s (es1 ++ es2) = ((frun r (frun r s es1).1 es2).1, (frun r s es1).2 ++ (frun r (frun r s es1).1 es2).2).
Proof.
  induction es1 as [|e es1 IH]; intros s; [cbn; by destruct (frun r s es2)|]. cbn [app]. rewrite !frun_cons, IH. done.
Qed.
Lemma frun_chain r es : forall s, fs_chain (frun r s es).1 = Chain (ch_blocks (fs_chain s) ++ grown es) (ch_receipts (fs_chain s)).
Proof.
  induction es as [|e es IH]; intros s; [cbn; rewrite app_nil_r; by destruct (fs_chain s)|].
  rewrite frun_cons. cbn [fst]. rewrite IH, fstep_chain. cbn [ch_blocks ch_receipts]. rewrite <- app_assoc. f_equal. f_equal.
  unfold grown. by destruct e.
Qed.
Lemma wf_prefix bs more rs : bs <> [] -> wf_chain (Chain (bs ++ more) rs) -> wf_chain (Chain bs rs).
Proof. intros Hne [_ H]. split; [done|]. cbn in *. intros k b Hk. apply H. by apply lookup_app_l_Some. Qed.
Lemma tip_len c : wf_chain c -> tip c + 1 = N.of_nat (length (ch_blocks c)).
Proof. intros [Hne _]. unfold tip. destruct (ch_blocks c); [done|cbn; lia]. Qed.
Lemma fstep_wf r s e : ch_blocks (fs_chain s) <> [] -> wf_chain (fs_chain (fstep r s e).1) -> wf_chain (fs_chain s).
Proof. intros Hne. rewrite fstep_chain. intros H. apply wf_prefix in H; [|done]. by destruct (fs_chain s). Qed.
Lemma fstep_ne r s e : ch_blocks (fs_chain s) <> [] -> ch_blocks (fs_chain (fstep r s e).1) <> [].
Proof. intros Hne. rewrite fstep_chain. cbn. destruct (ch_blocks (fs_chain s)); done. Qed.
Lemma frun_wf r es : forall s, ch_blocks (fs_chain s) <> [] -> wf_chain (fs_chain (frun r s es).1) -> wf_chain (fs_chain s).
Proof. intros s Hne. rewrite frun_chain. intros H. apply wf_prefix in H; [|done]. by destruct (fs_chain s). Qed.
Lemma fstep_tip r s e : wf_chain (fs_chain s) -> tip (fs_chain s) <= tip (fs_chain (fstep r s e).1).
Proof. intros H. rewrite fstep_chain. unfold tip. cbn. rewrite app_length. lia. Qed.

(** growing the chain does not change a list of old blocks *)
Lemma filter_grow c b (P : ablock -> Prop) `{forall x, Decision (P x)} :
  ~ P b -> filter P (ch_blocks c ++ [b]) = filter P (ch_blocks c).
Proof. intros Hp. rewrite filter_app, filter_cons, decide_False by done. apply app_nil_r. Qed.
Lemma grow_number c b : wf_chain (Chain (ch_blocks c ++ [b]) (ch_receipts c)) -> ch_blocks c <> [] -> ab_number b = tip c + 1.
Proof.
  intros [_ H] Hne. specialize (H (length (ch_blocks c)) b). cbn in H. rewrite list_lookup_middle in H by done. rewrite H by done.
  unfold tip. destruct (ch_blocks c); [done|cbn; lia].
Qed.

(* ---------------------------------------------------------------------- *)
(** * Block filters *)

Lemma hashes_loop_spec c : forall left n, (N.to_nat n + left <= length (ch_blocks c))%nat ->
  hashes_loop left n c = Ok (map ab_hash (take left (drop (N.to_nat n) (ch_blocks c)))).
Proof.
  induction left as [|left IH]; intros n Hlen; cbn [hashes_loop]; [by rewrite take_0|].
  destruct (lookup_lt_is_Some_2 (ch_blocks c) (N.to_nat n)) as [b Hb]; [lia|]. unfold block_at. rewrite Hb.
  rewrite IH by lia. rewrite (drop_S _ _ _ Hb). cbn. do 4 f_equal. f_equal. lia.
Qed.
(** the blocks above [a] up to the tip *)
Lemma above_segment c a b : wf_chain c -> filter (fun k => a < ab_number k /\ ab_number k <= b) (ch_blocks c) = take (span (a + 1) b) (drop (N.to_nat (a + 1)) (ch_blocks c)).
Proof. intros Hwf. rewrite <- range_segment by done. apply filter_same. intros x _. lia. Qed.
Lemma hashes_split c a m b : wf_chain c -> a <= m -> m <= b -> hashes c a b = hashes c a m ++ hashes c m b.
Proof.
  intros Hwf Ha Hb. unfold hashes. rewrite <- map_app. f_equal. rewrite !above_segment by done. unfold span.
  replace (N.to_nat (b + 1 - (a + 1))) with (N.to_nat (m + 1 - (a + 1)) + N.to_nat (b + 1 - (m + 1)))%nat by lia.
  rewrite <- take_take_drop, drop_drop. do 2 f_equal. f_equal. lia.
Qed.
Lemma hashes_self c a : hashes c a a = [].
Proof. unfold hashes. rewrite filter_false; [done|]. intros b _. lia. Qed.

Lemma filter_block_spec c now id start time h :
  wf_chain c -> start <= tip c ->
  exists h', filter_block c now id start time h = Ok (h', hashes c start (tip c)) /\
    (if decide (start < tip c) then h' = Hub (fh_logs h) (<[id := (tip c, now)]> (fh_blocks h)) (fh_alive h) else h' = h).
Proof.
  intros Hwf Hs. unfold filter_block. destruct (tip_block c Hwf) as (lb & Hlb & Hnum & Hat). rewrite Hlb, Hnum. pose proof (tip_len c Hwf) as Hlen.
  destruct (N.leb_spec (tip c) start) as [Hle|Hlt].
  - exists h. rewrite decide_False by lia. assert (start = tip c) as -> by lia. by rewrite hashes_self.
  - rewrite hashes_loop_spec by lia. eexists. split; [|by rewrite decide_True by done]. do 2 f_equal.
    unfold hashes. rewrite above_segment by done. rewrite (segment_tip c (start + 1) (tip c) lb Hwf Hlb) by lia. rewrite decide_True by done.
    rewrite map_app. cbn. f_equal. f_equal.
    replace (span (start + 1) (tip c)) with (S (N.to_nat (tip c - (start + 1)))) by (unfold span; lia).
    assert (Hd : length (drop (N.to_nat (start + 1)) (ch_blocks c)) = S (N.to_nat (tip c - (start + 1)))) by (rewrite drop_length; lia).
    rewrite (take_S_r _ _ lb).
    2:{ rewrite lookup_drop, <- Hat. f_equal. lia. }
    rewrite filter_app, filter_true.
    2:{ intros b [j Hj]%elem_of_list_lookup. apply lookup_take_Some in Hj as [Hj Hjlt]. rewrite lookup_drop in Hj. apply (proj2 Hwf) in Hj. lia. }
    rewrite filter_false; [by rewrite app_nil_r|]. intros b ->%elem_of_list_singleton. rewrite Hnum. tauto.
Qed.

(** the filter is at [p]: everything above [n0] up to [p] was returned *)
Definition at_block (id n0 : N) (s : fstate) (got : list N) : Prop :=
  ch_blocks (fs_chain s) <> [] /\
  exists p, n0 <= p /\ p <= tip (fs_chain s) /\ got = hashes (fs_chain s) n0 p /\
    (fh_alive (fs_hub s) = true -> fh_logs (fs_hub s) !! id = None /\ forall start t, fh_blocks (fs_hub s) !! id = Some (start, t) -> start = p).

Lemma poll_block_step r id n0 s got g :
  wf_chain (fs_chain s) -> at_block id n0 s got ->
  match (fstep r s (FPoll id g)).2 with
  | Some (ABlocks l) => at_block id n0 (fstep r s (FPoll id g)).1 (got ++ l) /\ got ++ l = hashes (fs_chain s) n0 (tip (fs_chain s))
  | _ => at_block id n0 (fstep r s (FPoll id g)).1 got
  end.
Proof.
  intros Hwf (Hne & p & H1 & H2 & Hg & Hh). cbn [fstep]. destruct (fh_alive (fs_hub s)) eqn:Ea; cbn [snd fst].
  2:{ split; [done|]. exists p. rewrite Ea. done. }
  destruct (Hh eq_refl) as [Hl Hs]. unfold poll. destruct (fh_blocks (fs_hub s) !! id) as [[start t]|] eqn:Eb.
  - assert (start = p) as -> by (by eapply Hs).
    destruct (filter_block_spec (fs_chain s) (fs_now s) id p t (fs_hub s) Hwf H2) as (h' & Hf & Hh'). rewrite Hf. cbn [reply].
    destruct g; cbn [snd fst].
    + split; [done|]. exists p. cbn. done.
    + assert (Hall : got ++ hashes (fs_chain s) p (tip (fs_chain s)) = hashes (fs_chain s) n0 (tip (fs_chain s))).
      { rewrite Hg. symmetry. by apply hashes_split. }
      split; [|done]. split; [done|]. exists (tip (fs_chain s)). cbn. split; [lia|]. split; [lia|]. split; [done|].
      case_decide as Hd; subst h'; cbn.
      * intros _. split; [done|]. intros start t'. rewrite lookup_insert. naive_solver.
      * intros _. split; [done|]. intros start t' Hst. rewrite Eb in Hst. assert (start = p) by naive_solver. lia.
  - rewrite Hl. cbn [reply]. destruct g; cbn [snd fst]; (split; [done|]; exists p; cbn).
    + done.
    + rewrite Ea, Eb. done.
Qed.

(** other events do not touch the position *)
Lemma other_block_step r id n0 s got e :
  wf_chain (fs_chain (fstep r s e).1) -> at_block id n0 s got ->
  match e with FNewBlocks i _ => i <> id | FNewLogs i _ _ => i <> id | FPoll i _ => i <> id | _ => True end ->
  at_block id n0 (fstep r s e).1 got.
Proof.
  intros Hwf (Hne & p & H1 & H2 & Hg & Hh) He.
  assert (Hsame : forall h, fs_chain (fstep r s e).1 = fs_chain s -> fs_hub (fstep r s e).1 = h ->
    (fh_alive h = true -> fh_logs h !! id = None /\ forall start t, fh_blocks h !! id = Some (start, t) -> start = p) -> at_block id n0 (fstep r s e).1 got).
  { intros h Hc Hh' Hk. split; [by rewrite Hc|]. exists p. rewrite Hc, Hh'. done. }
  assert (Hnoop : fstep r s e = (s, (fstep r s e).2) -> at_block id n0 (fstep r s e).1 got).
  { intros E. rewrite E. split; [done|]. by exists p. }
  destruct e as [i g|i f g|i g|i g| |dt|b]; cbn [fstep] in *.
  - destruct (fh_alive (fs_hub s)) eqn:Ea; [|by apply Hnoop]. destruct (Hh eq_refl) as [Hl Hs]. unfold new_blocks in *.
    destruct (latest_block (fs_chain s)) as [hd|]; cbn [reply] in *; [destruct g|]; cbn in *; (eapply Hsame; [done|done|]); cbn; try done.
    intros _. split; [done|]. intros start t. rewrite lookup_insert_ne by done. apply Hs.
  - destruct (bad_range f); [by apply Hnoop|]. destruct (fh_alive (fs_hub s)) eqn:Ea; [|by apply Hnoop]. destruct (Hh eq_refl) as [Hl Hs]. unfold new_logs in *.
    destruct (latest_block (fs_chain s)) as [hd|]; cbn [reply] in *; [destruct g|]; cbn in *; (eapply Hsame; [done|done|]); cbn; try done.
    intros _. split; [|done]. rewrite lookup_insert_ne by done. done.
  - destruct (fh_alive (fs_hub s)) eqn:Ea; [|by apply Hnoop]. destruct (Hh eq_refl) as [Hl Hs].
    destruct (poll (fs_chain s) r (fs_now s) i (fs_hub s)) as [[h a]| |] eqn:Ep; cbn [reply] in *.
    2,3: eapply Hsame; [done|done|]; cbn; done.
    destruct g; (eapply Hsame; [done|done|]); cbn; [done|]. intros _.
    unfold poll in Ep. destruct (fh_blocks (fs_hub s) !! i) as [[st t]|] eqn:Eb.
    + destruct (filter_block _ _ _ _ _ _) as [[h' l]| |] eqn:Ef; [|done|done]. injection Ep as <- <-.
      unfold filter_block in Ef. destruct (latest_block _) as [lb|]; [|done]. destruct (_ <=? _); [injection Ef as <- <-; done|].
      destruct (hashes_loop _ _ _); [|done|done]. injection Ef as <- <-. cbn. split; [done|]. intros start t'. rewrite lookup_insert_ne by done. apply Hs.
    + destruct (fh_logs (fs_hub s) !! i) as [[f t]|] eqn:El.
      * destruct (filter_logs _ _ _) as [[[f'|] l]| |]; [| | |done]; injection Ep as <- <-; cbn; (split; [|done]).
        -- by rewrite lookup_insert_ne by done.
        -- done.
        -- by rewrite lookup_delete_ne by done.
      * injection Ep as <- <-. done.
  - destruct (fh_alive (fs_hub s)) eqn:Ea; [|by apply Hnoop]. destruct (Hh eq_refl) as [Hl Hs]. unfold uninstall in *.
    destruct (fh_blocks (fs_hub s) !! i) as [[st t]|] eqn:Eb; cbn [reply] in *; (destruct g; (eapply Hsame; [done|done|]); cbn; [done|]); intros _.
    + split; [done|]. intros start t'. intros Hd. apply lookup_delete_Some in Hd as [_ Hd]. by eapply Hs.
    + split; [|done]. apply lookup_delete_None. by right.
  - destruct (fh_alive (fs_hub s)) eqn:Ea; [|by apply Hnoop]. destruct (Hh eq_refl) as [Hl Hs]. eapply Hsame; [done|done|]. cbn. intros _. split.
    + apply map_filter_lookup_None. by left.
    + intros start t Hst. apply map_filter_lookup_Some in Hst as [Hst _]. by eapply Hs.
  - eapply Hsame; done.
  - cbn in Hwf. assert (Hb : ab_number b = tip (fs_chain s) + 1) by (by apply grow_number).
    split; [cbn; by destruct (ch_blocks (fs_chain s))|]. exists p. cbn. split; [done|]. split; [unfold tip in *; cbn; rewrite app_length; lia|]. split; [|done].
    rewrite Hg. unfold hashes. cbn. rewrite filter_grow; [done|]. rewrite Hb. lia.
Qed.

Lemma block_run r id n0 es : forall s got,
  wf_chain (fs_chain (frun r s es).1) -> at_block id n0 s got -> fresh id es ->
  at_block id n0 (frun r s es).1 (got ++ blocks_of id (frun r s es).2).
Proof.
  induction es as [|e es IH]; intros s got Hwf Hat Hf; [cbn; by rewrite app_nil_r|].
  rewrite frun_cons in *. cbn [fst snd] in *. inversion Hf as [|? ? He Hf']; subst.
  assert (Hwf1 : wf_chain (fs_chain (fstep r s e).1)) by (apply frun_wf in Hwf; [done|by apply fstep_ne, Hat]).
  assert (Hwf0 : wf_chain (fs_chain s)) by (apply fstep_wf in Hwf1; [done|by apply Hat]).
  destruct (match e with FPoll i _ => i =? id | _ => false end) eqn:Ep.
  - destruct e as [| |i g| | | |]; try done. apply N.eqb_eq in Ep as ->. pose proof (poll_block_step r id n0 s got g Hwf0 Hat) as Hs.
    change (blocks_of id ((FPoll id g, (fstep r s (FPoll id g)).2) :: (frun r (fstep r s (FPoll id g)).1 es).2)) with
      ((match (fstep r s (FPoll id g)).2 with Some (ABlocks l) => if id =? id then l else [] | _ => [] end) ++ blocks_of id (frun r (fstep r s (FPoll id g)).1 es).2).
    rewrite N.eqb_refl. destruct ((fstep r s (FPoll id g)).2) as [[]|]; try (apply IH; done).
    rewrite app_assoc. apply IH; [done|apply Hs|done].
  - assert (Hb : blocks_of id ((e, (fstep r s e).2) :: (frun r (fstep r s e).1 es).2) = blocks_of id (frun r (fstep r s e).1 es).2).
    { unfold blocks_of. cbn [flat_map]. destruct e as [| |i g| | | |]; try done. rewrite Ep. by destruct ((fstep r s (FPoll i g)).2) as [[]|]. }
    rewrite Hb. apply IH; [done| |done]. apply other_block_step; [done|done|]. destruct e; try done. by apply N.eqb_neq.
Qed.

(** The state right after a block filter was created. *)
Lemma created_block r s id :
  wf_chain (fs_chain s) -> fh_alive (fs_hub s) = true -> fh_logs (fs_hub s) !! id = None ->
  (fstep r s (FNewBlocks id false)).2 = Some (AId id) /\ at_block id (tip (fs_chain s)) (fstep r s (FNewBlocks id false)).1 [].
Proof.
  intros Hwf Ha Hl. cbn [fstep]. rewrite Ha. unfold new_blocks. destruct (tip_block _ Hwf) as (lb & Hlb & Hnum & _). rewrite Hlb, Hnum. cbn. split; [done|].
  split; [apply Hwf|]. exists (tip (fs_chain s)). cbn. split; [lia|]. split; [lia|]. split; [by rewrite hashes_self|]. intros _. split; [done|].
  intros start t. rewrite lookup_insert. naive_solver.
Qed.

(** Whatever happens after the creation of a block filter, its polls together return an initial part of the blocks appended since, in
    order and each once; and after a poll that was answered, all of them. *)
Theorem C51_once r s id es s' tr :
  fh_alive (fs_hub s) = true -> fh_logs (fs_hub s) !! id = None -> ch_blocks (fs_chain s) <> [] -> fresh id es ->
  frun r s (FNewBlocks id false :: es) = (s', tr) -> wf_chain (fs_chain s') ->
  let n0 := tip (fs_chain s) in
  (exists p, n0 <= p /\ p <= tip (fs_chain s') /\ blocks_of id tr = hashes (fs_chain s') n0 p) /\
  (forall g l, last tr = Some (FPoll id g, Some (ABlocks l)) -> blocks_of id tr = hashes (fs_chain s') n0 (tip (fs_chain s'))).
Proof.
  intros Ha Hl Hne Hf Hrun Hwf n0. rewrite frun_cons in Hrun. apply pair_equal_spec in Hrun as [<- <-]. set (s1 := (fstep r s (FNewBlocks id false)).1) in *.
  assert (Hne1 : ch_blocks (fs_chain s1) <> []) by (by apply fstep_ne).
  assert (Hwf1 : wf_chain (fs_chain s1)) by (by apply frun_wf in Hwf). assert (Hwf0 : wf_chain (fs_chain s)) by (by apply fstep_wf in Hwf1).
  destruct (created_block r s id Hwf0 Ha Hl) as [Hid Hat]. fold s1 n0 in Hat.
  assert (Hb : forall t, blocks_of id ((FNewBlocks id false, (fstep r s (FNewBlocks id false)).2) :: t) = blocks_of id t) by done. rewrite Hb.
  clear Hb Hid. clearbody s1. split.
  - destruct (block_run r id n0 es s1 [] Hwf Hat Hf) as (_ & p & H1 & H2 & H3 & _). by exists p.
  - intros g l. destruct es as [|e es _] using rev_ind; [done|]. rewrite last_cons. rewrite frun_app in *. cbn [fst snd] in *. rewrite last_app.
    apply Forall_app in Hf as [Hf1 Hf2]. set (s2 := (frun r s1 es).1) in *. rewrite frun_cons in *. cbn [fst snd frun last] in *. intros [= -> Hans].
    assert (Hne2 : ch_blocks (fs_chain s2) <> []). { unfold s2. rewrite frun_chain. cbn. by destruct (ch_blocks (fs_chain s1)). }
    assert (Hwf2 : wf_chain (fs_chain s2)) by (by apply fstep_wf in Hwf).
    pose proof (block_run r id n0 es s1 [] Hwf2 Hat Hf1) as Hat2. pose proof (poll_block_step r id n0 s2 _ g Hwf2 Hat2) as Hs.
    rewrite Hans in Hs. destruct Hs as [_ Hs]. unfold blocks_of at 1. rewrite flat_map_app. fold (blocks_of id (frun r s1 es).2). cbn [flat_map]. rewrite Hans, N.eqb_refl, app_nil_r.
    cbn [app] in Hs. rewrite Hs. rewrite fstep_chain. cbn. rewrite app_nil_r. by destruct (fs_chain s2).
Qed.

(** A filter that is installed in a living hub is always answered. *)
Theorem C51_answered r s id es s' tr e :
  fh_alive (fs_hub s) = true -> fh_logs (fs_hub s) !! id = None -> ch_blocks (fs_chain s) <> [] -> fresh id es ->
  frun r s (FNewBlocks id false :: es) = (s', tr) -> wf_chain (fs_chain s') ->
  fh_alive (fs_hub s') = true -> fh_blocks (fs_hub s') !! id = Some e ->
  exists l, (fstep r s' (FPoll id false)).2 = Some (ABlocks l) /\ blocks_of id tr ++ l = hashes (fs_chain s') (tip (fs_chain s)) (tip (fs_chain s')).
Proof.
  intros Ha Hl Hne Hf Hrun Hwf Ha' He. rewrite frun_cons in Hrun. apply pair_equal_spec in Hrun as [<- <-]. set (s1 := (fstep r s (FNewBlocks id false)).1) in *.
  assert (Hne1 : ch_blocks (fs_chain s1) <> []) by (by apply fstep_ne).
  assert (Hwf1 : wf_chain (fs_chain s1)) by (by apply frun_wf in Hwf). assert (Hwf0 : wf_chain (fs_chain s)) by (by apply fstep_wf in Hwf1).
  destruct (created_block r s id Hwf0 Ha Hl) as [Hid Hat]. fold s1 in Hat. clearbody s1.
  pose proof (block_run r id _ es s1 [] Hwf Hat Hf) as Hat'. set (s2 := (frun r s1 es).1) in *.
  pose proof (poll_block_step r id _ s2 _ false Hwf Hat') as Hs.
  change (blocks_of id ((FNewBlocks id false, (fstep r s (FNewBlocks id false)).2) :: (frun r s1 es).2)) with (blocks_of id (frun r s1 es).2).
  assert (Hans : exists l, (fstep r s2 (FPoll id false)).2 = Some (ABlocks l)).
  { cbn [fstep]. rewrite Ha'. unfold poll. rewrite He. destruct e as [start t]. destruct Hat' as (_ & p & _ & Hp & _ & Hh). destruct (Hh Ha') as [_ Hst].
    rewrite (Hst start t He). destruct (filter_block_spec (fs_chain s2) (fs_now s2) id p t (fs_hub s2) Hwf Hp) as (h' & Hfb & _). rewrite Hfb. cbn. by eexists. }
  destruct Hans as [l Hl']. exists l. split; [done|]. rewrite Hl' in Hs. apply Hs.
Qed.

(** The loop of filter_logs. *)
Lemma filter_loop_spec c latest ts addrs : wf_chain c -> latest = tip c -> forall left n seen, (N.to_nat n + left <= length (ch_blocks c))%nat ->
  filter_loop left n latest c ts addrs seen =
  Ok (concat (map (block_all_logs c ts addrs) (filter (fun b => ab_number b <> latest) (take left (drop (N.to_nat n) (ch_blocks c))))),
      seen || (0 <? N.of_nat left) && (n + N.of_nat left =? latest + 1)).
Proof.
  intros Hwf Hl. induction left as [|left IH]; intros n seen Hlen; cbn [filter_loop].
  - rewrite take_0. cbn. by rewrite orb_false_r.
  - destruct (lookup_lt_is_Some_2 (ch_blocks c) (N.to_nat n)) as [b Hb]; [lia|].
    assert (Hd : drop (N.to_nat n) (ch_blocks c) = b :: drop (N.to_nat (n + 1)) (ch_blocks c)).
    { rewrite (drop_S _ _ _ Hb). do 2 f_equal. lia. }
    assert (Hnb : ab_number b = n) by (apply (proj2 Hwf) in Hb; lia). pose proof (tip_len c Hwf) as Htip. rewrite <- Hl in Htip.
    rewrite Hd. cbn [take]. rewrite filter_cons, Hnb. destruct (N.eqb_spec n latest) as [En|En].
    + rewrite decide_False by tauto. assert (left = O) as -> by lia. rewrite IH by lia.
      assert (Ex : (n + N.of_nat 1 =? latest + 1) = true) by (apply N.eqb_eq; lia). rewrite Ex. cbn. by rewrite orb_true_r.
    + rewrite decide_True by done. unfold block_at. rewrite Hb, IH by lia. cbn [map concat]. do 3 f_equal.
      replace (n + 1 + N.of_nat left) with (n + N.of_nat (S left)) by lia.
      destruct (n + N.of_nat (S left) =? latest + 1) eqn:E; [|by rewrite !andb_false_r].
      apply N.eqb_eq in E. rewrite !andb_true_r. apply eq_true_iff_eq. rewrite !N.ltb_lt. lia.
Qed.
Lemma filter_logs_spec c r f :
  wf_chain c -> (length (lf_topics f) <= 4)%nat ->
  let k := resolve (tip c) (lf_from f) in let stop := N.min (resolve (tip c) (lf_to f)) (tip c) in
  filter_logs c r f =
  if tip c <? k then Ok (None, [])
  else if r <? stop - k then Err
  else Ok (Some (match lf_from f with Some (BNum _) => LFilter (Some (BNum (stop + 1))) (lf_to f) (lf_addr f) (lf_topics f) | _ => f end),
           expected c (default [] (lf_addr f)) (lf_topics f) (filter (fun b => k <= ab_number b /\ ab_number b <= stop) (ch_blocks c))).
Proof.
  intros Hwf Hlen k stop. unfold filter_logs. destruct (tip_block c Hwf) as (lb & Hlb & Hnum & Hat). rewrite Hlb. cbv zeta. rewrite !resolve_convert, Hnum. fold k stop.
  destruct (N.ltb_spec (tip c) k) as [H1|H1]; [done|]. destruct (N.ltb_spec r (stop - k)) as [H2|H2]; [done|].
  pose proof (tip_len c Hwf) as Htip.
  rewrite (filter_loop_spec c (tip c) _ _ Hwf eq_refl) by (unfold span; lia). rewrite range_segment, expected_blocks by done. do 2 f_equal.
  assert (Hseg : take (span k stop) (drop (N.to_nat k) (ch_blocks c)) =
    filter (fun b => ab_number b <> tip c) (take (span k stop) (drop (N.to_nat k) (ch_blocks c))) ++ (if decide (stop = tip c) then [lb] else [])).
  { apply segment_tip; [done|done|lia|lia]. }
  set (low := filter (fun b => ab_number b <> tip c) _) in *. rewrite Hseg, map_app, concat_app. f_equal.
  cbn [orb]. destruct (decide (stop = tip c)) as [Ee|Ee].
  - assert (Ex : (0 <? N.of_nat (span k stop)) && (k + N.of_nat (span k stop) =? tip c + 1) = true).
    { unfold span. apply andb_true_intro. rewrite N.ltb_lt, N.eqb_eq. lia. }
    rewrite Ex. cbn. by rewrite app_nil_r.
  - assert (Ex : (0 <? N.of_nat (span k stop)) && (k + N.of_nat (span k stop) =? tip c + 1) = false).
    { unfold span. apply andb_false_iff. rewrite N.ltb_ge, N.eqb_neq. lia. }
    by rewrite Ex.
Qed.

(* ---------------------------------------------------------------------- *)
(** * How long a filter lasts *)

Definition client_gone (e : fev) : bool :=
  match e with FNewBlocks _ g | FPoll _ g | FUninstall _ g => g | FNewLogs _ f g => negb (bad_range f) && g | _ => false end.
(** every stored filter has a starting block that exists and at most four topic positions *)
Definition hub_ok (s : fstate) : Prop :=
  (forall id start t, fh_blocks (fs_hub s) !! id = Some (start, t) -> start <= tip (fs_chain s)) /\
  (forall id f t, fh_logs (fs_hub s) !! id = Some (f, t) -> (length (lf_topics f) <= 4)%nat).
Definition few_pos (e : fev) : Prop := match e with FNewLogs _ f _ => (length (lf_topics f) <= 4)%nat | _ => True end.

Lemma poll_ok c r now id h :
  wf_chain c -> (forall id start t, fh_blocks h !! id = Some (start, t) -> start <= tip c) ->
  (forall id f t, fh_logs h !! id = Some (f, t) -> (length (lf_topics f) <= 4)%nat) ->
  exists h' a, poll c r now id h = Ok (h', a) /\ fh_alive h' = fh_alive h /\
    (forall id start t, fh_blocks h' !! id = Some (start, t) -> start <= tip c) /\
    (forall id f t, fh_logs h' !! id = Some (f, t) -> (length (lf_topics f) <= 4)%nat).
Proof.
  intros Hwf Hb Hl. unfold poll. destruct (fh_blocks h !! id) as [[start t]|] eqn:Eb.
  - destruct (filter_block_spec c now id start t h Hwf (Hb _ _ _ Eb)) as (h' & Hf & Hh'). rewrite Hf. eexists _, _. split; [done|].
    case_decide; subst h'; cbn; [|done]. split; [done|]. split; [|done]. intros i st t'. destruct (decide (i = id)) as [->|].
    + rewrite lookup_insert. intros [= <- <-]. lia.
    + rewrite lookup_insert_ne by done. apply Hb.
  - destruct (fh_logs h !! id) as [[f t]|] eqn:El; [|by eexists _, _]. rewrite filter_logs_spec by (done || by eapply Hl). cbv zeta.
    destruct (_ <? _); [by eexists _, _|]. destruct (_ <? _); eexists _, _; (split; [done|]); cbn; (split; [done|]; split; [done|]); intros i f' t'.
    + intros Hd. apply lookup_delete_Some in Hd as [_ Hd]. by eapply Hl.
    + destruct (decide (i = id)) as [->|].
      * rewrite lookup_insert. intros [= <- <-]. pose proof (Hl _ _ _ El). destruct (lf_from f) as [[]|]; done.
      * rewrite lookup_insert_ne by done. apply Hl.
Qed.
(** The hub's task goes on until it has to answer a client that is gone. *)
Theorem C51_alive r s e :
  wf_chain (fs_chain (fstep r s e).1) -> ch_blocks (fs_chain s) <> [] -> hub_ok s -> few_pos e ->
  hub_ok (fstep r s e).1 /\ fh_alive (fs_hub (fstep r s e).1) = fh_alive (fs_hub s) && negb (client_gone e).
Proof.
  intros Hwf' Hne [Hb Hl] Hfp. pose proof (fstep_wf r s e Hne Hwf') as Hwf. destruct (tip_block _ Hwf) as (lb & Hlb & Hnum & _).
  assert (Hself : forall a, fh_alive (fs_hub s) && negb (client_gone e) = fh_alive (fs_hub s) -> fstep r s e = (s, a) ->
    hub_ok (fstep r s e).1 /\ fh_alive (fs_hub (fstep r s e).1) = fh_alive (fs_hub s) && negb (client_gone e)).
  { intros a Ea Es. rewrite Es. done. }
  destruct e as [i g|i f g|i g|i g| |dt|b]; cbn [fstep client_gone] in *.
  - destruct (fh_alive (fs_hub s)) eqn:Ea; [|by eapply Hself]. unfold new_blocks. rewrite Hlb. destruct g; cbn; (split; [|done]);
      (split; cbn; [|done]); intros id st t; (destruct (decide (id = i)) as [->|]; [rewrite lookup_insert; intros [= <- <-]; lia|rewrite lookup_insert_ne by done; apply Hb]).
  - destruct (bad_range f); [eapply Hself; [apply andb_true_r|done]|]. destruct (fh_alive (fs_hub s)) eqn:Ea; [|by eapply Hself]. unfold new_logs. rewrite Hlb.
    destruct g; cbn; (split; [|done]); (split; cbn; [done|]); intros id f' t;
      (destruct (decide (id = i)) as [->|]; [rewrite lookup_insert|rewrite lookup_insert_ne by done; apply Hl]);
      (intros [= <- <-]; cbn in Hfp; destruct (default BLatest (lf_from f)); try destruct (_ <? _); done).
  - destruct (fh_alive (fs_hub s)) eqn:Ea; [|by eapply Hself].
    destruct (poll_ok (fs_chain s) r (fs_now s) i (fs_hub s) Hwf Hb Hl) as (h' & a & Hp & Ha' & Hb' & Hl'). rewrite Hp. cbn. destruct g; cbn; [done|].
    split; [done|]. by rewrite Ha', Ea.
  - destruct (fh_alive (fs_hub s)) eqn:Ea; [|by eapply Hself]. unfold uninstall. destruct (fh_blocks (fs_hub s) !! i) as [v|]; cbn; destruct g; cbn; (split; [|done]); (split; cbn; [|]); try done;
      intros id st t Hd; apply lookup_delete_Some in Hd as [_ Hd]; eauto.
  - rewrite andb_true_r. destruct (fh_alive (fs_hub s)) eqn:Ea; [|done]. cbn. split; [|done]. split; cbn; intros id x t Hx; apply map_filter_lookup_Some in Hx as [Hx _]; eauto.
  - rewrite andb_true_r. done.
  - rewrite andb_true_r. split; [|done]. split; [|done]. cbn. intros id st t Hst. apply Hb in Hst. unfold tip in *. cbn. rewrite app_length. lia.
Qed.

Definition polls (id : N) (e : fev) : bool := match e with FPoll i _ => i =? id | _ => false end.
(** A block filter in a living hub stays until it is uninstalled, or a timer fires 40 s after its creation or its last poll that had
    something to return. *)
Theorem C51_kept r s e id start t :
  wf_chain (fs_chain s) -> hub_ok s -> fh_blocks (fs_hub s) !! id = Some (start, t) -> fresh id [e] ->
  (forall g, e <> FUninstall id g) -> (e = FTimer -> fs_now s - t < EXPIRE) -> fh_alive (fs_hub (fstep r s e).1) = true ->
  fh_blocks (fs_hub (fstep r s e).1) !! id =
  Some (if polls id e && (start <? tip (fs_chain s)) then (tip (fs_chain s), fs_now s) else (start, t)).
Proof.
  intros Hwf [Hb Hl] He Hf Hun Htm Hal. inversion Hf as [|? ? Hfe _]; subst. destruct (tip_block _ Hwf) as (lb & Hlb & Hnum & _).
  destruct e as [i g|i f g|i g|i g| |dt|b]; cbn [fstep polls andb] in *.
  - destruct (fh_alive (fs_hub s)) eqn:Ea; [|done]. unfold new_blocks in *. rewrite Hlb in *. destruct g; [done|]. cbn. by rewrite lookup_insert_ne.
  - destruct (bad_range f); [done|]. destruct (fh_alive (fs_hub s)) eqn:Ea; [|done]. unfold new_logs in *. rewrite Hlb in *. by destruct g.
  - destruct (fh_alive (fs_hub s)) eqn:Ea; [|cbn in Hal; congruence]. unfold poll in *. destruct (N.eqb_spec i id) as [->|Hi].
    + rewrite He in *. destruct (filter_block_spec (fs_chain s) (fs_now s) id start t (fs_hub s) Hwf (Hb _ _ _ He)) as (h' & Hfb & Hh'). rewrite Hfb in *.
      cbn in *. destruct g; [done|]. cbn. destruct (N.ltb_spec start (tip (fs_chain s))).
      * rewrite decide_True in Hh' by done. subst h'. cbn. by rewrite lookup_insert.
      * rewrite decide_False in Hh' by lia. by subst h'.
    + cbn. destruct (fh_blocks (fs_hub s) !! i) as [[st t']|] eqn:Ei.
      * destruct (filter_block_spec (fs_chain s) (fs_now s) i st t' (fs_hub s) Hwf (Hb _ _ _ Ei)) as (h' & Hfb & Hh'). rewrite Hfb in *.
        cbn in *. destruct g; [done|]. cbn. case_decide; subst h'; cbn; [by rewrite lookup_insert_ne|done].
      * destruct (fh_logs (fs_hub s) !! i) as [[f t']|].
        -- destruct (filter_logs (fs_chain s) r f) as [[[f'|] l]| |]; cbn in *; destruct g; done.
        -- cbn in *. by destruct g.
  - destruct (fh_alive (fs_hub s)) eqn:Ea; [|cbn in Hal; congruence]. unfold uninstall in *.
    assert (i <> id) by (intros ->; by eapply Hun).
    destruct (fh_blocks (fs_hub s) !! i) as [v|]; cbn in *; destruct g; cbn; try done. by rewrite lookup_delete_ne.
  - destruct (fh_alive (fs_hub s)) eqn:Ea; [|done]. cbn. apply map_filter_lookup_Some. split; [done|]. cbn. by apply Htm.
  - done.
  - done.
Qed.

(* ---------------------------------------------------------------------- *)
(** * Log filters *)

(** the first block a new log filter looks at, and whether block [n] is within its [toBlock] *)
Definition first_block (c : chain) (f : lfilter) : N :=
  match lf_from f with Some (BNum n) => if n <? tip c then tip c + 1 else n | _ => tip c + 1 end.
Definition within (to : option bid) (n : N) : bool := match to with Some (BNum m) => n <=? m | Some BEarliest => n <=? 0 | _ => true end.
(** the blocks of interest below [q] *)
Definition wanted (c : chain) (from : N) (to : option bid) (q : N) : list ablock :=
  filter (fun b => from <= ab_number b /\ within to (ab_number b) = true /\ ab_number b < q) (ch_blocks c).
Definition matching (c : chain) (f : lfilter) (from q : N) : list wlog :=
  expected c (default [] (lf_addr f)) (lf_topics f) (wanted c from (lf_to f) q).

Lemma expected_app c addrs ts b1 b2 : expected c addrs ts (b1 ++ b2) = expected c addrs ts b1 ++ expected c addrs ts b2.
Proof. unfold expected. by rewrite map_app, concat_app, filter_app. Qed.
Lemma filter_at c q (P : ablock -> Prop) `{forall x, Decision (P x)} :
  wf_chain c -> filter (fun b => P b /\ ab_number b < q) (ch_blocks c) ++ filter (fun b => P b /\ q <= ab_number b) (ch_blocks c) = filter P (ch_blocks c).
Proof.
  intros [_ Hn]. rewrite <- (take_drop (N.to_nat q) (ch_blocks c)), !filter_app.
  assert (H1 : forall b, b ∈ take (N.to_nat q) (ch_blocks c) -> ab_number b < q).
  { intros b [j Hj]%elem_of_list_lookup. apply lookup_take_Some in Hj as [Hj Hlt]. apply Hn in Hj. lia. }
  assert (H2 : forall b, b ∈ drop (N.to_nat q) (ch_blocks c) -> q <= ab_number b).
  { intros b [j Hj]%elem_of_list_lookup. rewrite lookup_drop in Hj. apply Hn in Hj. lia. }
  rewrite (filter_false _ (drop _ _)) by (intros b Hb%H2; lia). rewrite (filter_false (fun b => P b /\ q <= ab_number b) (take _ _)) by (intros b Hb%H1; lia).
  rewrite app_nil_r. cbn [app]. f_equal; apply filter_same; intros b Hb; [apply H1 in Hb|apply H2 in Hb]; tauto.
Qed.
Lemma number_tip c b : wf_chain c -> b ∈ ch_blocks c -> ab_number b <= tip c.
Proof. intros Hwf [j Hj]%elem_of_list_lookup. pose proof (proj2 Hwf _ _ Hj). apply lookup_lt_Some in Hj. unfold tip. lia. Qed.

Lemma matching_split c f from q :
  wf_chain c -> matching c f from (tip c + 1) =
  matching c f from q ++ expected c (default [] (lf_addr f)) (lf_topics f) (filter (fun b => (from <= ab_number b /\ within (lf_to f) (ab_number b) = true) /\ q <= ab_number b) (ch_blocks c)).
Proof.
  intros Hwf. unfold matching. rewrite <- expected_app. f_equal. unfold wanted.
  transitivity (filter (fun b => from <= ab_number b /\ within (lf_to f) (ab_number b) = true) (ch_blocks c)).
  - apply filter_same. intros b Hb. pose proof (number_tip c b Hwf Hb). split; [tauto|]. intros [? ?]. split; [done|]. split; [done|lia].
  - rewrite <- (filter_at c q _ Hwf). f_equal. apply filter_same. intros b _. tauto.
Qed.

Definition at_log (id : N) (f0 : lfilter) (from0 : N) (s : fstate) (got : list wlog) : Prop :=
  ch_blocks (fs_chain s) <> [] /\
  exists q, q <= tip (fs_chain s) + 1 /\ got = matching (fs_chain s) f0 from0 q /\
    (fh_alive (fs_hub s) = true -> fh_blocks (fs_hub s) !! id = None /\
     forall f t, fh_logs (fs_hub s) !! id = Some (f, t) ->
       exists k, f = LFilter (Some (BNum k)) (lf_to f0) (lf_addr f0) (lf_topics f0) /\
                 forall n, within (lf_to f0) n = true -> k <= n <-> q <= n /\ from0 <= n).

Lemma within_min to tp n : within to n = true -> n <= tp -> n <= N.min (resolve tp to) tp.
Proof. destruct to as [[]|]; cbn; intros H Hn; try lia; apply N.leb_le in H; lia. Qed.
Lemma within_resolve to tp n : n <= N.min (resolve tp to) tp -> within to n = true.
Proof. destruct to as [[]|]; cbn; intros Hn; try done; apply N.leb_le; lia. Qed.
Lemma within_above to tp n : within to n = true -> N.min (resolve tp to) tp < n -> tp < n.
Proof. destruct to as [[]|]; cbn; intros H Hn; try lia; apply N.leb_le in H; lia. Qed.

Lemma poll_log_step r id f0 from0 s got g :
  wf_chain (fs_chain s) -> (length (lf_topics f0) <= 4)%nat -> at_log id f0 from0 s got ->
  match (fstep r s (FPoll id g)).2 with
  | Some (ALogs l) => at_log id f0 from0 (fstep r s (FPoll id g)).1 (got ++ l) /\ got ++ l = matching (fs_chain s) f0 from0 (tip (fs_chain s) + 1)
  | _ => at_log id f0 from0 (fstep r s (FPoll id g)).1 got
  end.
Proof.
  intros Hwf Hts (Hne & q & Hq & Hg & Hh). cbn [fstep]. destruct (fh_alive (fs_hub s)) eqn:Ea; cbn [snd fst].
  2:{ split; [done|]. exists q. rewrite Ea. done. }
  destruct (Hh eq_refl) as [Hb Hs]. unfold poll. rewrite Hb. destruct (fh_logs (fs_hub s) !! id) as [[f t]|] eqn:El.
  2:{ cbn [reply]. destruct g; cbn [snd fst]; (split; [done|]; exists q; cbn); [done|]. rewrite Ea, El. done. }
  destruct (Hs f t eq_refl) as (k & Hfk & Hk). subst f.
  rewrite filter_logs_spec by done. cbn [lf_from lf_to lf_addr lf_topics resolve]. cbv zeta. set (c := fs_chain s) in *. set (stop := N.min (resolve (tip c) (lf_to f0)) (tip c)).
  destruct (N.ltb_spec (tip c) k) as [H1|H1]; [|destruct (N.ltb_spec r (stop - k)) as [H2|H2]].
  - cbn [reply]. destruct g; cbn [snd fst].
    + split; [done|]. exists q. cbn. done.
    + rewrite app_nil_r. split.
      * split; [done|]. exists q. cbn. rewrite El, Ea, Hb. split; [done|]. split; [done|]. intros _. split; [done|]. intros f t' [= <- <-]. by exists k.
      * rewrite (matching_split c f0 from0 q Hwf), filter_false, app_nil_r; [done|].
        intros b Hin [[Hf Hw] Hqb]. pose proof (number_tip c b Hwf Hin). assert (k <= ab_number b) by (by apply Hk). lia.
  - cbn [reply]. destruct g; cbn [snd fst]; (split; [done|]; exists q; cbn); [done|]. split; [done|]. split; [done|]. intros _. split; [done|].
    intros f t'. by rewrite lookup_delete.
  - cbn [reply]. set (l := expected _ _ _ _).
    assert (Hall : got ++ l = matching c f0 from0 (tip c + 1)).
    { rewrite (matching_split c f0 from0 q Hwf), Hg. f_equal. unfold l. f_equal. apply filter_same. intros b Hin. pose proof (number_tip c b Hwf Hin) as Hbt. split.
      - intros [Hkb Hsb]. pose proof (within_resolve _ _ _ Hsb) as Hw. destruct (proj1 (Hk _ Hw) Hkb). done.
      - intros [[Hf Hw] Hqb]. split; [by apply Hk|]. by apply within_min. }
    destruct g; cbn [snd fst].
    + split; [done|]. exists q. cbn. done.
    + split; [|done]. split; [done|]. exists (tip c + 1). cbn. fold c. split; [lia|]. split; [done|]. intros _. split; [done|].
      intros f t'. rewrite lookup_insert. intros [= <- <-]. exists (stop + 1). split; [done|]. intros n Hw. split.
      * intros Hn. assert (tip c < n) by (eapply within_above; [done|]; fold stop; lia). split; [lia|].
        destruct (proj1 (Hk n Hw)); [lia|done].
      * intros [Hn _]. unfold stop. lia.
Qed.

Lemma other_log_step r id f0 from0 s got e :
  wf_chain (fs_chain (fstep r s e).1) -> at_log id f0 from0 s got ->
  match e with FNewBlocks i _ => i <> id | FNewLogs i _ _ => i <> id | FPoll i _ => i <> id | _ => True end ->
  at_log id f0 from0 (fstep r s e).1 got.
Proof.
  intros Hwf (Hne & q & H2 & Hg & Hh) He.
  set (inv := fun h : hub => fh_alive h = true -> fh_blocks h !! id = None /\
     forall f t, fh_logs h !! id = Some (f, t) ->
       exists k, f = LFilter (Some (BNum k)) (lf_to f0) (lf_addr f0) (lf_topics f0) /\
                 forall n, within (lf_to f0) n = true -> k <= n <-> q <= n /\ from0 <= n).
  assert (Hsame : forall h, fs_chain (fstep r s e).1 = fs_chain s -> fs_hub (fstep r s e).1 = h -> inv h -> at_log id f0 from0 (fstep r s e).1 got).
  { intros h Hc Hh' Hk. split; [by rewrite Hc|]. exists q. rewrite Hc, Hh'. done. }
  assert (Hnoop : fstep r s e = (s, (fstep r s e).2) -> at_log id f0 from0 (fstep r s e).1 got).
  { intros E. rewrite E. split; [done|]. by exists q. }
  destruct e as [i g|i f g|i g|i g| |dt|b]; cbn [fstep] in *.
  - destruct (fh_alive (fs_hub s)) eqn:Ea; [|by apply Hnoop]. destruct (Hh eq_refl) as [Hl Hs]. unfold new_blocks in *.
    destruct (latest_block (fs_chain s)) as [hd|]; cbn [reply] in *; [destruct g|]; cbn in *; (eapply Hsame; [done|done|]); unfold inv; cbn; try done.
    intros _. split; [|done]. by rewrite lookup_insert_ne by done.
  - destruct (bad_range f); [by apply Hnoop|]. destruct (fh_alive (fs_hub s)) eqn:Ea; [|by apply Hnoop]. destruct (Hh eq_refl) as [Hl Hs]. unfold new_logs in *.
    destruct (latest_block (fs_chain s)) as [hd|]; cbn [reply] in *; [destruct g|]; cbn in *; (eapply Hsame; [done|done|]); unfold inv; cbn; try done.
    intros _. split; [done|]. intros f' t. rewrite lookup_insert_ne by done. apply Hs.
  - destruct (fh_alive (fs_hub s)) eqn:Ea; [|by apply Hnoop]. destruct (Hh eq_refl) as [Hl Hs].
    destruct (poll (fs_chain s) r (fs_now s) i (fs_hub s)) as [[h a]| |] eqn:Ep; cbn [reply] in *.
    2,3: eapply Hsame; [done|done|]; unfold inv; cbn; done.
    destruct g; (eapply Hsame; [done|done|]); unfold inv; cbn; [done|]. intros _.
    unfold poll in Ep. destruct (fh_blocks (fs_hub s) !! i) as [[st t]|] eqn:Eb.
    + destruct (filter_block _ _ _ _ _ _) as [[h' l]| |] eqn:Ef; [|done|done]. injection Ep as <- <-.
      unfold filter_block in Ef. destruct (latest_block _) as [lb|]; [|done]. destruct (_ <=? _); [injection Ef as <- <-; done|].
      destruct (hashes_loop _ _ _); [|done|done]. injection Ef as <- <-. cbn. split; [|done]. by rewrite lookup_insert_ne by done.
    + destruct (fh_logs (fs_hub s) !! i) as [[f t]|] eqn:El.
      * destruct (filter_logs _ _ _) as [[[f'|] l]| |]; [| | |done]; injection Ep as <- <-; cbn; (split; [done|]).
        -- intros f1 t1. rewrite lookup_insert_ne by done. apply Hs.
        -- done.
        -- intros f1 t1. rewrite lookup_delete_ne by done. apply Hs.
      * injection Ep as <- <-. done.
  - destruct (fh_alive (fs_hub s)) eqn:Ea; [|by apply Hnoop]. destruct (Hh eq_refl) as [Hl Hs]. unfold uninstall in *.
    destruct (fh_blocks (fs_hub s) !! i) as [[st t]|] eqn:Eb; cbn [reply] in *; (destruct g; (eapply Hsame; [done|done|]); unfold inv; cbn; [done|]); intros _.
    + split; [|done]. apply lookup_delete_None. by right.
    + split; [done|]. intros f1 t'. intros Hd. apply lookup_delete_Some in Hd as [_ Hd]. by eapply Hs.
  - destruct (fh_alive (fs_hub s)) eqn:Ea; [|by apply Hnoop]. destruct (Hh eq_refl) as [Hl Hs]. eapply Hsame; [done|done|]. unfold inv. cbn. intros _. split.
    + apply map_filter_lookup_None. by left.
    + intros f1 t Hst. apply map_filter_lookup_Some in Hst as [Hst _]. by eapply Hs.
  - eapply Hsame; done.
  - cbn in Hwf. assert (Hb : ab_number b = tip (fs_chain s) + 1) by (by apply grow_number).
    split; [cbn; by destruct (ch_blocks (fs_chain s))|]. exists q. cbn. split; [unfold tip in *; cbn; rewrite app_length; lia|]. split; [|done].
    rewrite Hg. unfold matching, wanted. cbn [ch_blocks]. rewrite filter_grow; [done|]. rewrite Hb. lia.
Qed.

Lemma log_run r id f0 from0 es : (length (lf_topics f0) <= 4)%nat -> forall s got,
  wf_chain (fs_chain (frun r s es).1) -> at_log id f0 from0 s got -> fresh id es ->
  at_log id f0 from0 (frun r s es).1 (got ++ logs_of id (frun r s es).2).
Proof.
  intros Hts. induction es as [|e es IH]; intros s got Hwf Hat Hf; [cbn; by rewrite app_nil_r|].
  rewrite frun_cons in *. cbn [fst snd] in *. inversion Hf as [|? ? He Hf']; subst.
  assert (Hwf1 : wf_chain (fs_chain (fstep r s e).1)) by (apply frun_wf in Hwf; [done|by apply fstep_ne, Hat]).
  assert (Hwf0 : wf_chain (fs_chain s)) by (apply fstep_wf in Hwf1; [done|by apply Hat]).
  destruct (match e with FPoll i _ => i =? id | _ => false end) eqn:Ep.
  - destruct e as [| |i g| | | |]; try done. apply N.eqb_eq in Ep as ->. pose proof (poll_log_step r id f0 from0 s got g Hwf0 Hts Hat) as Hs.
    change (logs_of id ((FPoll id g, (fstep r s (FPoll id g)).2) :: (frun r (fstep r s (FPoll id g)).1 es).2)) with
      ((match (fstep r s (FPoll id g)).2 with Some (ALogs l) => if id =? id then l else [] | _ => [] end) ++ logs_of id (frun r (fstep r s (FPoll id g)).1 es).2).
    rewrite N.eqb_refl. destruct ((fstep r s (FPoll id g)).2) as [[]|]; try (apply IH; done).
    rewrite app_assoc. apply IH; [done|apply Hs|done].
  - assert (Hb : logs_of id ((e, (fstep r s e).2) :: (frun r (fstep r s e).1 es).2) = logs_of id (frun r (fstep r s e).1 es).2).
    { unfold logs_of. cbn [flat_map]. destruct e as [| |i g| | | |]; try done. rewrite Ep. by destruct ((fstep r s (FPoll i g)).2) as [[]|]. }
    rewrite Hb. apply IH; [done| |done]. apply other_log_step; [done|done|]. destruct e; try done. by apply N.eqb_neq.
Qed.

Lemma created_log r s id f :
  wf_chain (fs_chain s) -> fh_alive (fs_hub s) = true -> fh_blocks (fs_hub s) !! id = None -> bad_range f = false ->
  (fstep r s (FNewLogs id f false)).2 = Some (AId id) /\ at_log id f (first_block (fs_chain s) f) (fstep r s (FNewLogs id f false)).1 [].
Proof.
  intros Hwf Ha Hb Hbad. cbn [fstep]. rewrite Ha, Hbad. unfold new_logs. destruct (tip_block _ Hwf) as (lb & Hlb & Hnum & _). rewrite Hlb, Hnum. cbn. split; [done|].
  split; [apply Hwf|]. exists 0. cbn. split; [lia|]. split.
  { unfold matching, wanted. rewrite filter_false; [done|]. intros b _. lia. }
  intros _. split; [done|]. intros f' t. rewrite lookup_insert. intros [= <- <-]. exists (first_block (fs_chain s) f). split.
  - unfold first_block. destruct f as [from to addr ts]. cbn. destruct from as [[n| | | |]|]; cbn; try done. by destruct (n <? tip (fs_chain s)).
  - intros n _. split; [|tauto]. intros H. split; [lia|done].
Qed.

(** A log filter in a living hub stays until it is uninstalled, one of its polls is refused, or a timer fires 40 s after its creation or
    its last poll that had blocks to look at. *)
Theorem C63_kept r s e id f t :
  wf_chain (fs_chain s) -> hub_ok s -> fh_blocks (fs_hub s) !! id = None -> fh_logs (fs_hub s) !! id = Some (f, t) -> fresh id [e] ->
  (forall g, e <> FUninstall id g) -> (e = FTimer -> fs_now s - t < EXPIRE) -> fh_alive (fs_hub (fstep r s e).1) = true ->
  (polls id e = true -> (fstep r s e).2 <> Some AError) ->
  exists f' t', fh_logs (fs_hub (fstep r s e).1) !! id = Some (f', t') /\
    (polls id e = false -> f' = f /\ t' = t) /\ (polls id e = true -> if resolve (tip (fs_chain s)) (lf_from f) <=? tip (fs_chain s) then t' = fs_now s else f' = f /\ t' = t).
Proof.
  intros Hwf [Hb Hl] Hnb He Hf Hun Htm Hal Hpo. inversion Hf as [|? ? Hfe _]; subst. destruct (tip_block _ Hwf) as (lb & Hlb & Hnum & _).
  assert (Hkeep : polls id e = false -> fh_logs (fs_hub (fstep r s e).1) !! id = Some (f, t) ->
    exists f' t', fh_logs (fs_hub (fstep r s e).1) !! id = Some (f', t') /\
    (polls id e = false -> f' = f /\ t' = t) /\ (polls id e = true -> if resolve (tip (fs_chain s)) (lf_from f) <=? tip (fs_chain s) then t' = fs_now s else f' = f /\ t' = t)).
  { intros Hp H. exists f, t. rewrite Hp. done. }
  destruct e as [i g|i f0 g|i g|i g| |dt|b].
  - apply Hkeep; [done|]. cbn [fstep] in *. destruct (fh_alive (fs_hub s)) eqn:Ea; [|done]. unfold new_blocks in *. rewrite Hlb in *. by destruct g.
  - apply Hkeep; [done|]. cbn [fstep] in *. destruct (bad_range f0); [done|]. destruct (fh_alive (fs_hub s)) eqn:Ea; [|done]. unfold new_logs in *. rewrite Hlb in *. destruct g; [done|]. cbn. by rewrite lookup_insert_ne.
  - destruct (N.eqb_spec i id) as [->|Hi].
    + specialize (Hpo ltac:(cbn; apply N.eqb_refl)). cbn [fstep polls] in *. rewrite N.eqb_refl. destruct (fh_alive (fs_hub s)) eqn:Ea; [|cbn in Hal; congruence]. unfold poll in *. rewrite Hnb, He in *.
      unfold filter_logs in *. rewrite Hlb, Hnum in *. 
      replace (default (tip (fs_chain s)) (convert (tip (fs_chain s)) <$> lf_from f)) with (resolve (tip (fs_chain s)) (lf_from f)) in * by (destruct (lf_from f) as [[]|]; reflexivity).
      destruct (N.ltb_spec (tip (fs_chain s)) (resolve (tip (fs_chain s)) (lf_from f))) as [H1|H1].
      * cbn [reply] in *. destruct g; [done|]. cbn. exists f, t. split; [done|]. split; [done|]. intros _. apply N.leb_gt in H1. by rewrite H1.
      * apply N.leb_le in H1. rewrite H1. destruct (r <? _); [cbn [reply] in *; destruct g; [done|]; by cbn in Hpo|].
        destruct (filter_loop _ _ _ _ _ _ _) as [[l sn]| |]; cbn [reply] in *; [|destruct g; [done|by cbn in Hpo]|done]. destruct g; [done|]. cbn. rewrite lookup_insert. eexists _, _. split; [done|]. done.
    + assert (Hp : polls id (FPoll i g) = false) by (by apply N.eqb_neq). apply Hkeep; [done|].
      cbn [fstep] in *. destruct (fh_alive (fs_hub s)) eqn:Ea; [|cbn in Hal; congruence]. unfold poll in *.
      destruct (fh_blocks (fs_hub s) !! i) as [[st t']|] eqn:Ei.
      * destruct (filter_block_spec (fs_chain s) (fs_now s) i st t' (fs_hub s) Hwf (Hb _ _ _ Ei)) as (h' & Hfb & Hh'). rewrite Hfb in *.
        cbn in *. destruct g; [done|]. cbn. case_decide; subst h'; done.
      * destruct (fh_logs (fs_hub s) !! i) as [[f1 t']|].
        -- destruct (filter_logs (fs_chain s) r f1) as [[[f'|] l]| |]; cbn in *; destruct g; try done; cbn; [by rewrite lookup_insert_ne|by rewrite lookup_delete_ne].
        -- cbn in *. by destruct g.
  - apply Hkeep; [done|]. cbn [fstep] in *. destruct (fh_alive (fs_hub s)) eqn:Ea; [|cbn in Hal; congruence]. unfold uninstall in *.
    assert (i <> id) by (intros ->; by eapply Hun).
    destruct (fh_blocks (fs_hub s) !! i) as [v|]; cbn in *; destruct g; cbn; try done. by rewrite lookup_delete_ne.
  - apply Hkeep; [done|]. cbn [fstep] in *. destruct (fh_alive (fs_hub s)) eqn:Ea; [|done]. cbn. apply map_filter_lookup_Some. split; [done|]. cbn. by apply Htm.
  - by apply Hkeep.
  - by apply Hkeep.
Qed.

(** Whatever happens after the creation of a log filter, its polls together return the matching logs of an initial part of the blocks
    it is interested in, in chain order and each once; and after a poll that was answered with logs, those of all blocks so far. *)
Theorem C63_once r s id f es s' tr :
  fh_alive (fs_hub s) = true -> fh_blocks (fs_hub s) !! id = None -> ch_blocks (fs_chain s) <> [] -> bad_range f = false ->
  (length (lf_topics f) <= 4)%nat -> fresh id es ->
  frun r s (FNewLogs id f false :: es) = (s', tr) -> wf_chain (fs_chain s') ->
  let n0 := first_block (fs_chain s) f in
  (exists q, q <= tip (fs_chain s') + 1 /\ logs_of id tr = matching (fs_chain s') f n0 q) /\
  (forall g l, last tr = Some (FPoll id g, Some (ALogs l)) -> logs_of id tr = matching (fs_chain s') f n0 (tip (fs_chain s') + 1)).
Proof.
  intros Ha Hl Hne Hbad Hts Hf Hrun Hwf n0. rewrite frun_cons in Hrun. apply pair_equal_spec in Hrun as [<- <-]. set (s1 := (fstep r s (FNewLogs id f false)).1) in *.
  assert (Hne1 : ch_blocks (fs_chain s1) <> []) by (by apply fstep_ne).
  assert (Hwf1 : wf_chain (fs_chain s1)) by (by apply frun_wf in Hwf). assert (Hwf0 : wf_chain (fs_chain s)) by (by apply fstep_wf in Hwf1).
  destruct (created_log r s id f Hwf0 Ha Hl Hbad) as [Hid Hat]. fold s1 n0 in Hat.
  assert (Hb : forall t, logs_of id ((FNewLogs id f false, (fstep r s (FNewLogs id f false)).2) :: t) = logs_of id t) by done. rewrite Hb.
  clear Hb Hid. clearbody s1. split.
  - destruct (log_run r id f n0 es Hts s1 [] Hwf Hat Hf) as (_ & q & H1 & H2 & _). by exists q.
  - intros g l. destruct es as [|e es _] using rev_ind; [done|]. rewrite last_cons. rewrite frun_app in *. cbn [fst snd] in *. rewrite last_app.
    apply Forall_app in Hf as [Hf1 Hf2]. set (s2 := (frun r s1 es).1) in *. rewrite frun_cons in *. cbn [fst snd frun last] in *. intros [= -> Hans].
    assert (Hne2 : ch_blocks (fs_chain s2) <> []). { unfold s2. rewrite frun_chain. cbn. by destruct (ch_blocks (fs_chain s1)). }
    assert (Hwf2 : wf_chain (fs_chain s2)) by (by apply fstep_wf in Hwf).
    pose proof (log_run r id f n0 es Hts s1 [] Hwf2 Hat Hf1) as Hat2. pose proof (poll_log_step r id f n0 s2 _ g Hwf2 Hts Hat2) as Hs.
    rewrite Hans in Hs. destruct Hs as [_ Hs]. unfold logs_of at 1. rewrite flat_map_app. fold (logs_of id (frun r s1 es).2). cbn [flat_map]. rewrite Hans, N.eqb_refl, app_nil_r.
    cbn [app] in Hs. rewrite Hs. rewrite fstep_chain. cbn. rewrite app_nil_r. by destruct (fs_chain s2).
Qed.
