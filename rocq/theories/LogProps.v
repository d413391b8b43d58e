(** C104: no line of the log is lost when the files are rotated. *)
From Coq Require Import NArith List String Ascii.
From Verif Require Import Bytes LogModel.
From stdpp Require Import base gmap list.
From Coq Require Import Lia.
#[local] Open Scope N_scope.

(* ---------------------------------------------------------------------- *)
(** * Names *)

(** Without a brace nothing is replaced. *)
Lemma replace_plain pat sub a s : 123 ∉ a -> replace (123 :: pat) sub 0 (a ++ s) = a ++ replace (123 :: pat) sub 0 s.
Proof.
  induction a as [|c a IH]; intros H; [reflexivity|]. apply not_elem_of_cons in H as [H1 H2]. cbn [app replace prefix_of]. destruct (N.eqb_spec 123 c); [contradiction|].
  cbn [andb]. by rewrite IH.
Qed.

(** A date as chrono prints it up to the year 9999: ten characters, digits and dashes, the first a digit. *)
Definition date_char (c : N) : Prop := c = 45 \/ (48 <= c /\ c <= 57).
Definition date_ok (d : bytes) : Prop := length d = 10%nat /\ Forall date_char d /\ forall c, head d = Some c -> c <> 45.

Definition mark (w : which) : bytes := match w with Axon => txt ".axon." | Metrics => txt ".metrics." end.

Lemma no_brace d : Forall date_char d -> 123 ∉ d.
Proof. intros H X. rewrite Forall_forall in H. specialize (H _ X). unfold date_char in H. lia. Qed.

Lemma archive_name dir w date ts : 123 ∉ dir -> date_ok date -> archive (pattern_of dir w) date ts = dir ++ [47] ++ date ++ mark w ++ ts ++ txt ".log".
Proof.
  intros D (_ & DC & _). unfold archive, pattern_of. change (txt "{date}") with (123 :: txt "date}"). rewrite replace_plain by exact D.
  match goal with |- context [replace (123 :: txt "date}") date 0 ?x] => replace (replace (123 :: txt "date}") date 0 x) with ([47] ++ date ++ mark w ++ txt "{timestamp}.log") by (destruct w; reflexivity) end.
  change (txt "{timestamp}") with (123 :: txt "timestamp}") at 1. rewrite replace_plain by exact D. f_equal.
  rewrite replace_plain by (intros X; by apply elem_of_list_singleton in X). f_equal. rewrite replace_plain by (by apply no_brace). f_equal.
  rewrite replace_plain by (destruct w; cbn; set_solver). f_equal.
Qed.

(** The decimal numeral has the value it should. *)
Definition val10 (l : bytes) : N := fold_left (fun a c => a * 10 + (c - 48)) l 0.
Lemma val10_app a l : fold_left (fun a c => a * 10 + (c - 48)) l a = a * 10 ^ len l + val10 l.
Proof.
  unfold val10, len. revert a. induction l as [|c l IH]; intros a; cbn [fold_left length]; [change (N.of_nat 0) with 0; rewrite N.pow_0_r; lia|].
  rewrite IH, (IH (0 * 10 + (c - 48))), Nat2N.inj_succ, N.pow_succ_r'. ring.
Qed.
Lemma dec_aux_val fuel n acc : (N.to_nat (N.log2 n) < fuel)%nat -> val10 (dec_aux fuel n acc) = n * 10 ^ len acc + val10 acc.
Proof.
  revert n acc. induction fuel as [|f IH]; intros n acc H; [lia|]. cbn [dec_aux].
  assert (V : val10 ((48 + n mod 10) :: acc) = n mod 10 * 10 ^ len acc + val10 acc).
  { unfold val10 at 1. cbn [fold_left]. rewrite val10_app. replace (0 * 10 + (48 + n mod 10 - 48)) with (n mod 10) by lia. reflexivity. }
  destruct (N.ltb_spec n 10) as [L|L]; [rewrite V, N.mod_small by lia; reflexivity|].
  assert (Q : n / 10 <> 0) by (intros X; apply N.div_small_iff in X; lia).
  rewrite IH.
  - rewrite V. unfold len. cbn [length]. rewrite Nat2N.inj_succ, N.pow_succ_r'. pose proof (N.div_mod n 10 ltac:(done)). nia.
  - assert (N.log2 (n / 10) < N.log2 n); [|lia]. apply N.log2_lt_pow2; [lia|]. pose proof (N.log2_spec n ltac:(lia)) as [_ S2]. rewrite N.pow_succ_r' in S2.
    apply N.div_lt_upper_bound; [done|]. lia.
Qed.
Lemma dec_inj m n : dec m = dec n -> m = n.
Proof.
  intros H. assert (V : forall k, val10 (dec k) = k). { intros k. unfold dec. rewrite dec_aux_val by lia. change (len []) with 0. rewrite N.pow_0_r. unfold val10. cbn. lia. }
  by rewrite <- (V m), <- (V n), H.
Qed.

Lemma archive_inj dir w d s w' d' s' : 123 ∉ dir -> date_ok d -> date_ok d' ->
  archive (pattern_of dir w) d (dec s) = archive (pattern_of dir w') d' (dec s') -> w = w' /\ s = s'.
Proof.
  intros D O O'. rewrite !archive_name by assumption. intros H. apply app_inv_head in H. injection H as H. destruct O as [L _], O' as [L' _].
  apply app_inj_1 in H as [_ H]; [|by rewrite L, L'].
  destruct w, w'; try discriminate H; (split; [reflexivity|]); apply app_inv_head, app_inv_tail in H; by apply dec_inj.
Qed.

Lemma archive_not_current dir w d s w' : 123 ∉ dir -> date_ok d -> archive (pattern_of dir w) d (dec s) <> current_of dir w'.
Proof.
  intros D O. rewrite archive_name by assumption. unfold current_of. intros H. apply app_inv_head in H. destruct O as (L & F & _). destruct d as [|c d]; [discriminate L|].
  apply Forall_cons in F as [F _]. destruct w'; cbn in H; injection H as H _; unfold date_char in F; lia.
Qed.
Lemma current_inj dir w w' : current_of dir w = current_of dir w' -> w = w'.
Proof. unfold current_of. intros H. apply app_inv_head in H. destruct w, w'; try reflexivity; discriminate H. Qed.

(* ---------------------------------------------------------------------- *)
(** * Rotation *)

Definition to (w : which) (e : entry) : bool := match w, e_to e with Axon, Axon => true | Metrics, Metrics => true | _, _ => false end.
Lemma to_spec w e : to w e = true <-> e_to e = w.
Proof. unfold to. destruct w, (e_to e); split; congruence. Qed.

(** What was logged, and the name of the archive made by a line that caused a rotation. *)
Definition logged (w : which) (es : list entry) : bytes := concat (map e_line (List.filter (to w) es)).
Definition arch (dir : bytes) (e : entry) : bytes := archive (pattern_of dir (e_to e)) (e_date e) (dec (e_second e)).
Definition archived (dir : bytes) (fs : fsys) (w : which) (rolls : list entry) : bytes := concat (map (fun e => default [] (fs !! arch dir e)) (List.filter (to w) rolls)).

Lemma log_line_spec dir limit fs e :
  let content := default [] (fs !! current_of dir (e_to e)) ++ e_line e in
  log_line dir limit fs e = if limit <? len content then (<[arch dir e := content]> (delete (current_of dir (e_to e)) (<[current_of dir (e_to e) := content]> fs)), true)
                            else (<[current_of dir (e_to e) := content]> fs, false).
Proof. cbv zeta. unfold log_line. cbv zeta. destruct (limit <? _); [|reflexivity]. unfold roll_file. rewrite lookup_insert. reflexivity. Qed.

Lemma log_all_cons dir limit fs e es : log_all dir limit fs (e :: es) =
  let r := log_line dir limit fs e in let q := log_all dir limit (fst r) es in (fst q, if snd r then e :: snd q else snd q).
Proof. cbn [log_all]. destruct (log_line dir limit fs e) as [fs1 r]. cbn [fst snd]. destruct (log_all dir limit fs1 es). reflexivity. Qed.

(** Files that are neither current nor made by a rotation stay as they are. *)
Lemma others dir limit p fs es : (forall w, p <> current_of dir w) -> (forall e, e ∈ snd (log_all dir limit fs es) -> p <> arch dir e) ->
  fst (log_all dir limit fs es) !! p = fs !! p.
Proof.
  revert fs. induction es as [|e es IH]; intros fs C A; [reflexivity|]. rewrite log_all_cons in *. cbv zeta in *. cbn [fst snd] in *.
  assert (L : fst (log_line dir limit fs e) !! p = fs !! p).
  { pose proof (log_line_spec dir limit fs e) as S1. cbv zeta in S1. destruct (limit <? _); rewrite S1 in *; cbn [fst snd] in *.
    - rewrite lookup_insert_ne by (intros X; by apply (A e); [left|]). rewrite lookup_delete_ne by (intros X; by apply (C (e_to e))). by rewrite lookup_insert_ne by (intros X; by apply (C (e_to e))).
    - by rewrite lookup_insert_ne by (intros X; by apply (C (e_to e))). }
  rewrite IH; [exact L|exact C|]. intros x X. apply A. destruct (snd (log_line dir limit fs e)); [by right|exact X].
Qed.

Lemma rolls_sub dir limit fs es e : e ∈ snd (log_all dir limit fs es) -> e ∈ es.
Proof.
  revert fs. induction es as [|x es IH]; intros fs H; [by apply elem_of_nil in H|]. rewrite log_all_cons in H. cbv zeta in H. cbn [snd] in H.
  destruct (snd (log_line dir limit fs x)); [apply elem_of_cons in H as [->|H]; [left|]|]; right; by eapply IH.
Qed.

(** When no two rotations of the same log fall into the same second, all that was logged is in the archives, in the order of the rotations, and the
    current file. *)
Theorem C104_kept dir limit fs es w : 123 ∉ dir -> (forall e, e ∈ es -> date_ok (e_date e)) ->
  NoDup (map (fun e => (e_to e, e_second e)) (snd (log_all dir limit fs es))) ->
  archived dir (fst (log_all dir limit fs es)) w (snd (log_all dir limit fs es)) ++ default [] (fst (log_all dir limit fs es) !! current_of dir w) =
  default [] (fs !! current_of dir w) ++ logged w es.
Proof.
  intros D. revert fs. induction es as [|e es IH]; intros fs DO ND; [cbn; by rewrite app_nil_r|].
  assert (DE : date_ok (e_date e)) by (apply DO; left). assert (DO' : forall x, x ∈ es -> date_ok (e_date x)) by (intros x X; apply DO; by right).
  rewrite log_all_cons in *. cbv zeta in *. cbn [fst snd] in *.
  specialize (IH (fst (log_line dir limit fs e)) DO').
  pose proof (log_line_spec dir limit fs e) as S1. cbv zeta in S1. set (content := default [] (fs !! current_of dir (e_to e)) ++ e_line e) in *.
  destruct (limit <? len content); rewrite S1 in *; cbn [fst snd] in *.
  - set (fs1 := <[arch dir e:=content]> (delete (current_of dir (e_to e)) (<[current_of dir (e_to e):=content]> fs))) in *.
    cbn [map] in ND. apply NoDup_cons in ND as [N1 N2]. specialize (IH N2).
    assert (KEEP : fst (log_all dir limit fs1 es) !! arch dir e = Some content).
    { rewrite others.
      - unfold fs1. by rewrite lookup_insert.
      - intros w'. by apply archive_not_current.
      - intros x X E. apply N1. apply elem_of_list_In, in_map_iff. exists x. split; [|by apply elem_of_list_In].
        apply rolls_sub in X. destruct (archive_inj _ _ _ _ _ _ _ D DE (DO' x X) E) as [-> ->]. reflexivity. }
    unfold archived. cbn [List.filter]. destruct (to w e) eqn:T.
    + apply to_spec in T as <-. cbn [map concat]. rewrite KEEP. cbn [default]. rewrite <- app_assoc. fold (archived dir (fst (log_all dir limit fs1 es)) (e_to e) (snd (log_all dir limit fs1 es))). rewrite IH.
      assert (E : fs1 !! current_of dir (e_to e) = None).
      { unfold fs1. rewrite lookup_insert_ne by (by apply archive_not_current). by rewrite lookup_delete. }
      rewrite E. unfold logged. cbn [List.filter default app]. rewrite (proj2 (to_spec (e_to e) e) eq_refl). cbn [map concat]. unfold content. by rewrite app_assoc.
    + fold (archived dir (fst (log_all dir limit fs1 es)) w (snd (log_all dir limit fs1 es))). rewrite IH.
      assert (W : w <> e_to e) by (intros ->; rewrite (proj2 (to_spec (e_to e) e) eq_refl) in T; discriminate T).
      assert (E : fs1 !! current_of dir w = fs !! current_of dir w).
      { unfold fs1. rewrite lookup_insert_ne by (by apply archive_not_current). rewrite lookup_delete_ne by (intros X; apply current_inj in X; by apply W).
        by rewrite lookup_insert_ne by (intros X; apply current_inj in X; by apply W). }
      rewrite E. unfold logged. cbn [List.filter]. by rewrite T.
  - specialize (IH ND). rewrite IH. unfold logged. cbn [List.filter]. destruct (to w e) eqn:T.
    + apply to_spec in T as <-. rewrite lookup_insert. cbn [map concat default]. unfold content. by rewrite app_assoc.
    + assert (W : w <> e_to e) by (intros ->; rewrite (proj2 (to_spec (e_to e) e) eq_refl) in T; discriminate T).
      by rewrite lookup_insert_ne by (intros X; apply current_inj in X; by apply W).
Qed.

(** Rotation touches nothing else. *)
Theorem C104_others dir limit p fs es : (forall w, p <> current_of dir w) -> (forall e, e ∈ es -> p <> arch dir e) -> fst (log_all dir limit fs es) !! p = fs !! p.
Proof. intros C A. apply others; [exact C|]. intros e X. apply A. by eapply rolls_sub. Qed.

(** The current files stay within the limit. *)
Theorem C104_bounded dir limit fs es w : 123 ∉ dir -> (forall e, e ∈ es -> date_ok (e_date e)) -> len (default [] (fs !! current_of dir w)) <= limit ->
  len (default [] (fst (log_all dir limit fs es) !! current_of dir w)) <= limit.
Proof.
  intros D. revert fs. induction es as [|e es IH]; intros fs DO L; [exact L|]. rewrite log_all_cons. cbv zeta. cbn [fst].
  apply IH; [intros x X; apply DO; by right|]. pose proof (log_line_spec dir limit fs e) as S1. cbv zeta in S1.
  assert (DE : date_ok (e_date e)) by (apply DO; left).
  destruct (N.ltb_spec limit (len (default [] (fs !! current_of dir (e_to e)) ++ e_line e))) as [G|G]; rewrite S1; cbn [fst].
  - rewrite lookup_insert_ne by (by apply archive_not_current). destruct (decide (current_of dir (e_to e) = current_of dir w)) as [E|Ne].
    + rewrite E, lookup_delete. unfold len. cbn. lia.
    + rewrite lookup_delete_ne by exact Ne. by rewrite lookup_insert_ne by exact Ne.
  - destruct (decide (current_of dir (e_to e) = current_of dir w)) as [E|Ne]; [rewrite E in *; by rewrite lookup_insert|by rewrite lookup_insert_ne by exact Ne].
Qed.

(* ---------------------------------------------------------------------- *)
(** * Witnesses *)

Definition day : bytes := txt "2026-11-16".
Lemma day_ok : date_ok day.
Proof. split; [reflexivity|]. split; [unfold day; repeat constructor; unfold date_char; vm_compute; intuition congruence|]. intros c [= <-]. discriminate. Qed.

Example ex_rotation :
  let es := [Entry Axon (txt "one ") day 100; Entry Metrics (txt "m") day 100; Entry Axon (txt "two") day 101; Entry Axon (txt "three") day 102] in
  let r := log_all (txt "/log") 5 ∅ es in
  map e_second (snd r) = [101] /\ fst r !! txt "/log/2026-11-16.axon.101.log" = Some (txt "one two") /\ fst r !! txt "/log/axon.log" = Some (txt "three") /\
  NoDup (map (fun e => (e_to e, e_second e)) (snd r)).
Proof. cbv zeta. split; [vm_compute; reflexivity|]. split; [vm_compute; reflexivity|]. split; [vm_compute; reflexivity|].
  match goal with |- NoDup ?l => replace l with [(Axon, 101)] by (vm_compute; reflexivity) end. apply NoDup_singleton.
Qed.

(** Finding: a second rotation in the same second replaces the archive of the first; its lines are in no file any more. *)
Theorem C104_same_second_refuted : exists dir limit es, 123 ∉ dir /\ (forall e, e ∈ es -> date_ok (e_date e)) /\
  exists p, fst (log_all dir limit ∅ es) = {[p := txt "second line"]} /\ logged Axon es = txt "first linesecond line".
Proof.
  exists (txt "/log"), 4, [Entry Axon (txt "first line") day 100; Entry Axon (txt "second line") day 100]. split; [cbn; set_solver|].
  split; [intros e X; apply elem_of_cons in X as [->|X]; [exact day_ok|apply elem_of_list_singleton in X as ->; exact day_ok]|].
  exists (txt "/log/2026-11-16.axon.100.log"). split; [|reflexivity]. apply (bool_decide_unpack _). vm_compute. exact I.
Qed.

(** Finding: a log directory whose own name has the pattern in it does not get the archives. *)
Theorem C104_directory_refuted : exists dir date ts, date_ok date /\ build_ok (pattern_of dir Axon) = true /\ forall rest, archive (pattern_of dir Axon) date ts <> dir ++ rest.
Proof.
  exists (txt "/log{date}"), day, (dec 100). split; [exact day_ok|]. split; [vm_compute; reflexivity|]. intros rest H. vm_compute in H. discriminate H.
Qed.

Print Assumptions C104_kept.
Print Assumptions C104_others.
Print Assumptions C104_bounded.
Print Assumptions C104_same_second_refuted.
Print Assumptions C104_directory_refuted.
