(** C88: the version file of a data directory.  C89: the stop options. *)
From Verif Require Import Bytes Rlp TxModel VersionModel.
From Coq Require Import NArith List Lia.
Import ListNotations.
Local Open Scope N_scope.

(* ================= specification: semver.org ================= *)
(** Decimal value of a text, and "numeric identifiers must not include leading zeroes" (semver.org 2, 9). *)
Definition dval (w : list N) : N := fold_left (fun a d => a * 10 + (d - 48)) w 0.
Definition digit (b : N) : Prop := 48 <= b <= 57.
Definition numeral (n : N) (w : list N) : Prop :=
  w <> [] /\ Forall digit w /\ (forall r, w = 48 :: r -> r = []) /\ dval w = n.
(** [0-9A-Za-z-] (semver.org 9, 10) *)
Definition wordch (b : N) : Prop := digit b \/ 65 <= b <= 90 \/ 97 <= b <= 122 \/ b = 45.
(** An identifier of a pre-release (9): a number, or a word that is not only digits. *)
Inductive ident := Num (n : N) | Word (w : list N).
Definition ident_text (i : ident) (w : list N) : Prop :=
  match i with
  | Num n => numeral n w
  | Word x => w = x /\ w <> [] /\ Forall wordch w /\ ~ Forall digit w
  end.
Fixpoint join (ws : list (list N)) : list N :=
  match ws with
  | [] => []
  | [w] => w
  | w :: r => w ++ 46 :: join r
  end.
(** The text of a pre-release and of a build; empty when there is none. *)
Definition pre_text (ids : list ident) (t : list N) : Prop := exists ws, Forall2 ident_text ids ws /\ t = join ws.
Definition build_text (t : list N) : Prop := exists ws, Forall (fun w => w <> [] /\ Forall wordch w) ws /\ t = join ws.

(** A version as semver.org sees it. *)
Record sem := mksem { s_major : N; s_minor : N; s_patch : N; s_pre : list ident; s_build : list N }.
Definition means (v : version) (s : sem) : Prop :=
  v_major v = s_major s /\ v_minor v = s_minor s /\ v_patch v = s_patch s /\ pre_text (s_pre s) (v_pre v)
  /\ v_build v = s_build s /\ build_text (s_build s) /\ s_major s < 2 ^ 64 /\ s_minor s < 2 ^ 64 /\ s_patch s < 2 ^ 64.
(** Its text (semver.org 2, 9, 10). *)
Definition part (c : N) (t : list N) : list N := match t with [] => [] | _ => [c] ++ t end.
Definition version_text (v : version) (t : list N) : Prop :=
  (exists s, means v s) /\
  exists a b c, numeral (v_major v) a /\ numeral (v_minor v) b /\ numeral (v_patch v) c
    /\ t = a ++ [46] ++ b ++ [46] ++ c ++ part 45 (v_pre v) ++ part 43 (v_build v).

(** Precedence (semver.org 11). *)
Inductive lexlt : list N -> list N -> Prop :=
| lex_more x r : lexlt [] (x :: r)
| lex_here x y a b : x < y -> lexlt (x :: a) (y :: b)
| lex_next x a b : lexlt a b -> lexlt (x :: a) (x :: b).
Inductive ident_lt : ident -> ident -> Prop :=
| il_num a b : a < b -> ident_lt (Num a) (Num b)
| il_mix a w : ident_lt (Num a) (Word w)
| il_word a b : lexlt a b -> ident_lt (Word a) (Word b).
Inductive idents_lt : list ident -> list ident -> Prop :=
| is_more x r : idents_lt [] (x :: r)
| is_here x y a b : ident_lt x y -> idents_lt (x :: a) (y :: b)
| is_next x a b : idents_lt a b -> idents_lt (x :: a) (x :: b).
Definition pre_lt (a b : list ident) : Prop := a <> [] /\ (b = [] \/ idents_lt a b).
Definition precedes (s t : sem) : Prop :=
  s_major s < s_major t \/ s_major s = s_major t /\
  (s_minor s < s_minor t \/ s_minor s = s_minor t /\
  (s_patch s < s_patch t \/ s_patch s = s_patch t /\ pre_lt (s_pre s) (s_pre t))).

(* ================= characters ================= *)
Lemma is_digit_ok b : is_digit b = true <-> digit b.
Proof. unfold is_digit, digit. rewrite Bool.andb_true_iff, !N.leb_le. reflexivity. Qed.
Lemma is_word_ok b : is_word b = true <-> wordch b.
Proof.
  unfold is_word, wordch. rewrite !Bool.orb_true_iff, !Bool.andb_true_iff, !N.leb_le, N.eqb_eq, is_digit_ok. tauto.
Qed.
Lemma digits_ok w : forallb is_digit w = true <-> Forall digit w.
Proof. rewrite forallb_forall, Forall_forall. split; intros H x X; apply is_digit_ok; auto. Qed.
Lemma digit_word b : digit b -> wordch b.
Proof. now left. Qed.
Lemma dot_not_word : ~ wordch 46.
Proof. unfold wordch, digit. lia. Qed.

(* ================= numbers ================= *)
Definition dstep (a d : N) : N := a * 10 + (d - 48).
Lemma num_loop_sound s : forall first v n r, num_loop s first v = Some (n, r) ->
  exists ds, s = ds ++ r /\ Forall digit ds /\ fold_left dstep ds v = n /\ (v < 2 ^ 64 -> n < 2 ^ 64)
    /\ (first = true -> ds <> []) /\ (first = true -> v = 0 -> forall q, ds = 48 :: q -> q = [])
    /\ (first = false -> v = 0 -> ds = []) /\ (forall b q, r = b :: q -> ~ digit b).
Proof.
  induction s as [|d r IH]; intros first v n q H; cbn [num_loop] in H.
  - destruct first; [discriminate H|]. injection H as <- <-. exists []. easy.
  - destruct (is_digit d) eqn:D.
    + destruct ((v =? 0) && negb first) eqn:Z; [discriminate H|].
      destruct (v * 10 + (d - 48) <? 2 ^ 64) eqn:L; [|discriminate H].
      apply N.ltb_lt in L. apply IH in H. destruct H as (ds & -> & F & V & B & _ & _ & C & E).
      exists (d :: ds). split; [reflexivity|]. split; [constructor; [now apply is_digit_ok|exact F]|].
      split; [exact V|]. split; [intros _; now apply B|]. split; [easy|].
      split. { intros _ -> x X. injection X as -> ->. now apply C. }
      split; [|exact E]. intros -> ->. cbn in Z. discriminate Z.
    + destruct first; [discriminate H|]. injection H as <- <-. exists []. repeat split; try easy.
      intros b x X. injection X as -> ->. intros Y. apply is_digit_ok in Y. congruence.
Qed.
Lemma fold_dstep_le ds : forall v, v <= fold_left dstep ds v.
Proof.
  induction ds as [|d r IH]; intros v; cbn [fold_left]; [lia|]. specialize (IH (dstep v d)). unfold dstep in *. lia.
Qed.
Lemma num_loop_complete ds : forall first v r, Forall digit ds -> fold_left dstep ds v < 2 ^ 64 ->
  (first = true -> ds <> []) -> (first = true -> v = 0 -> forall q, ds = 48 :: q -> q = []) -> (first = false -> v = 0 -> ds = []) ->
  (forall b q, r = b :: q -> ~ digit b) -> num_loop (ds ++ r) first v = Some (fold_left dstep ds v, r).
Proof.
  induction ds as [|d ds IH]; intros first v r F L A B C E; cbn [app fold_left].
  - destruct first; [now destruct A|]. destruct r as [|b q]; [reflexivity|]. cbn [num_loop].
    destruct (is_digit b) eqn:D; [|reflexivity]. apply is_digit_ok in D. now destruct (E b q).
  - inversion F as [|? ? D F']; subst. cbn [num_loop]. rewrite (proj2 (is_digit_ok d) D).
    destruct ((v =? 0) && negb first) eqn:Z.
    { apply Bool.andb_true_iff in Z as [Z1 Z2]. apply N.eqb_eq in Z1. destruct first; [discriminate Z2|]. now specialize (C eq_refl Z1). }
    cbn [fold_left] in L. pose proof (fold_dstep_le ds (dstep v d)) as G.
    rewrite (proj2 (N.ltb_lt _ _)) by (unfold dstep in *; lia). apply IH; auto; try easy.
    intros _ V. unfold dstep in V. assert (v = 0 /\ d = 48) as [-> ->] by (unfold digit in D; lia).
    destruct first; [now apply B|]. now specialize (C eq_refl eq_refl).
Qed.
Lemma read_num_iff s n r : read_num s = Some (n, r) <->
  n < 2 ^ 64 /\ (exists w, numeral n w /\ s = w ++ r) /\ (forall b q, r = b :: q -> ~ digit b).
Proof.
  unfold read_num. split.
  - intros H. apply num_loop_sound in H. destruct H as (ds & -> & F & V & B & A & Z & _ & E).
    split; [apply B; lia|]. split; [|exact E]. exists ds. split; [|reflexivity]. unfold numeral. auto.
  - intros (L & (w & (A & F & Z & V) & ->) & E). rewrite num_loop_complete; auto; try easy.
    + unfold dval in V. fold dstep in V. now rewrite V.
    + unfold dval in V. fold dstep in V. now rewrite V.
Qed.

Lemma dval_app a b : dval (a ++ [b]) = dval a * 10 + (b - 48).
Proof. unfold dval. now rewrite fold_left_app. Qed.
Lemma dec_digits_numeral f : forall n, n < 10 ^ N.of_nat f -> (f <> 0)%nat -> numeral n (dec_digits f n).
Proof.
  induction f as [|f IH]; intros n L Z; [easy|]. cbn [dec_digits].
  destruct (N.ltb_spec n 10) as [A|A].
  - unfold numeral. split; [easy|]. split; [constructor; [unfold digit; lia|constructor]|]. split.
    + intros r X. now injection X as _ <-.
    + cbn. unfold dval. cbn. lia.
  - assert (E : f <> O). { intros ->. cbn in L. lia. }
    assert (L' : n / 10 < 10 ^ N.of_nat f).
    { rewrite Nat2N.inj_succ, N.pow_succ_r' in L. apply N.div_lt_upper_bound; lia. }
    destruct (IH _ L' E) as (I1 & I2 & I3 & I4).
    unfold numeral. split; [now destruct (dec_digits f (n / 10))|].
    split. { apply Forall_app. split; [exact I2|]. constructor; [unfold digit; lia|constructor]. }
    split.
    + intros r X. destruct (dec_digits f (n / 10)) as [|d q] eqn:Q; [easy|]. cbn in X. injection X as -> X.
      specialize (I3 q eq_refl). subst q. unfold dval in I4. cbn in I4. exfalso. lia.
    + rewrite dval_app, I4. lia.
Qed.
Lemma show_num_numeral n : numeral n (show_num n).
Proof.
  apply dec_digits_numeral; [|easy].
  rewrite Nat2N.inj_succ, N2Nat.id. destruct (N.eq_dec n 0) as [->|P]; [vm_compute; reflexivity|].
  eapply N.lt_le_trans; [apply N.log2_spec; lia|]. apply N.pow_le_mono_l. lia.
Qed.

(* ================= identifiers ================= *)
Definition wordb (w : list N) : Prop := w <> [] /\ Forall wordch w.
Lemma split_nonnil s : split_dot s <> [].
Proof. destruct s as [|b r]; cbn; [easy|]. destruct (b =? 46); [easy|]. now destruct (split_dot r). Qed.
Lemma join_split s : join (split_dot s) = s.
Proof.
  induction s as [|b r IH]; [reflexivity|]. cbn [split_dot]. destruct (N.eqb_spec b 46) as [->|E].
  - pose proof (split_nonnil r). cbn [join]. destruct (split_dot r) as [|w ws] eqn:Q; [easy|]. now rewrite IH.
  - pose proof (split_nonnil r). destruct (split_dot r) as [|w ws] eqn:Q; [easy|].
    cbn [join] in *. destruct ws; rewrite <- IH; reflexivity.
Qed.
Lemma split_word w r : ~ In 46 w -> split_dot (w ++ 46 :: r) = w :: split_dot r.
Proof.
  induction w as [|b w IH]; intros H; cbn [app split_dot]; [reflexivity|].
  destruct (N.eqb_spec b 46) as [->|E]; [now destruct H; left|]. rewrite IH; [reflexivity|]. intros X. apply H. now right.
Qed.
Lemma split_alone w : ~ In 46 w -> split_dot w = [w].
Proof.
  induction w as [|b w IH]; intros H; cbn [split_dot]; [reflexivity|].
  destruct (N.eqb_spec b 46) as [->|E]; [now destruct H; left|]. rewrite IH; [reflexivity|]. intros X. apply H. now right.
Qed.
Lemma word_nodot w : Forall wordch w -> ~ In 46 w.
Proof. intros F X. rewrite Forall_forall in F. now apply dot_not_word, F. Qed.
Lemma split_join ws : ws <> [] -> Forall (fun w => ~ In 46 w) ws -> split_dot (join ws) = ws.
Proof.
  induction ws as [|w ws IH]; intros A F; [easy|]. inversion F; subst. destruct ws as [|x ws].
  - now apply split_alone.
  - change (join (w :: x :: ws)) with (w ++ 46 :: join (x :: ws)). rewrite split_word by assumption. now rewrite IH.
Qed.
Lemma split_chars s : Forall (fun b => wordch b \/ b = 46) s -> Forall (Forall wordch) (split_dot s).
Proof.
  induction s as [|b r IH]; intros F; cbn [split_dot]; [repeat constructor|]. inversion F as [|? ? B F']; subst. specialize (IH F').
  destruct (N.eqb_spec b 46) as [->|E]; [now constructor|].
  pose proof (split_nonnil r). destruct (split_dot r) as [|w ws]; [easy|]. inversion IH; subst.
  constructor; [|assumption]. constructor; [|assumption]. now destruct B.
Qed.
Lemma join_chars ws : Forall (Forall wordch) ws -> Forall (fun b => wordch b \/ b = 46) (join ws).
Proof.
  induction ws as [|w ws IH]; intros F; [constructor|]. inversion F as [|? ? W F']; subst.
  assert (G : Forall (fun b => wordch b \/ b = 46) w) by (eapply Forall_impl; [|exact W]; auto).
  destruct ws as [|x ws]; [exact G|]. change (join (w :: x :: ws)) with (w ++ 46 :: join (x :: ws)).
  apply Forall_app. split; [exact G|]. constructor; [now right|]. now apply IH.
Qed.
Lemma span_ok s a r : span s = (a, r) <->
  s = a ++ r /\ Forall (fun b => wordch b \/ b = 46) a /\ (forall b q, r = b :: q -> ~ (wordch b \/ b = 46)).
Proof.
  assert (T : forall b, is_word b || (b =? 46) = true <-> wordch b \/ b = 46).
  { intros b. rewrite Bool.orb_true_iff, is_word_ok, N.eqb_eq. reflexivity. }
  revert a r. induction s as [|b s IH]; intros a r; cbn [span].
  - split; [intros [= <- <-]; easy|]. intros (E & _). destruct a; [|easy]. cbn in E. now subst r.
  - destruct (is_word b || (b =? 46)) eqn:B.
    + destruct (span s) as [a' r'] eqn:Q. apply T in B. split.
      * intros [= <- <-]. destruct (proj1 (IH a' r') eq_refl) as (-> & F & E). repeat split; auto.
      * intros (E & F & G). destruct a as [|x a]; cbn in E; [subst r; now destruct (G b s)|]. injection E as <- ->.
        inversion F; subst. assert (X : (a', r') = (a, r)) by now apply IH. now injection X as -> ->.
    + split.
      * intros [= <- <-]. repeat split; auto. intros x q [= <- <-]. rewrite <- T. congruence.
      * intros (E & F & G). destruct a as [|x a]; cbn in E; [now subst r|]. injection E as <- ->. inversion F as [|? ? X ?]; subst.
        apply T in X. congruence.
Qed.

Lemma word_ok_build w : Forall wordch w -> word_ok false w = true <-> w <> [].
Proof. intros _. destruct w; cbn; easy. Qed.
Lemma word_ok_pre w : Forall wordch w -> word_ok true w = true <-> exists i, ident_text i w.
Proof.
  intros F. split.
  - intros H. destruct w as [|b r]; [discriminate H|]. unfold word_ok in H. cbn [andb] in H.
    destruct (forallb is_digit (b :: r)) eqn:D.
    + exists (Num (dval (b :: r))). cbn. split; [easy|]. split; [now apply digits_ok|]. split; [|reflexivity].
      intros q X. injection X as -> ->. cbn in H. destruct q; [reflexivity|discriminate H].
    + exists (Word (b :: r)). cbn. repeat split; auto; [easy|]. intros X. apply digits_ok in X. congruence.
  - intros (i & I). destruct w as [|b r]; [destruct i; cbn in I; unfold numeral in I; tauto|].
    unfold word_ok. cbn [andb]. destruct (forallb is_digit (b :: r)) eqn:D; [|reflexivity].
    destruct i as [n|x]; cbn in I.
    + destruct I as (_ & _ & Z & _). destruct (N.eqb_spec b 48) as [->|E]; [|reflexivity]. now rewrite (Z r eq_refl).
    + apply digits_ok in D. tauto.
Qed.
Lemma ident_chars i w : ident_text i w -> wordb w.
Proof.
  destruct i; cbn; unfold numeral, wordb.
  - intros (A & F & _). split; [exact A|]. eapply Forall_impl; [|exact F]. apply digit_word.
  - tauto.
Qed.
Lemma Forall2_exists {A B} (P : A -> B -> Prop) l : Forall (fun y => exists x, P x y) l -> exists k, Forall2 P k l.
Proof.
  induction 1 as [|y l (x & X) _ (k & K)]; [exists []; constructor|]. exists (x :: k). now constructor.
Qed.
Lemma Forall2_r {A B} (P : A -> B -> Prop) (Q : B -> Prop) k l : (forall x y, P x y -> Q y) -> Forall2 P k l -> Forall Q l.
Proof. intros H. induction 1; constructor; eauto. Qed.

Lemma join_words_nil ws : Forall wordb ws -> join ws = [] -> ws = [].
Proof.
  intros F E. destruct ws as [|w ws]; [reflexivity|]. inversion F as [|? ? [W _] _]; subst.
  destruct ws; cbn in E; destruct w; easy.
Qed.
Lemma ident_ok_pre a : Forall (fun b => wordch b \/ b = 46) a -> ident_ok true a = true <-> exists ids, pre_text ids a.
Proof.
  intros F. pose proof (split_chars _ F) as S. split.
  - intros H. destruct a as [|b r]. { exists [], []. now split. }
    unfold ident_ok in H. rewrite forallb_forall in H.
    destruct (Forall2_exists ident_text (split_dot (b :: r))) as (ids & I).
    { rewrite Forall_forall in S |- *. intros w W. apply word_ok_pre; auto. }
    exists ids, (split_dot (b :: r)). split; [exact I|]. now rewrite join_split.
  - intros (ids & ws & I & ->). pose proof (Forall2_r _ wordb _ _ ident_chars I) as W.
    unfold ident_ok. destruct (join ws) as [|b r] eqn:J; [reflexivity|]. rewrite <- J, split_join.
    + apply forallb_forall. intros w X.
      assert (G : Forall (fun w => exists i, ident_text i w) ws) by (eapply Forall2_r; [|exact I]; eauto).
      rewrite Forall_forall in G, W. apply word_ok_pre; [now apply W|now apply G].
    + intros ->. discriminate J.
    + eapply Forall_impl; [|exact W]. intros w [_ Q]. now apply word_nodot.
Qed.
Lemma ident_ok_build a : Forall (fun b => wordch b \/ b = 46) a -> ident_ok false a = true <-> build_text a.
Proof.
  intros F. pose proof (split_chars _ F) as S. split.
  - intros H. destruct a as [|b r]. { exists []. now split. }
    unfold ident_ok in H. rewrite forallb_forall in H. exists (split_dot (b :: r)). rewrite join_split. split; [|reflexivity].
    rewrite Forall_forall in S |- *. intros w W. split; [|now apply S]. apply word_ok_build; auto.
  - intros (ws & W & ->). unfold ident_ok. destruct (join ws) as [|b r] eqn:J; [reflexivity|]. rewrite <- J, split_join.
    + apply forallb_forall. intros w X. rewrite Forall_forall in W. destruct (W w X) as [A B]. now apply word_ok_build.
    + intros ->. discriminate J.
    + eapply Forall_impl; [|exact W]. intros w [_ Q]. now apply word_nodot.
Qed.
Lemma pre_text_chars ids a : pre_text ids a -> Forall (fun b => wordch b \/ b = 46) a.
Proof.
  intros (ws & I & ->). apply join_chars. eapply Forall2_r; [|exact I]. intros x y X. apply ident_chars in X. apply X.
Qed.
Lemma build_text_chars a : build_text a -> Forall (fun b => wordch b \/ b = 46) a.
Proof. intros (ws & I & ->). apply join_chars. eapply Forall_impl; [|exact I]. now intros w [_ Q]. Qed.

Definition stops (r : list N) : Prop := forall b q, r = b :: q -> ~ (wordch b \/ b = 46).
Definition good (pre : bool) (a : list N) : Prop := if pre then exists ids, pre_text ids a else build_text a.
Lemma good_chars pre a : good pre a -> Forall (fun b => wordch b \/ b = 46) a.
Proof. destruct pre; cbn; [intros (ids & X); eapply pre_text_chars, X|apply build_text_chars]. Qed.
Lemma read_ident_iff pre s a r : read_ident pre s = Some (a, r) <-> s = a ++ r /\ good pre a /\ stops r.
Proof.
  unfold read_ident. destruct (span s) as [a' r'] eqn:Q. pose proof (proj1 (span_ok _ _ _) Q) as (E & F & G).
  assert (T : ident_ok pre a' = true <-> good pre a') by (destruct pre; [now apply ident_ok_pre|now apply ident_ok_build]).
  split.
  - intros H. destruct (ident_ok pre a') eqn:K; [|discriminate H]. injection H as <- <-. repeat split; auto. now apply T.
  - intros (E2 & P & ST). assert (X : span s = (a, r)). { apply span_ok. repeat split; auto. eapply good_chars, P. }
    rewrite Q in X. injection X as -> ->. now rewrite (proj2 T P).
Qed.
Lemma read_part_iff c pre s a r : read_part c pre s = Some (a, r) <->
  s = part c a ++ r /\ good pre a /\ (a = [] -> forall q, r <> c :: q) /\ (a <> [] -> stops r).
Proof.
  assert (G0 : good pre []). { destruct pre; cbn; [exists [], []; now split|exists []; now split]. }
  unfold read_part. destruct s as [|b s]; cbn [strip].
  - split.
    + intros [= <- <-]. repeat split; auto; easy.
    + intros (E & _). destruct a; [|easy]. cbn in E. now subst r.
  - destruct (N.eqb_spec b c) as [->|NE].
    + split.
      * cbn. destruct (read_ident pre s) as [[a' r']|] eqn:Q; cbn; [|intros H; discriminate H].
        apply read_ident_iff in Q as (-> & P & ST). destruct a' as [|x a']; intros H; [discriminate H|]. injection H as <- <-.
        repeat split; auto; easy.
      * intros (E & P & A & B). destruct a as [|x a].
        { cbn in E. subst r. now destruct (A eq_refl s). }
        cbn in E. injection E as ->. cbn. change (x :: a ++ r) with ((x :: a) ++ r).
        rewrite (proj2 (read_ident_iff pre ((x :: a) ++ r) (x :: a) r)); [reflexivity|].
        split; [reflexivity|]. split; [exact P|]. now apply B.
    + split.
      * intros [= <- <-]. repeat split; auto; [|easy]. intros _ q [= -> ->]. easy.
      * intros (E & _). destruct a as [|x a]; cbn in E; [now subst r|]. injection E as -> _. easy.
Qed.

(* ================= the text of a version ================= *)
Lemma not_digit c : ~ digit c -> forall (r : list N) b q, c :: r = b :: q -> ~ digit b.
Proof. intros H r b q [= <- _]. exact H. Qed.

(** [parse] reads exactly the texts of semver.org. *)
Lemma parse_iff s v : parse s = Some v <-> version_text v s.
Proof.
  unfold parse, obind. split.
  - destruct (read_num s) as [[ma s1]|] eqn:R1; [|intros H; discriminate H].
    apply read_num_iff in R1 as (L1 & (a & A & ->) & _).
    destruct s1 as [|d1 s1]; cbn [strip]; [intros H; discriminate H|].
    destruct (N.eqb_spec d1 46) as [->|]; [|intros H; discriminate H].
    destruct (read_num s1) as [[mi s2]|] eqn:R2; [|intros H; discriminate H].
    apply read_num_iff in R2 as (L2 & (b & B & ->) & _).
    destruct s2 as [|d2 s2]; cbn [strip]; [intros H; discriminate H|].
    destruct (N.eqb_spec d2 46) as [->|]; [|intros H; discriminate H].
    destruct (read_num s2) as [[pa s3]|] eqn:R3; [|intros H; discriminate H].
    apply read_num_iff in R3 as (L3 & (c & C & ->) & _).
    destruct (read_part 45 true s3) as [[pre s4]|] eqn:R4; [|intros H; discriminate H].
    apply read_part_iff in R4 as (-> & (ids & P) & _).
    destruct (read_part 43 false s4) as [[bu s5]|] eqn:R5; [|intros H; discriminate H].
    apply read_part_iff in R5 as (-> & Q & _).
    destruct s5; [|intros H; discriminate H]. intros [= <-]. split.
    + exists (mksem ma mi pa ids bu). unfold means. cbn. auto 12.
    + exists a, b, c. cbn [v_major v_minor v_patch v_pre v_build].
      split; [exact A|]. split; [exact B|]. split; [exact C|]. rewrite app_nil_r. reflexivity.
  - intros ((sm & M1 & M2 & M3 & P & Bu & Q & L1 & L2 & L3) & a & b & c & A & B & C & ->).
    assert (D46 : ~ digit 46) by (unfold digit; lia).
    rewrite (proj2 (read_num_iff _ (v_major v) ([46] ++ b ++ [46] ++ c ++ part 45 (v_pre v) ++ part 43 (v_build v)))); cycle 1.
    { split; [congruence|]. split; [exists a; now split|]. now apply not_digit. }
    cbn [app strip]. rewrite N.eqb_refl.
    change (46 :: c ++ part 45 (v_pre v) ++ part 43 (v_build v)) with ([46] ++ c ++ part 45 (v_pre v) ++ part 43 (v_build v)).
    rewrite (proj2 (read_num_iff _ (v_minor v) ([46] ++ c ++ part 45 (v_pre v) ++ part 43 (v_build v)))); cycle 1.
    { split; [congruence|]. split; [exists b; now split|]. now apply not_digit. }
    cbn [app strip]. rewrite N.eqb_refl.
    rewrite (proj2 (read_num_iff _ (v_patch v) (part 45 (v_pre v) ++ part 43 (v_build v)))); cycle 1.
    { split; [congruence|]. split; [exists c; now split|]. intros x q X.
      destruct (v_pre v); cbn in X; [destruct (v_build v); cbn in X; [discriminate X|]|]; injection X as <- _; unfold digit; lia. }
    rewrite (proj2 (read_part_iff 45 true _ (v_pre v) (part 43 (v_build v)))); cycle 1.
    { split; [reflexivity|]. split; [cbn; eauto|]. split.
      - intros _ q X. destruct (v_build v); cbn in X; discriminate X.
      - intros _ x q X. destruct (v_build v); cbn in X; [discriminate X|]. injection X as <- _. unfold wordch, digit. lia. }
    rewrite (proj2 (read_part_iff 43 false _ (v_build v) [])); cycle 1.
    { split; [now rewrite app_nil_r|]. split; [cbn; now rewrite Bu|]. split; [intros _ q X; discriminate X|]. intros _ x q X. discriminate X. }
    now destruct v.
Qed.
Lemma show_text v sm : means v sm -> version_text v (show v).
Proof.
  intros M. split; [now exists sm|]. exists (show_num (v_major v)), (show_num (v_minor v)), (show_num (v_patch v)).
  split; [apply show_num_numeral|]. split; [apply show_num_numeral|]. split; [apply show_num_numeral|]. reflexivity.
Qed.

(* ================= the order ================= *)
Lemma cmp_text_lt a : forall b, cmp_text a b = Lt <-> lexlt a b.
Proof.
  induction a as [|x a IH]; intros [|y b]; cbn.
  - split; [intros H; discriminate H|]. intros H. inversion H.
  - split; [constructor|reflexivity].
  - split; [intros H; discriminate H|]. intros H. inversion H.
  - destruct (N.compare_spec x y) as [->|L|L].
    + rewrite IH. split; [now constructor 3|]. intros H. inversion H; subst; [lia|assumption].
    + split; [now constructor|reflexivity].
    + split; [intros H; discriminate H|]. intros H. inversion H; subst; lia.
Qed.
Lemma cmp_text_eq a : forall b, cmp_text a b = Eq <-> a = b.
Proof.
  induction a as [|x a IH]; intros [|y b]; cbn; try easy.
  destruct (N.compare_spec x y) as [->|L|L].
  - rewrite IH. split; [now intros ->|now intros [= ->]].
  - split; [easy|]. intros [= -> _]. lia.
  - split; [easy|]. intros [= -> _]. lia.
Qed.
(** numbers of the same length compare as texts, else the longer one is greater *)
Lemma dval_cons a : forall x, fold_left dstep a x = x * 10 ^ len a + dval a.
Proof.
  unfold dval. fold dstep.
  induction a as [|d a IH]; intros x; cbn [fold_left]; [unfold len; cbn; lia|].
  rewrite IH, (IH (dstep 0 d)). unfold len. cbn [length]. rewrite Nat2N.inj_succ, N.pow_succ_r'. unfold dstep. lia.
Qed.
Lemma dval_bound a : Forall digit a -> dval a < 10 ^ len a.
Proof.
  induction 1 as [|d a D F IH]; [vm_compute; reflexivity|].
  change (dval (d :: a)) with (fold_left dstep a (dstep 0 d)). rewrite dval_cons.
  unfold len in *. cbn [length]. rewrite Nat2N.inj_succ, N.pow_succ_r'. unfold dstep, digit in *.
  assert (0 * 10 + (d - 48) <= 9) by lia. nia.
Qed.
Lemma same_len a : forall b, Forall digit a -> Forall digit b -> len a = len b -> cmp_text a b = (dval a ?= dval b).
Proof.
  induction a as [|x a IH]; intros [|y b] A B L; [reflexivity|unfold len in L; cbn in L; lia|unfold len in L; cbn in L; lia|].
  inversion A as [|? ? X A']; subst. inversion B as [|? ? Y B']; subst.
  assert (L' : len a = len b) by (unfold len in *; cbn [length] in L; lia).
  change (dval (x :: a)) with (fold_left dstep a (dstep 0 x)). change (dval (y :: b)) with (fold_left dstep b (dstep 0 y)).
  rewrite !dval_cons. cbn [cmp_text]. pose proof (dval_bound a A') as Ba. pose proof (dval_bound b B') as Bb.
  rewrite L' in *. unfold dstep, digit in *. set (p := 10 ^ len b) in *.
  destruct (N.compare_spec x y) as [->|Q|Q].
  - rewrite IH by auto. destruct (N.compare_spec (dval a) (dval b)) as [E|E|E]; symmetry.
    + apply N.compare_eq_iff. lia.
    + apply N.compare_lt_iff. lia.
    + apply N.compare_gt_iff. lia.
  - symmetry. apply N.compare_lt_iff. assert (0 * 10 + (x - 48) + 1 <= 0 * 10 + (y - 48)) by lia. nia.
  - symmetry. apply N.compare_gt_iff. assert (0 * 10 + (y - 48) + 1 <= 0 * 10 + (x - 48)) by lia. nia.
Qed.
Lemma numeral_low n w : numeral n w -> 1 < len w -> 10 ^ (len w - 1) <= n.
Proof.
  intros (A & F & Z & <-) L. destruct w as [|d w]; [easy|]. inversion F as [|? ? D F']; subst.
  assert (d <> 48). { intros ->. rewrite (Z w eq_refl) in L. unfold len in L. cbn in L. lia. }
  change (dval (d :: w)) with (fold_left dstep w (dstep 0 d)). rewrite dval_cons.
  replace (len (d :: w) - 1) with (len w) by (unfold len; cbn [length]; lia).
  unfold dstep, digit in *. assert (1 <= 0 * 10 + (d - 48)) by lia. nia.
Qed.
Lemma shorter_less m n v w : numeral m v -> numeral n w -> len v < len w -> m < n.
Proof.
  intros V W L. assert (1 <= len v). { destruct V as (A & _). destruct v; [easy|]. unfold len. cbn [length]. lia. }
  pose proof (numeral_low _ _ W ltac:(lia)) as G. destruct V as (_ & F & _ & <-). pose proof (dval_bound _ F) as B.
  eapply N.lt_le_trans; [exact B|]. eapply N.le_trans; [|exact G]. apply N.pow_le_mono_r; lia.
Qed.
Lemma cmp_numeral m n v w : numeral m v -> numeral n w -> then_cmp (len v ?= len w) (cmp_text v w) = (m ?= n).
Proof.
  intros V W. destruct (N.compare_spec (len v) (len w)) as [E|L|L]; cbn.
  - destruct V as (_ & F & _ & <-), W as (_ & G & _ & <-). now apply same_len.
  - symmetry. apply N.compare_lt_iff. eapply shorter_less; eauto.
  - symmetry. apply N.compare_gt_iff. eapply shorter_less; eauto.
Qed.
Lemma cmp_word_ok i j v w : ident_text i v -> ident_text j w ->
  (cmp_word v w = Lt <-> ident_lt i j) /\ (cmp_word v w = Eq <-> i = j).
Proof.
  intros V W. unfold cmp_word. destruct i as [m|x], j as [n|y]; cbn in V, W.
  - pose proof V as (_ & FV & _). pose proof W as (_ & FW & _). apply digits_ok in FV, FW. rewrite FV, FW, (cmp_numeral m n) by auto.
    rewrite N.compare_lt_iff, N.compare_eq_iff. split.
    + split; [now constructor|]. intros H. now inversion H.
    + split; [now intros ->|now intros [= ->]].
  - pose proof V as (_ & FV & _). apply digits_ok in FV. rewrite FV.
    destruct (forallb is_digit w) eqn:D; [apply digits_ok in D; tauto|]. split; [split; [constructor|reflexivity]|easy].
  - pose proof W as (_ & FW & _). apply digits_ok in FW. rewrite FW.
    destruct (forallb is_digit v) eqn:D; [apply digits_ok in D; tauto|]. split; [split; [easy|]|easy]. intros H. inversion H.
  - destruct V as (-> & _ & _ & V), W as (-> & _ & _ & W).
    destruct (forallb is_digit x) eqn:D; [apply digits_ok in D; tauto|].
    destruct (forallb is_digit y) eqn:E; [apply digits_ok in E; tauto|].
    rewrite cmp_text_lt, cmp_text_eq. split.
    + split; [now constructor|]. intros H. now inversion H.
    + split; [now intros ->|now intros [= ->]].
Qed.
Lemma ident_lt_irr i : ~ ident_lt i i.
Proof.
  intros H. inversion H as [? ? L|?|a b L]; subst; [lia|]. clear H. induction a as [|x a IH]; inversion L; subst; [lia|auto].
Qed.
Lemma cmp_words_ok ids : forall jds vs ws, Forall2 ident_text ids vs -> Forall2 ident_text jds ws ->
  (cmp_words vs ws = Lt <-> idents_lt ids jds) /\ (cmp_words vs ws = Eq <-> ids = jds).
Proof.
  induction ids as [|i ids IH]; intros jds vs ws V W.
  - inversion V; subst. inversion W; subst; cbn [cmp_words].
    + split; [split; [easy|]|easy]. intros H. inversion H.
    + split; [split; [constructor|reflexivity]|easy].
  - inversion V as [|? v ? vs' V1 V2]; subst. inversion W as [|j w jds' ws' W1 W2]; subst; cbn [cmp_words].
    { split; [split; [easy|]|easy]. intros Z. inversion Z. }
    destruct (cmp_word_ok i j v w V1 W1) as [C1 C2]. destruct (IH jds' vs' ws' V2 W2) as [I1 I2].
    destruct (cmp_word v w) eqn:Q; cbn [then_cmp].
    + destruct C2 as [C2 _]. specialize (C2 eq_refl). subst j. rewrite I1, I2. split.
      * split; [now constructor 3|]. intros Z. inversion Z as [|? ? ? ? Y|? ? ? Y]; subst; [now apply ident_lt_irr in Y|assumption].
      * split; [now intros ->|now intros [= ->]].
    + split; [split; [|reflexivity]|split; [easy|]].
      * intros _. constructor. now apply C1.
      * intros [= -> _]. destruct C2 as [_ C2]. now specialize (C2 eq_refl).
    + split; [split; [easy|]|split; [easy|]].
      * intros Z. inversion Z as [|? ? ? ? Y|? ? ? Y]; subst; [now apply C1 in Y|]. destruct C2 as [_ C2]. now specialize (C2 eq_refl).
      * intros [= -> _]. destruct C2 as [_ C2]. now specialize (C2 eq_refl).
Qed.
Lemma pre_text_words ids t : pre_text ids t -> t <> [] -> Forall2 ident_text ids (split_dot t).
Proof.
  intros (ws & I & ->) NE. rewrite split_join; [exact I| |].
  - intros ->. now apply NE.
  - eapply Forall2_r; [|exact I]. intros x y X. apply word_nodot. apply ident_chars in X. apply X.
Qed.
Lemma pre_text_nil ids t : pre_text ids t -> (t = [] <-> ids = []).
Proof.
  intros (ws & I & ->). pose proof (Forall2_r _ wordb _ _ ident_chars I) as W. split.
  - intros E. apply join_words_nil in E; [|exact W]. subst ws. now inversion I.
  - intros ->. now inversion I.
Qed.
Lemma cmp_pre_ok ids jds s t : pre_text ids s -> pre_text jds t ->
  (cmp_pre s t = Lt <-> pre_lt ids jds) /\ (cmp_pre s t = Eq <-> ids = jds).
Proof.
  intros A B. pose proof (pre_text_nil _ _ A) as EA. pose proof (pre_text_nil _ _ B) as EB. unfold pre_lt.
  destruct s as [|x s], t as [|y t]; cbn [cmp_pre].
  - destruct EA as [EA _], EB as [EB _]. rewrite EA, EB by reflexivity. split; [split; [easy|]|easy]. tauto.
  - destruct EA as [EA _]. rewrite EA by reflexivity. split; [split; [easy|]|split; [easy|]]; [tauto|].
    intros <-. destruct EB as [_ EB]. now specialize (EB eq_refl).
  - destruct EB as [EB _]. rewrite EB by reflexivity. split; [split; [|reflexivity]|split; [easy|]].
    + intros _. split; [|now left]. intros ->. destruct EA as [_ EA]. now specialize (EA eq_refl).
    + intros ->. destruct EA as [_ EA]. now specialize (EA eq_refl).
  - destruct (cmp_words_ok ids jds (split_dot (x :: s)) (split_dot (y :: t))) as [W1 W2];
      [now apply pre_text_words|now apply pre_text_words|].
    rewrite W1, W2. split; [|reflexivity]. split.
    + intros H. split; [|now right]. intros ->. destruct EA as [_ EA]. now specialize (EA eq_refl).
    + intros [_ [->|H]]; [|exact H]. destruct EB as [_ EB]. now specialize (EB eq_refl).
Qed.

(* ================= C88 ================= *)
(** The versions that are compared carry the same build. *)
Lemma unknown_ident : read_ident false UNKNOWN = Some (UNKNOWN, []).
Proof. reflexivity. Qed.
Lemma build_unknown : build_text UNKNOWN.
Proof. exact (proj1 (proj2 (proj1 (read_ident_iff false _ _ _) unknown_ident))). Qed.
Definition with_build (v : version) (b : list N) : version := mkver (v_major v) (v_minor v) (v_patch v) (v_pre v) b.
Lemma version_new_ok s v : version_new s = Some v <-> exists w, version_text w s /\ v = with_build w UNKNOWN.
Proof.
  unfold version_new, obind. split.
  - destruct (parse s) as [w|] eqn:P; [|intros H; discriminate H]. intros H. exists w. split; [now apply parse_iff|].
    unfold set_commit_id in H. rewrite unknown_ident in H. cbn in H. now injection H as <-.
  - intros (w & T & ->). rewrite (proj2 (parse_iff _ _) T). unfold set_commit_id. now rewrite unknown_ident.
Qed.
Lemma means_with v sm b : means v sm -> build_text b ->
  means (with_build v b) (mksem (s_major sm) (s_minor sm) (s_patch sm) (s_pre sm) b).
Proof. unfold means, with_build. cbn. tauto. Qed.

Lemma cmp_version_ok cb v w sv sw : (forall b, cb b b = Eq) -> v_build v = v_build w -> means v sv -> means w sw ->
  (cmp_version cb v w = Lt <-> precedes sv sw).
Proof.
  intros CB E (V1 & V2 & V3 & VP & _) (W1 & W2 & W3 & WP & _). unfold cmp_version, precedes.
  destruct (cmp_pre_ok _ _ _ _ VP WP) as [P1 P2]. rewrite V1, V2, V3, W1, W2, W3, E, CB.
  destruct (N.compare_spec (s_major sv) (s_major sw)) as [A|A|A]; cbn; [|intuition lia|intuition (try discriminate; lia)].
  destruct (N.compare_spec (s_minor sv) (s_minor sw)) as [B|B|B]; cbn; [|intuition lia|intuition (try discriminate; lia)].
  destruct (N.compare_spec (s_patch sv) (s_patch sw)) as [C|C|C]; cbn; [|intuition lia|intuition (try discriminate; lia)].
  rewrite <- P1. destruct (cmp_pre (v_pre v) (v_pre w)); cbn; intuition (try discriminate; lia).
Qed.

Section Gate.
  Context (cb : list N -> list N -> comparison) (cb_refl : forall b, cb b b = Eq).

  (** What a text names, when it names a version at all; the build does not count. *)
  Definition names (t : list N) (sv : sem) : Prop := exists v, version_text v t /\ means v sv.

  (** C88: exactly what happens to a directory whose file holds [t]. *)
  Theorem C88_gate file current least sl : means least sl -> v_build least = UNKNOWN ->
    (* no file, or an empty one: taken, and the file names the node *)
    ((file = None \/ file = Some []) -> check_version cb file current least = (Ok tt, Some (show current)))
    (* a version that does not precede the least one: taken *)
    /\ (forall t sv, file = Some t -> names t sv -> ~ precedes sv sl ->
          check_version cb file current least = (Ok tt, Some (show current)))
    (* a version before the least one: refused, and the file stays *)
    /\ (forall t sv, file = Some t -> names t sv -> precedes sv sl -> check_version cb file current least = (Err, file))
    (* anything else: the process ends, and the file stays *)
    /\ (forall t, file = Some t -> t <> [] -> (forall sv, ~ names t sv) -> check_version cb file current least = (Panic, file)).
  Proof using cb_refl.
    intros ML BL. unfold check_version.
    assert (NN : forall t sv, names t sv -> t <> []).
    { intros t sv (v & (_ & a & b & c & (A & _) & _ & _ & ->) & _) X. now destruct a. }
    assert (G : forall t sv, names t sv -> exists prev, version_new t = Some prev /\
              (cmp_version cb prev least = Lt <-> precedes sv sl)).
    { intros t sv (v & T & M). exists (with_build v UNKNOWN). split; [apply version_new_ok; now exists v|].
      rewrite (cmp_version_ok cb _ _ (mksem (s_major sv) (s_minor sv) (s_patch sv) (s_pre sv) UNKNOWN) sl); [reflexivity|easy| | |easy].
      - now rewrite BL.
      - apply means_with; [exact M|apply build_unknown]. }
    split; [|split; [|split]].
    - intros [->| ->]; reflexivity.
    - intros t sv -> NM NP. destruct (G _ _ NM) as (prev & E & C). specialize (NN _ _ NM). destruct t as [|x t]; [easy|].
      rewrite E. destruct (cmp_version cb prev least) eqn:Q; [reflexivity| |reflexivity]. now destruct NP; apply C.
    - intros t sv -> NM NP. destruct (G _ _ NM) as (prev & E & C). specialize (NN _ _ NM). destruct t as [|x t]; [easy|].
      rewrite E. destruct C as [_ C]. now rewrite (C NP).
    - intros t -> NE NM. destruct t as [|x t]; [easy|]. destruct (version_new (x :: t)) as [prev|] eqn:Q; [|reflexivity].
      apply version_new_ok in Q as (w & T & _). pose proof T as ((sw & M) & _). now destruct (NM sw); exists w.
  Qed.

  (** The commands touch nothing else of a directory that they may not open: with an older record, or with one that is no version, the rest
      of the command is not started and the record stays; in the other cases the rest decides. *)
  Theorem C88_command file current least sl rest : means least sl -> v_build least = UNKNOWN ->
    (forall t sv, file = Some t -> names t sv -> precedes sv sl -> command cb file current least rest = (Err, false, file))
    /\ (forall t, file = Some t -> t <> [] -> (forall sv, ~ names t sv) -> command cb file current least rest = (Panic, false, file))
    /\ ((file = None \/ file = Some [] \/ exists t sv, file = Some t /\ names t sv /\ ~ precedes sv sl) ->
        command cb file current least rest = (rest, true, Some (show current))).
  Proof using cb_refl.
    intros ML BL. destruct (C88_gate file current least sl ML BL) as (G1 & G2 & G3 & G4). unfold command. split; [|split].
    - intros t sv F NM P. now rewrite (G3 t sv F NM P).
    - intros t F NE NM. now rewrite (G4 t F NE NM).
    - intros [F|[F|(t & sv & F & NM & P)]]; [rewrite G1 by now left|rewrite G1 by now right|rewrite (G2 t sv F NM P)]; reflexivity.
  Qed.

  (** The file written by a node is read back by every node as the version of that node. *)
  Theorem C88_written v sv : means v sv -> names (show v) sv.
  Proof using Type. intros M. exists v. split; [now apply (show_text v sv)|exact M]. Qed.
  (** A text names at most one version. *)
  Theorem C88_unique t v w : version_text v t -> version_text w t -> v = w.
  Proof using Type. intros V W. apply parse_iff in V, W. congruence. Qed.

  (** A crash while the file is replaced leaves the old or the new content. *)
  Theorem C88_crash file current least cut : let f := check_cut cb file current least cut in
    f = file \/ (f = Some (show current) /\ check_version cb file current least = (Ok tt, Some (show current))).
  Proof using Type.
    cbn. unfold check_cut, check_version.
    destruct (match file with Some s => s | None => [] end) as [|x t]; [unfold atomic_write; destruct (Nat.ltb cut 5); auto|].
    destruct (version_new (x :: t)) as [prev|]; [|auto].
    destruct (cmp_version cb prev least); auto; unfold atomic_write; destruct (Nat.ltb cut 5); auto.
  Qed.

  (** Histories: nodes of different versions are started on the directory, some of them interrupted during the check, newest last. *)
  Record start := mkstart { a_current : version; a_least : version; a_cut : option nat; a_rest : outcome unit }.
  Definition do_start (file : option (list N)) (a : start) : option (list N) :=
    match a_cut a with
    | Some k => check_cut cb file (a_current a) (a_least a) k
    | None => snd (command cb file (a_current a) (a_least a) (a_rest a))
    end.
  Definition opened (file : option (list N)) (a : start) : bool :=
    match a_cut a with
    | Some _ => false
    | None => snd (fst (command cb file (a_current a) (a_least a) (a_rest a)))
    end.
  Definition node_ok (a : start) : Prop := (exists s, means (a_current a) s) /\ (exists s, means (a_least a) s) /\ v_build (a_least a) = UNKNOWN.
  Fixpoint files (file : option (list N)) (h : list start) : option (list N) :=
    match h with
    | [] => file
    | a :: r => files (do_start file a) r
    end.

  (** Whatever the history, the file is absent or names a version of one of the nodes, so no later start ends in a panic. *)
  Theorem C88_history h : Forall node_ok h -> forall f, (f = None \/ exists a sv, f = Some (show (a_current a)) /\ means (a_current a) sv) ->
    files f h = None \/ exists a sv, files f h = Some (show (a_current a)) /\ means (a_current a) sv.
  Proof using Type.
    induction 1 as [|a h ((sv & M) & _) _ IH]; intros f F; cbn [files]; [exact F|]. apply IH. unfold do_start.
    destruct (a_cut a) as [k|].
    - destruct (C88_crash f (a_current a) (a_least a) k) as [->|[-> _]]; [exact F|]. right. now exists a, sv.
    - unfold command, check_version. destruct (match f with Some s => s | None => [] end) as [|x t]; [right; now exists a, sv|].
      destruct (version_new (x :: t)) as [prev|]; [|exact F].
      destruct (cmp_version cb prev (a_least a)); cbn; [right; now exists a, sv|exact F|right; now exists a, sv].
  Qed.
  Theorem C88_no_panic h a : Forall node_ok h -> node_ok a ->
    fst (check_version cb (files None h) (a_current a) (a_least a)) <> Panic.
  Proof using cb_refl.
    intros F (_ & (sl & ML) & BL). destruct (C88_gate (files None h) (a_current a) (a_least a) sl ML BL) as (G1 & G2 & G3 & _).
    destruct (C88_history h F None (or_introl eq_refl)) as [E|(b & sv & E & M)].
    - rewrite G1 by auto. easy.
    - pose proof (C88_written _ _ M) as NM. unfold check_version in *.
      destruct (cmp_version cb (with_build (a_current b) UNKNOWN) (a_least a)) eqn:Q.
      1: rewrite (G2 _ _ E NM); [easy|].
      3: rewrite (G2 _ _ E NM); [easy|].
      2: rewrite (G3 _ _ E NM); [easy|].
      all: rewrite <- (cmp_version_ok cb (with_build (a_current b) UNKNOWN) (a_least a)
             (mksem (s_major sv) (s_minor sv) (s_patch sv) (s_pre sv) UNKNOWN) sl);
             [congruence|exact cb_refl|now rewrite BL|now apply means_with, build_unknown|exact ML].
  Qed.
  (** A node whose version does not precede the least one it accepts is never shut out by its own mark: after it has been let in
      once, it is let in again. *)
  Theorem C88_again file a sc sl : means (a_current a) sc -> means (a_least a) sl -> v_build (a_least a) = UNKNOWN -> ~ precedes sc sl ->
    fst (check_version cb file (a_current a) (a_least a)) = Ok tt ->
    snd (check_version cb file (a_current a) (a_least a)) = Some (show (a_current a))
    /\ check_version cb (Some (show (a_current a))) (a_current a) (a_least a) = (Ok tt, Some (show (a_current a))).
  Proof using cb_refl.
    intros MC ML BL NP H. split.
    - unfold check_version in *. destruct (match file with Some s => s | None => [] end) as [|x t]; [reflexivity|].
      destruct (version_new (x :: t)) as [prev|]; [|discriminate H].
      destruct (cmp_version cb prev (a_least a)); [reflexivity|discriminate H|reflexivity].
    - destruct (C88_gate (Some (show (a_current a))) (a_current a) (a_least a) sl ML BL) as (_ & G & _).
      apply (G _ sc eq_refl); [apply C88_written; exact MC|exact NP].
  Qed.
End Gate.

(** The least version of this source, and its own version "0.3.1-beta" (Cargo.toml 3) with a commit id. *)
Definition ver (a b c : N) (p q : list N) : version := mkver a b c p q.
Definition BETA : list N := [98; 101; 116; 97].
Definition LEAST : version := ver 0 1 0 (BETA ++ [46; 49]) UNKNOWN.
Definition HERE : version := ver 0 3 1 BETA [97; 49; 98; 50].
Example least_is : latest_compatible = Some LEAST. Proof. reflexivity. Qed.
Example here_is : version_new_with [48; 46; 51; 46; 49; 45; 98; 101; 116; 97] [97; 49; 98; 50] = Some HERE. Proof. reflexivity. Qed.
Lemma parsed_means s v : parse s = Some v -> exists sv, means v sv.
Proof. intros H. apply parse_iff in H. apply H. Qed.
Example least_means : exists sl, means LEAST sl.
Proof. apply (parsed_means (show LEAST)). reflexivity. Qed.
Example here_means : exists s, means HERE s.
Proof. apply (parsed_means (show HERE)). reflexivity. Qed.
(** 0.1.0-alpha.9, 0.1.0-beta.0 are refused, 0.1.0-beta.1, 0.1.0-beta.10, 0.1.0 and 0.2.0-alpha taken. *)
Definition taken (v : version) : bool :=
  match fst (check_version (fun _ _ => Eq) (Some (show v)) HERE LEAST) with Ok _ => true | _ => false end.
Example gate_cases :
  map taken [ver 0 1 0 [97; 108; 112; 104; 97; 46; 57] []; ver 0 1 0 (BETA ++ [46; 48]) []; ver 0 1 0 BETA []]
    = [false; false; false]
  /\ map taken [ver 0 1 0 (BETA ++ [46; 49]) []; ver 0 1 0 (BETA ++ [46; 49; 48]) []; ver 0 1 0 [] []; ver 0 2 0 [97] [98]; HERE]
    = [true; true; true; true; true].
Proof. split; reflexivity. Qed.

(** False: "data written by a newer node is not opened by an older one" - any later version is taken and the mark set back. *)
Definition NEWER : version := ver 9 0 0 [] [].
Theorem C88_downgrade_refuted : exists file current least sv sc, names file sv /\ means current sc /\ precedes sc sv /\
  Some least = latest_compatible /\
  check_version (fun _ _ => Eq) (Some file) current least = (Ok tt, Some (show current)).
Proof.
  exists (show NEWER), HERE, LEAST.
  assert (P1 : parse (show NEWER) = Some NEWER) by reflexivity. assert (P2 : parse (show HERE) = Some HERE) by reflexivity.
  apply parse_iff in P1, P2. pose proof P1 as ((sv & V) & _). pose proof P2 as ((sc & C) & _). exists sv, sc.
  split; [now exists NEWER|]. split; [exact C|]. split; [|split; reflexivity].
  left. destruct V as (<- & _), C as (<- & _). cbn. lia.
Qed.
(** False: "a text that is not a version is an error" - a line break after the version ends the process. *)
Theorem C88_newline_refuted : exists file current least, Some least = latest_compatible /\
  fst (check_version (fun _ _ => Eq) (Some file) current least) = Panic.
Proof. exists (show HERE ++ [10]), HERE, LEAST. split; reflexivity. Qed.
(** False: "a command that fails leaves the mark" - the mark is set before the rest is tried. *)
Theorem C88_failed_refuted : exists file current least r, Some least = latest_compatible /\
  command (fun _ _ => Eq) file current least Err = (Err, true, r) /\ r <> file.
Proof. exists None, HERE, LEAST, (Some (show HERE)). repeat split. intros H. discriminate H. Qed.

(* ================= C89 ================= *)
(** What the operator asks for: the number of the last block to be made. *)
Definition asked (current : N) (mine_blocks mine_to_height : option N) (t : N) : Prop :=
  (mine_blocks = Some (t - current) /\ current <= t /\ mine_to_height = None) \/ (mine_blocks = None /\ mine_to_height = Some t).
Definition by_consensus (e : event) : Prop := match e with Commit _ _ _ => True | Sync => False end.
(** overlord hands over blocks of the next height, or of one it has passed *)
Inductive orderly : node -> list event -> Prop :=
| or_nil s : orderly s []
| or_commit s k l f es : k <= n_last s + 1 -> orderly (step s (Commit k l f)) es -> orderly s (Commit k l f :: es)
| or_sync s es : orderly (step s Sync) es -> orderly s (Sync :: es).

Lemma start_asked current mb mh t : current + 1 < 2 ^ 64 -> t < 2 ^ 64 -> asked current mb mh t ->
  started current mb mh = Ok (mknode current (Some t) true).
Proof.
  intros L T [(-> & G & ->)|(-> & ->)]; unfold started, stop_height; cbn [choose]; rewrite (proj2 (N.leb_gt _ _)) by lia.
  - rewrite (proj2 (N.leb_gt _ _)) by lia. now replace (current + (t - current)) with t by lia.
  - reflexivity.
Qed.

Definition reach (t : N) (s : node) : Prop := n_stop s = Some t /\ n_last s <= t /\ (n_open s = false -> n_last s = t).
(** C89: as long as blocks come by consensus, no block above the asked one is made, and the node ends with the asked one as its
    last; and asking to commit the next one is what ends it. *)
Theorem C89_consensus_partial current mb mh t s0 es : current + 1 < 2 ^ 64 -> t < 2 ^ 64 -> asked current mb mh t -> current <= t ->
  started current mb mh = Ok s0 -> orderly s0 es -> Forall by_consensus es ->
  let s := steps s0 es in
  n_last s <= t /\ (is_stopped s = true -> n_last s = t)
  /\ (n_last s = t -> forall l f, is_stopped (fst (commit s (t + 1) l f)) = true /\ n_last (fst (commit s (t + 1) l f)) = t)
  /\ (n_last s < t -> snd (commit s (n_last s + 1) false true) = Done).
Proof.
  intros L T A C ST OR FC.
  assert (R0 : reach t s0 /\ (n_open s0 = true -> n_last s0 <= t)).
  { rewrite (start_asked _ _ _ _ L T A) in ST. injection ST as <-. unfold reach. cbn. repeat split; try easy. }
  destruct R0 as [R0 _]. clear ST A.
  assert (R : reach t (steps s0 es)).
  { revert FC. induction OR as [s|s k l f es K OR IH|s es OR IH]; intros FC; [exact R0| |inversion FC as [|? ? X ?]; destruct X].
    inversion FC as [|? ? _ FC']; subst. cbn [steps fold_left]. apply IH; [|exact FC'].
    destruct R0 as (S & Le & O). cbn [step]. unfold commit, check_send, is_stopped. rewrite S.
    destruct (N.eqb_spec (k - 1) t) as [E|E].
    - cbn. unfold reach. cbn. split; [reflexivity|]. split; [exact Le|]. intros _. lia.
    - assert (R1 : reach t s) by (split; [exact S|split; [exact Le|exact O]]).
      destruct (n_open s) eqn:OP; cbn; [|exact R1].
      destruct l; [exact R1|]. destruct (N.eqb_spec k (n_last s)) as [->|N1]; [exact R1|].
      destruct (N.eqb_spec k (n_last s + 1)) as [->|N2]; cbn; [|exact R1].
      destruct f; cbn; [|exact R1]. unfold reach. cbn. split; [exact S|]. split; [lia|]. intros X. discriminate X. }
  cbn zeta. destruct R as (S & Le & O). split; [exact Le|]. split.
  { unfold is_stopped. intros X. apply O. now destruct (n_open (steps s0 es)). }
  split.
  - intros E l f. unfold commit, check_send. rewrite S. replace (t + 1 - 1) with t by lia. rewrite N.eqb_refl. cbn. now split.
  - intros Lt. unfold commit, check_send. rewrite S. replace (n_last (steps s0 es) + 1 - 1) with (n_last (steps s0 es)) by lia.
    rewrite (proj2 (N.eqb_neq _ _)) by lia. unfold is_stopped.
    destruct (n_open (steps s0 es)) eqn:OP; [|specialize (O eq_refl); lia].
    cbn. rewrite (proj2 (N.eqb_neq _ _)) by lia. now rewrite N.eqb_refl.
Qed.

(** With synchronisation too: the node never ends before the asked block is stored. *)
Theorem C89_never_early current mb mh t s0 es : current + 1 < 2 ^ 64 -> t < 2 ^ 64 -> asked current mb mh t ->
  started current mb mh = Ok s0 -> orderly s0 es -> is_stopped (steps s0 es) = true -> t <= n_last (steps s0 es).
Proof.
  intros L T A ST OR. rewrite (start_asked _ _ _ _ L T A) in ST. injection ST as <-. unfold is_stopped.
  set (s0 := mknode current (Some t) true) in *.
  assert (R0 : n_stop s0 = Some t /\ (n_open s0 = false -> t <= n_last s0)) by (cbn; easy).
  enough (R : n_stop (steps s0 es) = Some t /\ (n_open (steps s0 es) = false -> t <= n_last (steps s0 es))).
  { intros X. apply R. now destruct (n_open (steps s0 es)). }
  clearbody s0. clear - OR R0. induction OR as [s|s k l f es K OR IH|s es OR IH]; [exact R0| |].
  - cbn [steps fold_left]. apply IH. destruct R0 as (S & O). cbn [step]. unfold commit, check_send, is_stopped. rewrite S.
    destruct (N.eqb_spec (k - 1) t) as [E|E]; [cbn; split; [reflexivity|]; intros _; lia|].
    assert (R1 : n_stop s = Some t /\ (n_open s = false -> t <= n_last s)) by (split; [exact S|exact O]).
    destruct (n_open s) eqn:OP; cbn; [|cbn; rewrite ?OP; exact R1].
    destruct l; [cbn; rewrite ?OP; exact R1|]. destruct (k =? n_last s); [cbn; rewrite ?OP; exact R1|].
    destruct (k =? n_last s + 1); cbn; [|cbn; rewrite ?OP; exact R1].
    destruct f; cbn; [|cbn; rewrite ?OP; exact R1]. split; [exact S|]. intros Z. discriminate Z.
  - cbn [steps fold_left]. apply IH. destruct R0 as (S & O). cbn. split; [exact S|]. intros X. specialize (O X). lia.
Qed.

(** Once ended, the node commits nothing more. *)
Theorem C89_final s es k l f : is_stopped s = true -> is_stopped (steps s es) = true /\ snd (commit (steps s es) k l f) = Shutdown.
Proof.
  assert (ST : forall s k l f, is_stopped s = true -> commit s k l f = (check_send s (k - 1), Shutdown) /\ is_stopped (check_send s (k - 1)) = true).
  { intros s' k' l' f' X. assert (Y : is_stopped (check_send s' (k' - 1)) = true).
    { unfold check_send. destruct (n_stop s') as [t|]; [|exact X]. destruct (k' - 1 =? t); [reflexivity|exact X]. }
    unfold commit. now rewrite Y. }
  intros X. assert (R : is_stopped (steps s es) = true).
  { revert s X. induction es as [|e es IH]; intros s X; cbn [steps fold_left]; [exact X|]. apply IH. destruct e as [k' l' f'|]; cbn [step].
    - destruct (ST s k' l' f' X) as [-> Y]. exact Y.
    - exact X. }
  split; [exact R|]. now destruct (ST _ k l f R) as [-> _].
Qed.

(** False in general.  A height that lies behind is never noticed: whatever is committed or synchronised later, the node runs on. *)
Theorem C89_behind current h s0 es : current + 1 < 2 ^ 64 -> h < current -> started current None (Some h) = Ok s0 ->
  Forall (fun e => match e with Commit k _ _ => current < k | Sync => True end) es -> is_stopped (steps s0 es) = false.
Proof.
  intros L H ST F. unfold started, stop_height in ST. cbn [choose] in ST. rewrite (proj2 (N.leb_gt _ _)) in ST by lia. injection ST as <-.
  unfold is_stopped. set (s0 := mknode current (Some h) true) in *.
  assert (R0 : n_stop s0 = Some h /\ n_open s0 = true) by easy. clearbody s0.
  enough (R : n_stop (steps s0 es) = Some h /\ n_open (steps s0 es) = true) by (destruct R as [_ ->]; reflexivity).
  revert s0 R0. induction F as [|e es E F IH]; intros s [S O]; [easy|]. cbn [steps fold_left]. apply IH. destruct e as [k l f|]; cbn [step].
  - unfold commit, check_send, is_stopped. rewrite S. rewrite (proj2 (N.eqb_neq _ _)) by lia. rewrite O. cbn.
    destruct l; [easy|]. destruct (k =? n_last s); [easy|]. destruct (k =? n_last s + 1); [|easy]. now destruct f.
  - easy.
Qed.
Theorem C89_behind_refuted : exists current h s0, h < current /\ started current None (Some h) = Ok s0 /\
  forall es, Forall (fun e => match e with Commit k _ _ => current < k | Sync => True end) es -> is_stopped (steps s0 es) = false.
Proof.
  exists 10, 9, (mknode 10 (Some 9) true). split; [lia|]. split; [reflexivity|]. intros es F. apply (C89_behind 10 9); [lia|lia|reflexivity|exact F].
Qed.
(** A node that synchronises past the height runs on as well, and one that is handed the decided block while it stores it by
    synchronisation ends one block late. *)
Theorem C89_sync_refuted : exists s0 es, started 10 (Some 2) None = Ok s0 /\ orderly s0 es /\
  n_last (steps s0 es) = 20 /\ is_stopped (steps s0 es) = false.
Proof.
  exists (mknode 10 (Some 12) true), [Commit 11 false true; Sync; Sync; Sync; Commit 15 false true; Commit 16 false true; Commit 17 false true;
    Commit 18 false true; Commit 19 false true; Commit 20 false true].
  split; [reflexivity|]. split; [repeat (first [apply or_nil|apply or_sync|apply or_commit; [vm_compute; intros Z; discriminate Z|]])|]. split; reflexivity.
Qed.
Theorem C89_late_refuted : exists s0 es, started 10 (Some 2) None = Ok s0 /\ orderly s0 es /\
  n_last (steps s0 es) = 13 /\ is_stopped (steps s0 es) = true.
Proof.
  exists (mknode 10 (Some 12) true), [Commit 11 false true; Commit 12 false true; Sync; Commit 13 true false].
  split; [reflexivity|]. split; [repeat (first [apply or_nil|apply or_sync|apply or_commit; [vm_compute; intros Z; discriminate Z|]])|]. split; reflexivity.
Qed.
(** Both options together mean no option. *)
Theorem C89_both_refuted : forall current b h, current + 1 < 2 ^ 64 -> exists s0, started current (Some b) (Some h) = Ok s0 /\
  forall es, is_stopped (steps s0 es) = false.
Proof.
  intros current b h L. exists (mknode current None true). split.
  - unfold started, stop_height. cbn [choose]. rewrite (proj2 (N.leb_gt _ _)) by lia. reflexivity.
  - intros es. set (s0 := mknode current None true).
    assert (R0 : n_stop s0 = None /\ n_open s0 = true) by easy. clearbody s0.
    enough (R : n_stop (steps s0 es) = None /\ n_open (steps s0 es) = true) by (destruct R as [_ X]; unfold is_stopped; now rewrite X).
    revert s0 R0. induction es as [|e es IH]; intros s [S O]; [easy|]. cbn [steps fold_left]. apply IH. destruct e as [k l f|]; cbn [step]; [|easy].
    unfold commit, check_send, is_stopped. rewrite S, O. cbn.
    destruct l; [easy|]. destruct (k =? n_last s); [easy|]. destruct (k =? n_last s + 1); [|easy]. now destruct f.
Qed.
(** A number of blocks that does not fit ends the node at once. *)
Theorem C89_overflow_refuted : exists current n, started current (Some n) None = Panic.
Proof. exists 1, (2 ^ 64 - 1). reflexivity. Qed.

Example C89_example : exists s0, started 10 (Some 2) None = Ok s0
  /\ asked 10 (Some 2) None 12
  /\ steps s0 [Commit 11 false false; Commit 11 false true; Commit 12 false true; Commit 13 false true] = mknode 12 (Some 12) false.
Proof. exists (mknode 10 (Some 12) true). split; [reflexivity|]. split; [left; split; [reflexivity|split; [lia|reflexivity]]|reflexivity]. Qed.

Print Assumptions C88_gate.
Print Assumptions C88_command.
Print Assumptions C88_written.
Print Assumptions C88_unique.
Print Assumptions C88_crash.
Print Assumptions C88_history.
Print Assumptions C88_no_panic.
Print Assumptions C88_again.
Print Assumptions C88_downgrade_refuted.
Print Assumptions C88_newline_refuted.
Print Assumptions C88_failed_refuted.
Print Assumptions C89_consensus_partial.
Print Assumptions C89_never_early.
Print Assumptions C89_final.
Print Assumptions C89_behind.
Print Assumptions C89_behind_refuted.
Print Assumptions C89_sync_refuted.
Print Assumptions C89_late_refuted.
Print Assumptions C89_both_refuted.
Print Assumptions C89_overflow_refuted.
