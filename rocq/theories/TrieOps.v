(** Proofs about look-up, insertion, removal and commit: on a node that represents a tree they act on the tree as on a map. *)
From Verif Require Import Bytes BytesProofs Rlp RlpProofs TxModel TrieModel TrieProofs TrieCodec.
From Coq Require Import NArith List Lia.
Import ListNotations.
Local Open Scope N_scope.

(* ---------------- lists ---------------- *)
Lemma set_nth_length {A} (l : list A) x : forall i, length (set_nth i x l) = length l.
Proof. induction l as [|y l IH]; intros [|i]; cbn; auto. Qed.
Lemma nth_set_nth {A} (l : list A) x d : forall i j, (i < length l)%nat -> nth j (set_nth i x l) d = if Nat.eqb j i then x else nth j l d.
Proof. induction l as [|y l IH]; intros [|i] [|j] L; cbn in *; try lia; auto. apply IH. lia. Qed.
Lemma Forall_set_nth {A} (P : A -> Prop) l x : forall i, Forall P l -> P x -> Forall P (set_nth i x l).
Proof. induction l as [|y l IH]; intros [|i] F X; cbn; auto; inversion F; subst; constructor; auto. Qed.
Lemma Forall2_set_nth {A B} (R : A -> B -> Prop) l m x y : forall i, Forall2 R l m -> R x y -> Forall2 R (set_nth i x l) (set_nth i y m).
Proof. intros i F X. revert i. induction F; intros [|i]; cbn; auto. Qed.
Lemma Forall2_nth_error {A B} (R : A -> B -> Prop) l m d : forall i, Forall2 R l m -> (i < length m)%nat -> exists x, nth_error l i = Some x /\ R x (nth i m d).
Proof. intros i F. revert i. induction F as [|x y l m X F IH]; intros [|i] L; cbn in *; [lia|lia|eauto|]. apply IH. lia. Qed.
Lemma skipn_app_all {A} (c r : list A) : skipn (length c) (c ++ r) = r.
Proof. now rewrite skipn_app, skipn_all, Nat.sub_diag. Qed.
Lemma firstn_app_all {A} (c r : list A) : firstn (length c) (c ++ r) = c.
Proof. rewrite firstn_app, firstn_all, Nat.sub_diag. cbn. apply app_nil_r. Qed.
Lemma nth_error_app_mid {A} (c r : list A) x : nth_error (c ++ x :: r) (length c) = Some x.
Proof. rewrite nth_error_app2 by lia. now rewrite Nat.sub_diag. Qed.
Lemma skipn_app_S {A} (c r : list A) x : skipn (S (length c)) (c ++ x :: r) = r.
Proof. induction c; cbn; auto. Qed.

Lemma used_set_in ts t : forall i, (i < length ts)%nat -> t <> TE -> (used ts <= used (set_nth i t ts))%nat.
Proof.
  unfold used. induction ts as [|c ts IH]; intros [|i] L N; cbn in *; try lia.
  - destruct t; [easy|..]; destruct c; cbn; lia.
  - specialize (IH i ltac:(lia) N). destruct c; cbn; lia.
Qed.
Lemma used_set_out ts t : forall i, (used ts <= S (used (set_nth i t ts)))%nat.
Proof.
  unfold used. induction ts as [|c ts IH]; intros [|i]; cbn in *; try lia.
  - destruct t, c; cbn; lia.
  - specialize (IH i). destruct c; cbn; lia.
Qed.
Lemma used_one ts t : forall i, (i < length ts)%nat -> t <> TE -> (forall j, nth j ts TE = TE) -> used (set_nth i t ts) = 1%nat.
Proof.
  unfold used. induction ts as [|c ts IH]; intros [|i] L N A; cbn in *; try lia.
  - assert (Z : filter (fun t0 => negb (is_te t0)) ts = []).
    { clear - A. assert (F : forall x, In x ts -> x = TE) by (intros x I; destruct (In_nth _ _ TE I) as (j & _ & <-); apply (A (S j))).
      clear A. induction ts as [|y ts IH]; cbn; [reflexivity|]. rewrite (F y) by now left. cbn. apply IH. intros x I. apply F. now right. }
    rewrite Z. now destruct t.
  - pose proof (A 0%nat) as A0. cbn in A0. subst c. cbn. apply IH; [lia|exact N|]. intros j. apply (A (S j)).
Qed.
Lemma nth_repeat_TE n i : nth i (repeat TE n) TE = TE.
Proof. revert i. induction n; intros [|i]; cbn; auto. Qed.
Lemma used_two i j t u : (i < 16)%nat -> (j < 16)%nat -> i <> j -> t <> TE -> u <> TE -> (2 <= used (set_nth j u (set_nth i t (repeat TE 16))))%nat.
Proof.
  intros Li Lj D T U. rewrite <- (repeat_length TE 16) in Li, Lj.
  assert (G : forall l k x y m, (k < length l)%nat -> (m < length l)%nat -> k <> m -> x <> TE -> y <> TE -> (forall z, nth z l TE = TE) ->
    (2 <= used (set_nth m y (set_nth k x l)))%nat).
  { clear. intros l. induction l as [|c l IH]; intros [|k] x y [|m] K M D X Y A; cbn in K, M; try lia; cbn [set_nth].
    - assert (P : used (set_nth m y l) = 1%nat) by (apply used_one; [lia|exact Y|intros z; apply (A (S z))]).
      unfold used in *. destruct x; [easy|..]; cbn; lia.
    - assert (P : used (set_nth k x l) = 1%nat) by (apply used_one; [lia|exact X|intros z; apply (A (S z))]).
      unfold used in *. destruct y; [easy|..]; cbn; lia.
    - pose proof (A 0%nat) as A0. cbn in A0. subst c. unfold used in *. cbn. apply IH; try lia; auto. intros z. apply (A (S z)). }
  apply G; auto. intros z. apply nth_repeat_TE.
Qed.

(* ---------------- paths ---------------- *)
(** Two paths that part at nibbles: neither is a start of the other. *)
Definition diverge (p q : list N) : Prop := exists c i j r s, p = c ++ i :: r /\ q = c ++ j :: s /\ i <> j /\ nib i /\ nib j.
Definition compat (t : tree) (p : list N) : Prop := forall q, term q -> tget t q <> None -> q = p \/ diverge p q.
Lemma diverge_app c p q : diverge (c ++ p) (c ++ q) -> diverge p q.
Proof.
  induction c as [|x c IH]; cbn; [easy|]. intros (d & i & j & r & s & E & F & D & I & J).
  destruct d as [|y d]; cbn in E, F; [injection E as -> _; injection F as -> _; easy|].
  injection E as -> E. injection F as F. apply IH. exists d, i, j, r, s. auto.
Qed.
Lemma diverge_cons c p q : diverge p q -> diverge (c ++ p) (c ++ q).
Proof. intros (d & i & j & r & s & -> & -> & D). exists (c ++ d), i, j, r, s. now rewrite <- !app_assoc. Qed.
Lemma diverge_head a b c p q : a <> b -> diverge (c ++ a :: p) (c ++ b :: q) -> nib a /\ nib b.
Proof.
  intros N D. apply diverge_app in D as (d & i & j & r & s & E & F & D & I & J).
  destruct d as [|y d]; cbn in E, F; [injection E as -> _; injection F as -> _; auto|].
  injection E as -> _. injection F as -> _. easy.
Qed.
Lemma term_cp p q : term p -> term q -> forall c : list N, common_prefix p q = length c -> (length c = length q)%nat -> p = q.
Proof.
  intros T U c E L. rewrite L in E. apply cp_full in E as (r & ->). destruct (term_split _ U) as (h & -> & F).
  rewrite <- app_assoc in T. apply term_skip in T; [|exact F]. cbn in T. apply term_inv in T as [[_ ->]|[X _]]; [now rewrite app_nil_r|unfold nib in X; lia].
Qed.
Lemma term_part p q : term p -> term q -> p <> q -> exists c i j r s, p = c ++ i :: r /\ q = c ++ j :: s /\ i <> j /\ common_prefix p q = length c.
Proof.
  intros T U NE. destruct (cp_split p q) as (c & p' & q' & E & F & L & D). destruct p' as [|i r], q' as [|j s].
  - subst. now rewrite !app_nil_r in NE.
  - rewrite app_nil_r in E. subst c. exfalso. apply NE. symmetry. eapply (term_cp q p U T p); [|reflexivity].
    rewrite F. clear. induction p as [|x p IH]; cbn; [reflexivity|]. rewrite N.eqb_refl. now rewrite IH.
  - rewrite app_nil_r in F. subst c. exfalso. apply NE. eapply (term_cp p q T U q); [now rewrite L|reflexivity].
  - exists c, i, j, r, s. repeat split; auto. eapply D; reflexivity.
Qed.
Lemma Forall_app_inv {A} (P : A -> Prop) l m : Forall P (l ++ m) -> Forall P l /\ Forall P m.
Proof. apply Forall_app. Qed.
Lemma term_nibs c i r : term (c ++ i :: r) -> i <> 16 -> Forall nib c /\ nib i /\ term r.
Proof.
  induction c as [|x c IH]; cbn; intros T I.
  - apply term_inv in T as [[X _]|[X Y]]; [easy|]. repeat split; auto.
  - apply term_inv in T as [[_ X]|[X Y]]; [now destruct c|]. destruct (IH Y I) as (F & G & H). repeat split; auto.
Qed.
Lemma term_pre c i r : term (c ++ i :: r) -> Forall nib c.
Proof.
  induction c as [|x c IH]; cbn; intros T; [constructor|]. apply term_inv in T as [[_ X]|[X Y]]; [now destruct c|]. constructor; auto.
Qed.
Lemma tget_X_other x t p q c i j r s : x = c ++ i :: r -> q = c ++ j :: s -> i <> j -> p = q -> tget (TX x t) p = None.
Proof.
  intros -> -> D ->. destruct (tget (TX (c ++ i :: r) t) (c ++ j :: s)) as [v|] eqn:G; [|reflexivity].
  apply tget_X_inv in G as (a & E & _). rewrite <- app_assoc in E. apply app_inv_head in E. cbn in E. injection E as -> _. easy.
Qed.
Lemma beqb_refl a : beqb a a = true.
Proof. now apply beqb_eq. Qed.
Lemma beqb_neq a b : a <> b -> beqb a b = false.
Proof. intros N. destruct (beqb a b) eqn:E; [|reflexivity]. apply beqb_eq in E. easy. Qed.
Lemma beqb_app c a b : beqb (c ++ a) (c ++ b) = beqb a b.
Proof.
  destruct (beqb a b) eqn:E; [apply beqb_eq in E; subst; apply beqb_refl|]. apply beqb_neq. intros H. apply app_inv_head in H. subst. now rewrite beqb_refl in E.
Qed.

Lemma ins_E f db p v : insert_at (S f) db Empty p v = Ok (Leaf p v).
Proof. reflexivity. Qed.
Lemma ins_B f db ch o i r v : insert_at (S f) db (Branch ch o) (i :: r) v = if i =? 16 then Ok (Branch ch (Some v))
  else let! c := opt_panic (nth_error ch (N.to_nat i)) in let! c := insert_at f db c r v in Ok (Branch (set_nth (N.to_nat i) c ch) o).
Proof. reflexivity. Qed.
Lemma ins_X f db x c p v : insert_at (S f) db (Ext x c) p v =
  let m := common_prefix p x in
  if Nat.eqb m 0 then
    let! i := opt_panic (nth_error x 0) in
    let! b := branch_insert (empty_children, None) i (if Nat.eqb (length x) 1 then c else Ext (skipn 1 x) c) in
    insert_at f db (Branch (fst b) (snd b)) p v
  else if Nat.eqb m (length x) then let! c := insert_at f db c (skipn m p) v in Ok (Ext x c)
  else let! c := insert_at f db (Ext (skipn m x) c) (skipn m p) v in Ok (Ext (firstn m x) c).
Proof. reflexivity. Qed.

Section Ops.
  Variable keccak : bytes -> bytes.
  Hypothesis keccak_32 : forall b, length (keccak b) = 32%nat.
  Hypothesis keccak_wf : forall b, wf_bytes (keccak b).
  Local Notation encT := (encT keccak).
  Local Notation shallow := (shallow keccak).
  Local Notation cnode := (cnode keccak).

  (** All nodes below [t] that are named by their hash are in the database. *)
  Inductive stored (db : database) : tree -> Prop :=
  | st_E : stored db TE
  | st_L k v : stored db (TL k v)
  | st_X x c : (32 <= len (encT c) -> db (keccak (encT c)) = Some (encT c)) -> stored db c -> stored db (TX x c)
  | st_B ts : Forall (fun c => (32 <= len (encT c) -> db (keccak (encT c)) = Some (encT c)) /\ stored db c) ts -> stored db (TB ts).
  (** What a node represents. *)
  Inductive rep (db : database) : node -> tree -> Prop :=
  | rep_E : rep db Empty TE
  | rep_L k v : rep db (Leaf k v) (TL k v)
  | rep_X x n t : rep db n t -> rep db (Ext x n) (TX x t)
  | rep_B ch ts : Forall2 (rep db) ch ts -> rep db (Branch ch None) (TB ts)
  | rep_H t : 32 <= len (encT t) -> db (keccak (encT t)) = Some (encT t) -> stored db t -> rep db (HashN (keccak (encT t))) t.

  Lemma rep_shallow db t : stored db t -> rep db (shallow t) t.
  Proof.
    induction t as [|k v|x t IH|ts IH] using tree_ind'; intros S; inversion S as [| |? ? D S'|? F]; subst; cbn; try constructor.
    - destruct (N.ltb_spec (len (encT t)) 32); [now apply IH|]. constructor; auto.
    - clear S. induction F as [|c ts [D S] F IHF]; [constructor|]. inversion IH; subst. cbn. constructor; [|now apply IHF].
      destruct (N.ltb_spec (len (encT c)) 32); [auto|constructor; auto].
  Qed.
  Lemma shallow_not_hash t : forall h, shallow t <> HashN h.
  Proof. destruct t; discriminate. Qed.
  Lemma recover_ok db t d : wfr d t -> N.of_nat d <= 2 ^ 30 -> db (keccak (encT t)) = Some (encT t) -> recover db (keccak (encT t)) = Ok (shallow t).
  Proof. intros W D G. unfold recover. rewrite G. eapply decode_ok; eauto. Qed.
  Lemma rep_TE_hash db h : ~ rep db (HashN h) TE.
  Proof. intros R. inversion R as [| | | |? L]; subst. vm_compute in L. now apply L. Qed.

  (* ---------------- look-up ---------------- *)
  Theorem get_ok db : forall d n t p f, rep db n t -> wfr d t -> N.of_nat d <= 2 ^ 30 -> term p -> (2 * d + 2 <= f)%nat -> get_at f db n p = Ok (tget t p).
  Proof.
    induction d as [d IHd] using lt_wf_ind.
    assert (direct : forall n t p f, (forall h, n <> HashN h) -> rep db n t -> wfr d t -> N.of_nat d <= 2 ^ 30 -> term p -> (2 * d + 1 <= f)%nat ->
      get_at f db n p = Ok (tget t p)).
    { intros n t p f NH R W D T Lf. destruct f as [|f]; [lia|]. destruct R as [|k v|x n t R|ch ts R|t]; cbn [get_at]; try reflexivity.
      - destruct W as [W|W]; [discriminate W|]. inversion W as [|? e ? ? NX FX TBx Lx Wx|]; subst. cbn [tget].
        destruct (Nat.eqb_spec (common_prefix p x) (length x)) as [E|E]; [|reflexivity]. rewrite E.
        destruct (cp_full _ _ E) as (q & ->). rewrite skipn_app_all. destruct x as [|x0 x]; [easy|]. cbn [length] in Lx.
        apply (IHd e); [lia|exact R|now right|lia|now apply term_skip in T|lia].
      - destruct W as [W|W]; [discriminate W|]. inversion W as [| |? e ? L16 Le FT US]; subst.
        destruct p as [|i r]; [inversion T|]. rewrite tget_B. apply term_inv in T as [[-> ->]|[I T]]; [reflexivity|].
        unfold nib in I. rewrite (proj2 (N.eqb_neq i 16)) by lia.
        destruct (Forall2_nth_error _ _ _ TE (N.to_nat i) R) as (c & -> & Rc); [lia|]. cbn [opt_panic obnd].
        apply (IHd e); [lia|exact Rc| |lia|exact T|lia]. apply (Forall_nth' _ _ _ TE FT). lia.
      - now destruct (NH (keccak (encT t))). }
    intros n t p f R W D T Lf. destruct n as [|k v|x n|ch v|h]; try (apply direct; auto; [easy|lia]).
    inversion R as [| | | |? L G S]; subst. destruct f as [|f]; [lia|]. cbn [get_at]. rewrite (recover_ok db t d) by auto. cbn [obnd].
    apply direct; auto; [apply shallow_not_hash|now apply rep_shallow|lia].
  Qed.

  (* ---------------- insertion ---------------- *)
  Definition value (v : bytes) : Prop := v <> [] /\ wf_bytes v /\ len v < 2 ^ 32.
  Definition after_insert (db : database) (d : nat) (t : tree) (p : list N) (v : bytes) (r : outcome node) : Prop :=
    exists n' t', r = Ok n' /\ (forall h, n' <> HashN h) /\ rep db n' t' /\ wf d t' /\ (is_tb t -> is_tb t')
      /\ forall q, term q -> tget t' q = if beqb p q then Some v else tget t q.

  Lemma rep_repeat db n : Forall2 (rep db) (repeat Empty n) (repeat TE n).
  Proof. induction n; cbn; constructor; auto. constructor. Qed.
  Lemma tget_two (i j : N) t u q : nib i -> nib j -> i <> j -> term q ->
    tget (TB (set_nth (N.to_nat j) u (set_nth (N.to_nat i) t (repeat TE 16)))) q =
      match q with x :: r => if x =? j then tget u r else if x =? i then tget t r else None | [] => None end.
  Proof.
    unfold nib. intros I J D T. destruct q as [|x r]; [reflexivity|]. rewrite tget_B. apply term_inv in T as [[-> ->]|[X T]].
    - rewrite N.eqb_refl. rewrite !(proj2 (N.eqb_neq _ _)) by lia. reflexivity.
    - unfold nib in X. rewrite (proj2 (N.eqb_neq x 16)) by lia. rewrite nth_set_nth by (rewrite set_nth_length, repeat_length; lia).
      destruct (N.eqb_spec x j) as [->|]; [now rewrite Nat.eqb_refl|]. rewrite (proj2 (Nat.eqb_neq (N.to_nat x) (N.to_nat j))) by lia.
      rewrite nth_set_nth by (rewrite repeat_length; lia).
      destruct (N.eqb_spec x i) as [->|]; [now rewrite Nat.eqb_refl|]. rewrite (proj2 (Nat.eqb_neq (N.to_nat x) (N.to_nat i))) by lia.
      now rewrite nth_repeat_TE.
  Qed.
  Lemma wf_two_children d e (i j : N) t u : nib i -> nib j -> i <> j -> wf e t -> wf e u -> (1 + e <= d)%nat ->
    wf d (TB (set_nth (N.to_nat j) u (set_nth (N.to_nat i) t (repeat TE 16)))).
  Proof.
    unfold nib. intros I J D T U L. apply (wf_B d e); [now rewrite !set_nth_length, repeat_length|exact L| |].
    - apply Forall_set_nth; [apply Forall_set_nth|]; auto. apply Forall_forall. intros x X. apply repeat_spec in X. now left.
    - apply used_two; try lia; intros ->; [inversion T|inversion U].
  Qed.
  Lemma wf_leaf d k v : term k -> (length k <= d)%nat -> value v -> wf d (TL k v).
  Proof. intros T L (V1 & V2 & V3). now constructor. Qed.

  (** Inserting below an extension that parts from the path at its first nibble. *)
  Lemma insert_ext_part db d e x n t i j xs r v f :
    x = i :: xs -> i <> j -> nib i -> nib j -> Forall nib xs -> rep db n t -> wf e t -> is_tb t -> (1 + length xs + e <= d)%nat ->
    term r -> (1 + length r <= d)%nat -> value v -> (3 <= f)%nat -> after_insert db d (TX x t) (j :: r) v (insert_at f db (Ext x n) (j :: r) v).
  Proof.
    intros -> D I J FX R W TBt L T Lr V Lf. destruct f as [|[|[|f]]]; try lia. rewrite ins_X. cbn zeta. cbn [common_prefix].
    rewrite (proj2 (N.eqb_neq j i)) by congruence. change (Nat.eqb 0 0) with true. cbn iota. cbn [nth_error opt_panic obnd length].
    unfold nib in I, J. set (c := if Nat.eqb (S (length xs)) 1 then n else Ext (skipn 1 (i :: xs)) n).
    set (tc := if Nat.eqb (S (length xs)) 1 then t else TX xs t).
    assert (Rc : rep db c tc) by (unfold c, tc; destruct (Nat.eqb (S (length xs)) 1); [exact R|constructor; exact R]).
    assert (Wc : wf (d - 1) tc).
    { unfold tc. destruct xs as [|x0 xs]; cbn [length Nat.eqb] in *; [apply (wf_mono _ e); [exact W|lia]|].
      econstructor; [easy|exact FX|exact TBt| |exact W]. cbn [length]. lia. }
    assert (Gc : forall q, tget tc q = tget (TX xs t) q).
    { intros q. unfold tc. destruct xs as [|x0 xs]; cbn [length Nat.eqb]; [|reflexivity]. cbn. now destruct q. }
    unfold branch_insert. rewrite (proj2 (N.eqb_neq i 16)), (proj2 (N.ltb_lt i 16)) by lia. cbn [fst snd obnd].
    rewrite ins_B. rewrite (proj2 (N.eqb_neq j 16)) by lia.
    assert (E : nth_error (set_nth (N.to_nat i) c empty_children) (N.to_nat j) = Some Empty).
    { pose proof (nth_set_nth empty_children c Empty (N.to_nat i) (N.to_nat j)) as Z. unfold empty_children in *. rewrite repeat_length in Z. specialize (Z ltac:(lia)).
      rewrite (proj2 (Nat.eqb_neq _ _)) in Z by lia.
      rewrite (nth_error_nth' _ Empty) by (rewrite set_nth_length, repeat_length; lia). rewrite Z. f_equal. apply nth_repeat. }
    rewrite E. cbn [opt_panic obnd]. rewrite ins_E. cbn [obnd]. eexists _, (TB (set_nth (N.to_nat j) (TL r v) (set_nth (N.to_nat i) tc (repeat TE 16)))).
    split; [reflexivity|]. split; [easy|]. split.
    { constructor. apply Forall2_set_nth; [|constructor]. apply Forall2_set_nth; [apply rep_repeat|exact Rc]. }
    split.
    { apply (wf_two_children d (d - 1)); [exact I|exact J|exact D|exact Wc| |lia]. apply wf_leaf; [exact T|lia|exact V]. }
    split; [easy|]. intros q Tq. rewrite tget_two by auto. destruct q as [|y q]; [inversion Tq|].
    destruct (N.eqb_spec y j) as [->|Y].
    - rewrite tget_L. change (j :: r) with ([j] ++ r). change (j :: q) with ([j] ++ q). rewrite beqb_app. destruct (beqb r q) eqn:B; [reflexivity|].
      symmetry. apply (tget_X_other _ _ _ (j :: q) [] i j xs q); auto.
    - rewrite (beqb_neq (j :: r) (y :: q)) by congruence. destruct (N.eqb_spec y i) as [->|Y'].
      + rewrite Gc. cbn [tget common_prefix length]. rewrite N.eqb_refl. reflexivity.
      + symmetry. apply (tget_X_other _ _ _ (y :: q) [] i y xs q); auto.
  Qed.

  Theorem insert_ok db v : value v -> forall d n t p f, rep db n t -> wfr d t -> N.of_nat d <= 2 ^ 30 -> term p -> (length p <= d)%nat -> compat t p ->
    (2 * d + 3 <= f)%nat -> after_insert db d t p v (insert_at f db n p v).
  Proof.
    intros V. induction d as [d IHd] using lt_wf_ind.
    assert (direct : forall n t p f, (forall h, n <> HashN h) -> rep db n t -> wfr d t -> N.of_nat d <= 2 ^ 30 -> term p -> (length p <= d)%nat -> compat t p ->
      (2 * d + 2 <= f)%nat -> after_insert db d t p v (insert_at f db n p v)).
    { intros n t p f NH R W D T Lp C Lf. destruct f as [|f]; [lia|]. destruct R as [|k w|x n t R|ch ts R|t].
      - (* empty *)
        cbn [insert_at]. exists (Leaf p v), (TL p v). split; [reflexivity|]. split; [easy|]. split; [constructor|]. split; [now apply wf_leaf|]. split; [easy|]. intros q _. reflexivity.
      - (* leaf *)
        destruct W as [W|W]; [discriminate W|]. inversion W as [? ? ? Tk Lk Nv Wv Lv| |]; subst. cbn [insert_at].
        destruct (list_eq_dec N.eq_dec p k) as [->|NE].
        + assert (Z : common_prefix k k = length k) by (pose proof (cp_app k []) as Z; now rewrite app_nil_r in Z). rewrite Z, Nat.eqb_refl.
          exists (Leaf k v), (TL k v). split; [reflexivity|]. split; [easy|]. split; [constructor|]. split; [now apply wf_leaf|]. split; [easy|].
          intros q _. rewrite !tget_L. now destruct (beqb k q).
        + destruct (term_part p k T Tk NE) as (c & j & i & r & s & -> & -> & D' & Z). rewrite Z.
          assert (NC : nib j /\ nib i).
          { destruct (C (c ++ i :: s) Tk) as [X|X]; [rewrite tget_L, beqb_refl; discriminate|now rewrite X in NE|]. now apply diverge_head in X. }
          destruct NC as [J I].
          rewrite (proj2 (Nat.eqb_neq (length c) (length (c ++ i :: s)))) by (rewrite app_length; cbn; lia).
          rewrite !nth_error_app_mid, !skipn_app_S. cbn [opt_panic obnd]. unfold branch_insert. unfold nib in I, J.
          rewrite (proj2 (N.eqb_neq i 16)), (proj2 (N.ltb_lt i 16)), (proj2 (N.eqb_neq j 16)), (proj2 (N.ltb_lt j 16)) by lia. cbn [fst snd obnd].
          rewrite firstn_app_all.
          assert (Ts : term s) by (apply (term_nibs c i s Tk); lia). assert (Tr : term r) by (apply (term_nibs c j r T); lia).
          assert (Fc : Forall nib c) by (now apply (term_pre c i s)).
          rewrite app_length in Lk, Lp. cbn [length] in Lk, Lp.
          set (tb := TB (set_nth (N.to_nat j) (TL r v) (set_nth (N.to_nat i) (TL s w) (repeat TE 16)))).
          assert (Wb : wf (d - length c) tb).
          { apply (wf_two_children _ (d - length c - 1)); auto; [apply wf_leaf; [exact Ts|lia|now repeat split]|apply wf_leaf; [exact Tr|lia|exact V]|lia]. }
          assert (Rb : rep db (Branch (set_nth (N.to_nat j) (Leaf r v) (set_nth (N.to_nat i) (Leaf s w) empty_children)) None) tb).
          { constructor. apply Forall2_set_nth; [|constructor]. apply Forall2_set_nth; [apply rep_repeat|constructor]. }
          assert (Gb : forall q, term q -> tget tb q = if beqb (j :: r) q then Some v else if beqb (i :: s) q then Some w else None).
          { intros q Tq. unfold tb. rewrite tget_two by auto. destruct q as [|y q]; [inversion Tq|]. rewrite !tget_L.
            destruct (N.eqb_spec y j) as [->|Y].
            - change (j :: r) with ([j] ++ r). change (j :: q) with ([j] ++ q). rewrite beqb_app. destruct (beqb r q); [reflexivity|]. rewrite beqb_neq; [reflexivity|]. cbn. congruence.
            - rewrite (beqb_neq (j :: r) (y :: q)) by congruence. destruct (N.eqb_spec y i) as [->|Y'].
              + change (i :: s) with ([i] ++ s). change (i :: q) with ([i] ++ q). now rewrite beqb_app.
              + now rewrite (beqb_neq (i :: s) (y :: q)) by congruence. }
          destruct c as [|c0 c].
          * cbn [length Nat.eqb]. eexists _, tb. split; [reflexivity|]. split; [easy|]. split; [exact Rb|].
            split; [rewrite Nat.sub_0_r in Wb; exact Wb|]. split; [easy|]. intros q Tq. cbn [app]. rewrite tget_L. now apply Gb.
          * rewrite (proj2 (Nat.eqb_neq (length (c0 :: c)) 0)) by (cbn; lia).
            eexists _, (TX (c0 :: c) tb). split; [reflexivity|]. split; [easy|]. split; [constructor; exact Rb|].
            split; [apply (wf_X _ (d - length (c0 :: c))); [easy|exact Fc|exact Logic.I|lia|exact Wb]|]. split; [easy|].
            intros q Tq. rewrite tget_L. cbn [tget]. destruct (Nat.eqb_spec (common_prefix q (c0 :: c)) (length (c0 :: c))) as [E|E].
            { destruct (cp_full _ _ E) as (q' & ->). rewrite skipn_app_all. apply term_skip in Tq; [|exact Fc]. rewrite Gb by exact Tq. now rewrite !beqb_app. }
            rewrite !beqb_neq; [reflexivity|..]; intros X; apply E; rewrite <- X; apply cp_app.
      - (* extension *)
        destruct W as [W|W]; [discriminate W|]. inversion W as [|? e ? ? NX FX TBx Lx Wx|]; subst.
        destruct (cp_split p x) as (c & p' & x' & -> & -> & L & Dv). destruct x' as [|i xs].
        + (* all of it *)
          rewrite app_nil_r in *. cbn [insert_at]. rewrite cp_app. destruct c as [|c0 c]; [easy|].
          rewrite (proj2 (Nat.eqb_neq (length (c0 :: c)) 0)) by (cbn; lia). rewrite Nat.eqb_refl, skipn_app_all.
          apply term_skip in T; [|exact FX]. rewrite app_length in Lp. cbn [length] in Lp, Lx.
          assert (C' : compat t p').
          { intros q Tq G. destruct (C ((c0 :: c) ++ q)) as [X|X]; [now apply term_app|now rewrite tget_X|left; now apply app_inv_head in X|right; now apply diverge_app in X]. }
          destruct (IHd (d - length (c0 :: c))%nat ltac:(cbn [length]; lia) n t p' f) as (n' & t' & -> & NH' & R' & W' & B' & G'); auto;
            [right; apply (wf_mono _ e); [exact Wx|cbn [length]; lia]|cbn [length]; lia..|].
          cbn [obnd]. eexists _, (TX (c0 :: c) t'). split; [reflexivity|]. split; [easy|]. split; [constructor; exact R'|].
          split; [apply (wf_X _ (d - length (c0 :: c))); auto; cbn [length]; lia|]. split; [easy|].
          intros q Tq. destruct (tget (TX (c0 :: c) t') q) as [w|] eqn:E.
          * apply tget_X_inv in E as (q' & -> & E). apply term_skip in Tq; [|exact FX]. rewrite tget_X, beqb_app, <- G' by exact Tq. now rewrite E.
          * cbn [tget] in *. destruct (Nat.eqb_spec (common_prefix q (c0 :: c)) (length (c0 :: c))) as [E2|E2].
            { destruct (cp_full _ _ E2) as (q' & ->). rewrite skipn_app_all in *. apply term_skip in Tq; [|exact FX]. rewrite beqb_app, <- G' by exact Tq. now rewrite E. }
            rewrite beqb_neq; [reflexivity|]. intros X. apply E2. rewrite <- X. apply cp_app.
        + (* a part of it *)
          destruct p' as [|j r].
          { exfalso. rewrite app_nil_r in *. apply Forall_app_inv in FX as [FC _]. destruct (term_split _ T) as (h & -> & _).
            apply Forall_app_inv in FC as [_ F16]. inversion F16; subst. unfold nib in *. lia. }
          pose proof (Dv j i r xs eq_refl eq_refl) as D'. apply Forall_app_inv in FX as [FC FI]. inversion FI as [|? ? I FXs]; subst.
          assert (J : nib j).
          { destruct (wf_some _ _ Wx) as (q & w & Tq & _ & G). destruct (C ((c ++ i :: xs) ++ q)) as [X|X].
            - apply term_app; [|exact Tq]. apply Forall_app. split; [exact FC|now constructor].
            - rewrite tget_X. rewrite G. discriminate.
            - rewrite <- app_assoc in X. apply app_inv_head in X. cbn in X. injection X as -> _. easy.
            - rewrite <- app_assoc in X. cbn [app] in X. now apply diverge_head in X. }
          assert (Tr : term r) by (apply (term_nibs c j r T); unfold nib in J; lia).
          rewrite app_length in Lx, Lp. cbn [length] in Lx, Lp.
          destruct c as [|c0 c].
          * cbn [app length] in *. apply (insert_ext_part db d e (i :: xs) n t i j xs r v (S f)); auto; lia.
          * cbn [insert_at]. assert (CP : common_prefix ((c0 :: c) ++ j :: r) ((c0 :: c) ++ i :: xs) = length (c0 :: c)) by (symmetry; exact L).
            rewrite CP. rewrite (proj2 (Nat.eqb_neq (length (c0 :: c)) 0)) by (cbn; lia).
            rewrite (proj2 (Nat.eqb_neq (length (c0 :: c)) (length ((c0 :: c) ++ i :: xs)))) by (rewrite app_length; cbn; lia).
            rewrite !skipn_app_all, firstn_app_all.
            destruct (insert_ext_part db (d - length (c0 :: c)) e (i :: xs) n t i j xs r v f) as (n' & t' & EQ & NH' & R' & W' & _ & G'); auto; try (cbn [length] in *; lia).
            rewrite EQ. cbn [obnd]. 
            assert (B' : is_tb t').
            { destruct t' as [|k' v'|y t'|ts']; [inversion W'| | |exact Logic.I].
              - exfalso. destruct (wf_some _ _ Wx) as (q & w & Tq & _ & G).
                assert (A1 : tget (TL k' v') (j :: r) = Some v) by (rewrite G' by (now constructor); now rewrite beqb_refl).
                assert (A2 : tget (TL k' v') ((i :: xs) ++ q) = Some w).
                { rewrite G' by (apply term_app; [now constructor|exact Tq]). rewrite beqb_neq by (cbn; congruence). now rewrite tget_X. }
                rewrite tget_L in A1, A2. destruct (beqb k' (j :: r)) eqn:B1; [|discriminate A1]. destruct (beqb k' ((i :: xs) ++ q)) eqn:B2; [|discriminate A2].
                apply beqb_eq in B1, B2. subst k'. cbn in B2. injection B2 as -> _. easy.
              - exfalso. destruct (wf_some _ _ Wx) as (q & w & Tq & _ & G). inversion W' as [|? ? ? ? NY FY| ]; subst.
                assert (A1 : tget (TX y t') (j :: r) = Some v) by (rewrite G' by (now constructor); now rewrite beqb_refl).
                assert (A2 : tget (TX y t') ((i :: xs) ++ q) = Some w).
                { rewrite G' by (apply term_app; [now constructor|exact Tq]). rewrite beqb_neq by (cbn; congruence). now rewrite tget_X. }
                apply tget_X_inv in A1 as (a1 & E1 & _). apply tget_X_inv in A2 as (a2 & E2 & _). apply NY.
                eapply (nodup_two y j i r (xs ++ q)); [symmetry; exact E1|symmetry; exact E2|congruence]. }
            eexists _, (TX (c0 :: c) t'). split; [reflexivity|]. split; [easy|]. split; [constructor; exact R'|].
            split; [apply (wf_X _ (d - length (c0 :: c))); [easy|exact FC|exact B'|cbn [length] in *; lia|exact W']|]. split; [easy|].
            intros q Tq. destruct (Nat.eqb_spec (common_prefix q (c0 :: c)) (length (c0 :: c))) as [E2|E2].
            { destruct (cp_full _ _ E2) as (q' & ->). apply term_skip in Tq; [|exact FC]. rewrite tget_X, beqb_app, G' by exact Tq.
              destruct (beqb (j :: r) q'); [reflexivity|].
              destruct (tget (TX (i :: xs) t) q') as [w|] eqn:E.
              - apply tget_X_inv in E as (q2 & -> & E). rewrite app_assoc. rewrite tget_X. now rewrite E.
              - destruct (tget (TX ((c0 :: c) ++ i :: xs) t) ((c0 :: c) ++ q')) as [w|] eqn:E3; [|reflexivity].
                apply tget_X_inv in E3 as (q2 & Q & E3). rewrite <- app_assoc in Q. apply app_inv_head in Q. subst q'. rewrite tget_X in E. congruence. }
            assert (X1 : tget (TX (c0 :: c) t') q = None) by (cbn [tget]; now rewrite (proj2 (Nat.eqb_neq _ _) E2)). rewrite X1. rewrite beqb_neq by (intros X; apply E2; rewrite <- X; apply cp_app).
            destruct (tget (TX ((c0 :: c) ++ i :: xs) t) q) as [w|] eqn:E3; [|reflexivity].
            apply tget_X_inv in E3 as (q2 & -> & _). exfalso. apply E2. rewrite <- app_assoc. apply cp_app.
      - (* branch *)
        destruct W as [W|W]; [discriminate W|]. inversion W as [| |? e ? L16 Le FT US]; subst.
        destruct p as [|i r]; [inversion T|]. cbn [insert_at].
        destruct (wf_two _ _ W) as (a & b & q1 & q2 & w1 & w2 & Na & Nb & Dab & Tq1 & Tq2 & G1 & G2).
        assert (I : nib i /\ term r).
        { apply term_inv in T as [[-> ->]|[I T]]; [|now split]. exfalso.
          destruct (C (a :: q1)) as [X|X]; [now constructor|rewrite G1; discriminate|injection X as -> _; unfold nib in Na; lia|].
          apply (diverge_head 16 a [] [] q1) in X as [X _]; unfold nib in *; lia. }
        destruct I as [I Tr]. unfold nib in I. rewrite (proj2 (N.eqb_neq i 16)) by lia.
        destruct (Forall2_nth_error _ _ _ TE (N.to_nat i) R) as (c & -> & Rc); [lia|]. cbn [opt_panic obnd].
        cbn [length] in Lp. assert (Li : (N.to_nat i < length ts)%nat) by lia.
        assert (C' : compat (nth (N.to_nat i) ts TE) r).
        { intros q Tq G. destruct (C (i :: q)) as [X|X].
          - now constructor.
          - rewrite tget_B, (proj2 (N.eqb_neq i 16)) by lia. exact G.
          - left. now injection X.
          - right. now apply (diverge_app [i]). }
        destruct (IHd (d - 1)%nat ltac:(lia) c (nth (N.to_nat i) ts TE) r f) as (n' & t' & -> & NH' & R' & W' & _ & G'); auto; try lia.
        { apply (wfr_mono e); [|lia]. apply (Forall_nth' _ _ _ TE FT Li). }
        cbn [obnd]. eexists _, (TB (set_nth (N.to_nat i) t' ts)). split; [reflexivity|]. split; [easy|].
        split; [constructor; now apply Forall2_set_nth|]. split.
        { apply (wf_B d (d - 1)); [now rewrite set_nth_length|lia| |].
          - apply Forall_set_nth; [|now right]. eapply Forall_impl; [|exact FT]. intros x X. apply (wfr_mono e); [exact X|lia].
          - pose proof (used_set_in ts t' (N.to_nat i) Li). assert (t' <> TE) by (intros ->; inversion W'). specialize (H H0). lia. }
        split; [easy|]. intros q Tq. destruct q as [|y q]; [inversion Tq|]. rewrite !tget_B. apply term_inv in Tq as [[-> ->]|[Y Tq]].
        + rewrite N.eqb_refl. rewrite beqb_neq; [reflexivity|]. intros X. injection X as X _. lia.
        + unfold nib in Y. rewrite (proj2 (N.eqb_neq y 16)) by lia. rewrite nth_set_nth by lia.
          destruct (Nat.eqb_spec (N.to_nat y) (N.to_nat i)) as [E|E].
          * apply N2Nat.inj in E. subst y. rewrite G' by exact Tq. change (i :: r) with ([i] ++ r). change (i :: q) with ([i] ++ q). now rewrite beqb_app.
          * rewrite beqb_neq; [reflexivity|]. intros X. injection X as X _. subst. easy.
      - now destruct (NH (keccak (encT t))). }
    intros n t p f R W D T Lp C Lf. destruct n as [|k w|x n|ch o|h]; try (apply direct; auto; [easy|lia]).
    inversion R as [| | | |? L G S]; subst. destruct f as [|f]; [lia|]. cbn [insert_at]. rewrite (recover_ok db t d) by auto. cbn [obnd].
    apply direct; auto; [apply shallow_not_hash|now apply rep_shallow|lia].
  Qed.
End Ops.
