(** Proofs about the Merkle Patricia trie: the nodes of the code represent trees, the encoding is read back, look-up, insertion and
    removal act on the tree as on a map, and a tree in normal form is determined by its contents. *)
From Verif Require Import Bytes BytesProofs Rlp RlpProofs TxModel TrieModel.
From Coq Require Import NArith List Lia.
Import ListNotations.
Local Open Scope N_scope.

(* ================= trees ================= *)
(** What a node represents once all hashes are resolved; branches carry no value, because no key is a proper start of another. *)
Inductive tree := TE | TL (k : list N) (v : bytes) | TX (x : list N) (t : tree) | TB (ts : list tree).
Section TreeInd.
  Variable P : tree -> Prop.
  Hypotheses (HE : P TE) (HL : forall k v, P (TL k v)) (HX : forall x t, P t -> P (TX x t)) (HB : forall ts, Forall P ts -> P (TB ts)).
  Fixpoint tree_ind' (t : tree) : P t :=
    match t with
    | TE => HE
    | TL k v => HL k v
    | TX x c => HX x c (tree_ind' c)
    | TB ts => HB ts ((fix go l : Forall P l := match l with [] => Forall_nil P | c :: r => Forall_cons c (tree_ind' c) (go r) end) ts)
    end.
End TreeInd.

Definition nib (i : N) : Prop := i < 16.
(** A path: nibbles and the end. *)
Inductive term : list N -> Prop :=
| term_end : term [16]
| term_cons i r : nib i -> term r -> term (i :: r).
Definition is_tb (t : tree) : Prop := match t with TB _ => True | _ => False end.
Definition is_te (t : tree) : bool := match t with TE => true | _ => false end.
Definition used (ts : list tree) : nat := length (filter (fun t => negb (is_te t)) ts).
(** Normal form, with all paths at most [d] long. *)
Inductive wf : nat -> tree -> Prop :=
| wf_L d k v : term k -> (length k <= d)%nat -> v <> [] -> wf_bytes v -> len v < 2 ^ 32 -> wf d (TL k v)
| wf_X d e x t : x <> [] -> Forall nib x -> is_tb t -> (length x + e <= d)%nat -> wf e t -> wf d (TX x t)
| wf_B d e ts : length ts = 16%nat -> (1 + e <= d)%nat -> Forall (fun t => t = TE \/ wf e t) ts -> (2 <= used ts)%nat -> wf d (TB ts).
Definition wfr (d : nat) (t : tree) : Prop := t = TE \/ wf d t.

Lemma wf_mono t : forall d e, wf d t -> (d <= e)%nat -> wf e t.
Proof.
  intros d e W L. destruct W.
  - constructor; auto. lia.
  - econstructor; eauto. lia.
  - econstructor; eauto. lia.
Qed.
Lemma wfr_mono d e t : wfr d t -> (d <= e)%nat -> wfr e t.
Proof. intros [->|W] L; [now left|right; eapply wf_mono; eauto]. Qed.
Lemma term_nonnil p : term p -> p <> [].
Proof. now destruct 1. Qed.
Lemma term_app x r : Forall nib x -> term r -> term (x ++ r).
Proof. induction 1; intros T; cbn; [exact T|]. constructor; auto. Qed.
Lemma term_skip x r : Forall nib x -> term (x ++ r) -> term r.
Proof. induction 1 as [|i x I F IH]; cbn; intros T; [exact T|]. inversion T; subst; [unfold nib in I; lia|auto]. Qed.
Lemma term_inv i r : term (i :: r) -> (i = 16 /\ r = []) \/ (nib i /\ term r).
Proof. intros T. inversion T; subst; auto. Qed.

(** Contents. *)
Fixpoint tget (t : tree) (p : list N) : option bytes :=
  match t with
  | TE => None
  | TL k v => if beqb k p then Some v else None
  | TX x c => if Nat.eqb (common_prefix p x) (length x) then tget c (skipn (length x) p) else None
  | TB ts =>
      match p with
      | [] => None
      | i :: r =>
          if i =? 16 then None
          else (fix go l n := match l, n with [], _ => None | c :: _, O => tget c r | _ :: l', S m => go l' m end) ts (N.to_nat i)
      end
  end.
Lemma tget_B ts i r : tget (TB ts) (i :: r) = if i =? 16 then None else tget (nth (N.to_nat i) ts TE) r.
Proof.
  cbn. destruct (i =? 16); [reflexivity|]. generalize (N.to_nat i) as n. induction ts as [|c ts IH]; intros [|n]; cbn; auto.
Qed.
Lemma cp_le a : forall b, (common_prefix a b <= length a)%nat /\ (common_prefix a b <= length b)%nat.
Proof. induction a as [|x a IH]; intros [|y b]; cbn; try lia. destruct (x =? y); cbn; [|lia]. specialize (IH b). lia. Qed.
Lemma cp_app x r : common_prefix (x ++ r) x = length x.
Proof. induction x as [|i x IH]; cbn; [now destruct r|]. rewrite N.eqb_refl. now rewrite IH. Qed.
Lemma cp_full p x : common_prefix p x = length x -> exists r, p = x ++ r.
Proof.
  revert p. induction x as [|i x IH]; intros p H; [now exists p|]. destruct p as [|j p]; cbn in H; [lia|].
  destruct (N.eqb_spec j i) as [->|]; [|lia]. destruct (IH p) as (r & ->); [lia|]. now exists r.
Qed.
Lemma cp_split p x : let m := common_prefix p x in exists c p' x', p = c ++ p' /\ x = c ++ x' /\ length c = m
  /\ (forall i j q y, p' = i :: q -> x' = j :: y -> i <> j).
Proof.
  cbn zeta. revert x. induction p as [|i p IH]; intros x.
  - exists [], [], x. cbn. repeat split; auto. now intros.
  - destruct x as [|j x]; [exists [], (i :: p), []; cbn; repeat split; auto; now intros|]. cbn.
    destruct (N.eqb_spec i j) as [->|E].
    + destruct (IH x) as (c & p' & x' & -> & -> & L & D). exists (j :: c), p', x'. cbn. rewrite L. repeat split; auto.
    + exists [], (i :: p), (j :: x). repeat split; auto. intros a b q y [= <- <-] [= <- <-]. exact E.
Qed.
Lemma tget_X x c q : tget (TX x c) (x ++ q) = tget c q.
Proof. cbn. rewrite cp_app, Nat.eqb_refl. f_equal. now rewrite skipn_app, skipn_all, Nat.sub_diag. Qed.
Lemma tget_X_inv x c p v : tget (TX x c) p = Some v -> exists q, p = x ++ q /\ tget c q = Some v.
Proof.
  cbn. destruct (Nat.eqb_spec (common_prefix p x) (length x)) as [E|E]; [|intros H; discriminate H].
  apply cp_full in E as (q & ->). rewrite skipn_app, skipn_all, Nat.sub_diag. cbn. eauto.
Qed.
Lemma tget_L k v p : tget (TL k v) p = if beqb k p then Some v else None.
Proof. reflexivity. Qed.

(* ---------------- every tree in normal form holds something, a branch at least two things ---------------- *)
Lemma used_nth ts : (1 <= used ts)%nat -> exists i, (i < length ts)%nat /\ nth i ts TE <> TE.
Proof.
  unfold used. induction ts as [|c ts IH]; cbn; [lia|]. destruct c; cbn; intros H; [|exists 0%nat; split; [lia|easy]..].
  destruct (IH H) as (i & L & N). exists (S i). split; [lia|exact N].
Qed.
Lemma used_nth2 ts : (2 <= used ts)%nat -> exists i j, (i < length ts)%nat /\ (j < length ts)%nat /\ i <> j /\ nth i ts TE <> TE /\ nth j ts TE <> TE.
Proof.
  unfold used. induction ts as [|c ts IH]; cbn; [lia|]. destruct c; cbn; intros H.
  1: { destruct (IH H) as (i & j & Li & Lj & D & Ni & Nj). exists (S i), (S j). repeat split; auto; lia. }
  all: (destruct (used_nth ts ltac:(unfold used; lia)) as (j & Lj & Nj); exists 0%nat, (S j); repeat split; auto; try lia; easy).
Qed.
Lemma Forall_nth' {A} (P : A -> Prop) l i d : Forall P l -> (i < length l)%nat -> P (nth i l d).
Proof. intros F L. rewrite Forall_forall in F. apply F. now apply nth_In. Qed.

Lemma wf_some t : forall d, wf d t -> exists q v, term q /\ (length q <= d)%nat /\ tget t q = Some v.
Proof.
  induction t as [|k v|x t IH|ts IH] using tree_ind'; intros d W; inversion W as [? ? ? Tk Lk|? e ? ? NX FX TBx Lx Wx|? e ? L16 Le FT US]; subst.
  - exists k, v. repeat split; auto. rewrite tget_L. now rewrite (proj2 (beqb_eq k k) eq_refl).
  - destruct (IH e) as (q & v & T & L & G); auto. exists (x ++ q), v. split; [now apply term_app|]. split; [rewrite app_length; lia|].
    now rewrite tget_X.
  - destruct (used_nth ts) as (i & L & NE); [lia|].
    pose proof (Forall_nth' _ _ _ TE FT L) as [X|X]; [easy|]. pose proof (Forall_nth' _ _ _ TE IH L _ X) as (q & v & T & Lq & G).
    exists (N.of_nat i :: q), v. split; [constructor; [unfold nib; lia|exact T]|]. split; [cbn; lia|].
    rewrite tget_B, Nat2N.id. now rewrite (proj2 (N.eqb_neq _ _)) by lia.
Qed.
Lemma wf_two ts d : wf d (TB ts) -> exists i j q r v w, nib i /\ nib j /\ i <> j /\ term q /\ term r
  /\ tget (TB ts) (i :: q) = Some v /\ tget (TB ts) (j :: r) = Some w.
Proof.
  intros W. inversion W as [| |? e ? L16 Le FT US]; subst. destruct (used_nth2 ts) as (i & j & Li & Lj & D & Ni & Nj); [lia|].
  pose proof (Forall_nth' _ _ _ TE FT Li) as [X|X]; [easy|]. pose proof (Forall_nth' _ _ _ TE FT Lj) as [Y|Y]; [easy|].
  destruct (wf_some _ _ X) as (q & v & T & _ & G). destruct (wf_some _ _ Y) as (r & w & U & _ & K).
  exists (N.of_nat i), (N.of_nat j), q, r, v, w. unfold nib. repeat split; auto; try lia.
  - rewrite tget_B, Nat2N.id. now rewrite (proj2 (N.eqb_neq _ _)) by lia.
  - rewrite tget_B, Nat2N.id. now rewrite (proj2 (N.eqb_neq _ _)) by lia.
Qed.

(* ---------------- normal forms with the same contents are the same ---------------- *)
Definition same (t u : tree) : Prop := forall p, term p -> tget t p = tget u p.
Lemma nodup_two (x : list N) i j q r a b : x ++ a = i :: q -> x ++ b = j :: r -> i <> j -> x = [].
Proof. destruct x as [|z x]; cbn; [easy|]. intros [= -> _] [= -> _]. easy. Qed.
Lemma prefix_cmp (x : list N) : forall y i j q r a b, i <> j -> y ++ i :: q = x ++ a -> y ++ j :: r = x ++ b -> exists z, y = x ++ z.
Proof.
  induction x as [|n x IH]; intros y i j q r a b D E F; [now exists y|].
  destruct y as [|m y]; cbn in E, F; [injection E as -> _; injection F as -> _; easy|].
  injection E as -> E. injection F as F. destruct (IH y i j q r a b D E F) as (z & ->). now exists z.
Qed.
Theorem canonical t : forall u d e, wf d t -> wf e u -> same t u -> t = u.
Proof.
  induction t as [|k v|x t IH|ts IH] using tree_ind'; intros u d e W V S; [inversion W| | |].
  - (* leaf *)
    assert (K : tget (TL k v) k = Some v) by (rewrite tget_L; now rewrite (proj2 (beqb_eq k k) eq_refl)).
    assert (one : forall p w, term p -> tget u p = Some w -> p = k).
    { intros p w T G. rewrite <- S in G by exact T. rewrite tget_L in G. destruct (beqb k p) eqn:E; [|discriminate G]. symmetry. now apply beqb_eq. }
    assert (TK : term k) by now inversion W.
    destruct u as [|k' v'|y u|us]; [inversion V| | |].
    + assert (k' = k). { apply (one k' v'); [now inversion V|]. rewrite tget_L. now rewrite (proj2 (beqb_eq k' k') eq_refl). }
      subst k'. rewrite S in K by exact TK. rewrite tget_L, (proj2 (beqb_eq k k) eq_refl) in K. now injection K as ->.
    + inversion V as [|? ? ? ? ? FY TB' _ WY|]; subst. destruct u as [| | |us]; try contradiction.
      destruct (wf_two _ _ WY) as (i & j & q & r & v1 & v2 & Ni & Nj & D & Tq & Tr & G1 & G2).
      assert (A : y ++ i :: q = k). { eapply one; [apply term_app; [exact FY|now constructor]|]. rewrite tget_X. exact G1. }
      assert (B : y ++ j :: r = k). { eapply one; [apply term_app; [exact FY|now constructor]|]. rewrite tget_X. exact G2. }
      rewrite <- B in A. apply app_inv_head in A. injection A as -> _. easy.
    + destruct (wf_two _ _ V) as (i & j & q & r & v1 & v2 & Ni & Nj & D & Tq & Tr & G1 & G2).
      assert (A : i :: q = k) by (eapply one; [now constructor|exact G1]).
      assert (B : j :: r = k) by (eapply one; [now constructor|exact G2]). rewrite <- B in A. injection A as -> _. easy.
  - (* extension *)
    inversion W as [|? ? ? ? NX FX TX' _ WX|]; subst. destruct t as [| | |ts]; try contradiction.
    destruct (wf_two _ _ WX) as (i & j & q & r & v1 & v2 & Ni & Nj & D & Tq & Tr & G1 & G2).
    assert (A : tget u (x ++ i :: q) = Some v1) by (rewrite <- S, tget_X; [exact G1|apply term_app; [exact FX|now constructor]]).
    assert (B : tget u (x ++ j :: r) = Some v2) by (rewrite <- S, tget_X; [exact G2|apply term_app; [exact FX|now constructor]]).
    assert (all : forall p w, term p -> tget u p = Some w -> exists a, p = x ++ a).
    { intros p w T G. rewrite <- S in G by exact T. apply tget_X_inv in G as (a & -> & _). now exists a. }
    destruct u as [|k' v'|y u|us]; [inversion V| | |].
    + rewrite tget_L in A, B. destruct (beqb k' (x ++ i :: q)) eqn:E; [|discriminate A]. destruct (beqb k' (x ++ j :: r)) eqn:F; [|discriminate B].
      apply beqb_eq in E, F. rewrite E in F. apply app_inv_head in F. injection F as -> _. easy.
    + inversion V as [|? ? ? ? NY FY TY _ WY|]; subst. destruct u as [| | |us]; try contradiction.
      destruct (wf_two _ _ WY) as (i' & j' & q' & r' & w1 & w2 & Ni' & Nj' & D' & Tq' & Tr' & G1' & G2').
      destruct (all (y ++ i' :: q') w1) as (a1 & E1); [apply term_app; [exact FY|now constructor]|now rewrite tget_X|].
      destruct (all (y ++ j' :: r') w2) as (a2 & E2); [apply term_app; [exact FY|now constructor]|now rewrite tget_X|].
      destruct (prefix_cmp x y _ _ _ _ _ _ D' E1 E2) as (z & ->).
      apply tget_X_inv in A as (b1 & F1 & _). apply tget_X_inv in B as (b2 & F2 & _).
      destruct (prefix_cmp (x ++ z) x _ _ _ _ _ _ D F1 F2) as (z' & Q).
      assert (z = []). { apply (f_equal (@length N)) in Q. rewrite !app_length in Q. destruct z; [reflexivity|cbn in Q; lia]. }
      subst z. rewrite app_nil_r in *. f_equal. eapply IH; [exact WX|exact WY|].
      intros p T. specialize (S (x ++ p) (term_app _ _ FX T)). now rewrite !tget_X in S.
    + destruct (wf_two _ _ V) as (i' & j' & q' & r' & w1 & w2 & Ni' & Nj' & D' & Tq' & Tr' & G1' & G2').
      destruct (all (i' :: q') w1) as (a1 & E1); [now constructor|exact G1'|].
      destruct (all (j' :: r') w2) as (a2 & E2); [now constructor|exact G2'|].
      exfalso. apply NX. eapply nodup_two; [symmetry; exact E1|symmetry; exact E2|exact D'].
  - (* branch *)
    destruct (wf_two _ _ W) as (i & j & q & r & v1 & v2 & Ni & Nj & D & Tq & Tr & G1 & G2).
    assert (A : tget u (i :: q) = Some v1) by (rewrite <- S; [exact G1|now constructor]).
    assert (B : tget u (j :: r) = Some v2) by (rewrite <- S; [exact G2|now constructor]).
    destruct u as [|k' v'|y u|us]; [inversion V| | |].
    + rewrite tget_L in A, B. destruct (beqb k' (i :: q)) eqn:E; [|discriminate A]. destruct (beqb k' (j :: r)) eqn:F; [|discriminate B].
      apply beqb_eq in E, F. rewrite E in F. injection F as -> _. easy.
    + inversion V as [|? ? ? ? NY _ _ _ _|]; subst. apply tget_X_inv in A as (a1 & E1 & _). apply tget_X_inv in B as (a2 & E2 & _).
      exfalso. apply NY. eapply nodup_two; [symmetry; exact E1|symmetry; exact E2|exact D].
    + f_equal. inversion W as [| |? dt ? L16 _ FT _]; subst. inversion V as [| |? du ? M16 _ FU _]; subst.
      apply (nth_ext _ _ TE TE); [congruence|]. intros n Ln.
      pose proof (Forall_nth' _ _ _ TE IH Ln) as IHn. pose proof (Forall_nth' _ _ _ TE FT Ln) as Wn.
      assert (Lu : (n < length us)%nat) by congruence. pose proof (Forall_nth' _ _ _ TE FU Lu) as Vn. cbn beta in *.
      assert (Sn : same (nth n ts TE) (nth n us TE)).
      { intros p T. specialize (S (N.of_nat n :: p)). rewrite !tget_B, !Nat2N.id in S. rewrite !(proj2 (N.eqb_neq _ _)) in S by lia.
        apply S. constructor; [unfold nib; lia|exact T]. }
      destruct Wn as [Wn|Wn], Vn as [Vn|Vn].
      * congruence.
      * destruct (wf_some _ _ Vn) as (p & w & T & _ & G). rewrite <- Sn, Wn in G by exact T. discriminate G.
      * destruct (wf_some _ _ Wn) as (p & w & T & _ & G). rewrite Sn, Vn in G by exact T. discriminate G.
      * eapply IHn; eauto.
Qed.
Corollary canonical_root t u d e : wfr d t -> wfr e u -> same t u -> t = u.
Proof.
  intros [->|W] [->|V] S; [reflexivity| | |now apply (canonical _ _ d e)].
  - destruct (wf_some _ _ V) as (p & w & T & _ & G). rewrite <- S in G by exact T. discriminate G.
  - destruct (wf_some _ _ W) as (p & w & T & _ & G). rewrite S in G by exact T. discriminate G.
Qed.
