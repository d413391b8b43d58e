(** Proofs about removal, the writes of a commit, proofs and hashes of the trie. *)
From Verif Require Import Bytes BytesProofs Rlp RlpProofs TxModel TrieModel TrieProofs TrieCodec TrieOps.
From Coq Require Import NArith List Lia.
Import ListNotations.
Local Open Scope N_scope.

Lemma deg_X f db x c : degenerate (S f) db (Ext x c) =
  match c with
  | Ext y c' => degenerate f db (Ext (x ++ y) c')
  | Leaf k v => Ok (Leaf (x ++ k) v)
  | HashN h => let! c' := recover db h in degenerate f db (Ext x c')
  | _ => Ok (Ext x c)
  end.
Proof. destruct c; reflexivity. Qed.
Lemma deg_B f db ch v : degenerate (S f) db (Branch ch v) =
  match used_from 0 ch, v with
  | [], Some w => Ok (Leaf [16] w)
  | [i], None => let! c := opt_panic (nth_error ch i) in degenerate f db (Ext [N.of_nat i] c)
  | _, _ => Ok (Branch ch v)
  end.
Proof. reflexivity. Qed.
Definition finish (f : nat) (db : database) (r : node * bool) : outcome (node * bool) :=
  if snd r then let! n' := degenerate f db (fst r) in Ok (n', true) else Ok r.
Lemma del_B f db ch v i r : delete_at (S f) db (Branch ch v) (i :: r) =
  if i =? 16 then Ok (Branch ch None, true)
  else let! c := opt_panic (nth_error ch (N.to_nat i)) in let! cd := delete_at f db c r in
       finish f db (Branch (if snd cd then set_nth (N.to_nat i) (fst cd) ch else ch) v, snd cd).
Proof. reflexivity. Qed.
Lemma del_X f db x c p : delete_at (S f) db (Ext x c) p =
  if Nat.eqb (common_prefix p x) (length x) then
    let! cd := delete_at f db c (skipn (common_prefix p x) p) in finish f db (Ext x (if snd cd then fst cd else c), snd cd)
  else Ok (Ext x c, false).
Proof. reflexivity. Qed.
Lemma del_H f db h p : delete_at (S f) db (HashN h) p = let! c := recover db h in let! cd := delete_at f db c p in finish f db cd.
Proof. reflexivity. Qed.

Fixpoint usedT (i : nat) (ts : list tree) : list nat :=
  match ts with [] => [] | t :: r => if is_te t then usedT (S i) r else i :: usedT (S i) r end.
Lemma usedT_length ts : forall i, length (usedT i ts) = used ts.
Proof. unfold used. induction ts as [|t ts IH]; intros i; cbn; [reflexivity|]. destruct (is_te t); cbn; auto. Qed.
Lemma usedT_in ts : forall i k, In k (usedT i ts) <-> exists m, k = (i + m)%nat /\ (m < length ts)%nat /\ nth m ts TE <> TE.
Proof.
  induction ts as [|t ts IH]; intros i k; cbn [usedT length].
  - split; [easy|]. intros (m & _ & L & _). lia.
  - assert (S1 : (exists m, k = (i + m)%nat /\ (m < S (length ts))%nat /\ nth m (t :: ts) TE <> TE) <->
        (k = i /\ t <> TE) \/ (exists m, k = (S i + m)%nat /\ (m < length ts)%nat /\ nth m ts TE <> TE)).
    { split.
      - intros ([|m] & -> & L & X); [left; split; [lia|exact X]|right; exists m; repeat split; [lia|lia|exact X]].
      - intros [[-> X]|(m & -> & L & X)]; [exists 0%nat; repeat split; [lia|lia|exact X]|exists (S m); repeat split; [lia|lia|exact X]]. }
    rewrite S1. destruct t; cbn [is_te In]; rewrite IH; intuition (auto; try easy).
    all: try (left; split; [congruence|easy]).
Qed.

Section Del.
  Variable keccak : bytes -> bytes.
  Hypothesis keccak_32 : forall b, length (keccak b) = 32%nat.
  Hypothesis keccak_wf : forall b, wf_bytes (keccak b).
  Local Notation encT := (encT keccak).
  Local Notation shallow := (shallow keccak).
  Local Notation rep := (rep keccak).
  Local Notation stored := (stored keccak).
  Local Notation item_of := (item_of keccak).
  Local Notation encode_raw := (encode_raw keccak).
  Local Notation child_item := (child_item keccak).

  Definition plain (n : node) : Prop := forall h, n <> HashN h.
  Lemma rep_empty db n t : rep db n t -> is_empty_node n = is_te t.
  Proof. destruct 1 as [| | | |t L]; try reflexivity. destruct t; cbn in *; try reflexivity. vm_compute in L. now destruct L. Qed.
  Lemma used_from_rep db ch ts : Forall2 (rep db) ch ts -> forall i, used_from i ch = usedT i ts.
  Proof. induction 1 as [|n t ch ts R F IH]; intros i; cbn; [reflexivity|]. rewrite (rep_empty _ _ _ R), IH. reflexivity. Qed.

  (* ---------------- degenerate ---------------- *)
  Definition to_normal (db : database) (d : nat) (t : tree) (r : outcome node) : Prop :=
    exists n' t', r = Ok n' /\ plain n' /\ rep db n' t' /\ wf d t' /\ same t' t.

  Lemma same_X_L x k v : same (TL (x ++ k) v) (TX x (TL k v)).
  Proof.
    intros q _. rewrite tget_L. cbn [tget]. destruct (Nat.eqb_spec (common_prefix q x) (length x)) as [E|E].
    - destruct (cp_full _ _ E) as (r & ->). now rewrite skipn_app_all, beqb_app.
    - rewrite beqb_neq; [reflexivity|]. intros <-. apply E. rewrite cp_app. reflexivity.
  Qed.
  Lemma same_X_X x y t : same (TX (x ++ y) t) (TX x (TX y t)).
  Proof.
    intros q _. destruct (tget (TX x (TX y t)) q) as [v|] eqn:E.
    - apply tget_X_inv in E as (r & -> & E). apply tget_X_inv in E as (s & -> & E). now rewrite app_assoc, tget_X.
    - destruct (tget (TX (x ++ y) t) q) as [v|] eqn:F; [|reflexivity]. apply tget_X_inv in F as (r & -> & F).
      rewrite <- app_assoc, !tget_X in E. congruence.
  Qed.

  Lemma deg_ext_B db d x n t f e : x <> [] -> Forall nib x -> rep db n t -> wf e t -> is_tb t -> (length x + e <= d)%nat -> N.of_nat e <= 2 ^ 30 -> (2 <= f)%nat ->
    to_normal db d (TX x t) (degenerate f db (Ext x n)).
  Proof.
    intros NX FX R W B L D Lf. destruct f as [|[|f]]; try lia. rewrite deg_X.
    assert (Wx : wf d (TX x t)) by (now apply (wf_X _ e)).
    destruct R as [|k v|y n t R|ch ts R|t LE G S]; try contradiction.
    - eexists _, _. split; [reflexivity|]. split; [easy|]. split; [constructor; constructor; exact R|]. split; [exact Wx|]. now intros q.
    - rewrite (recover_ok keccak keccak_32 keccak_wf db t e) by (auto; now right). cbn [obnd]. rewrite deg_X.
      pose proof (rep_shallow keccak db t S) as RS. destruct t as [| | |ts]; try contradiction. cbn [TrieCodec.shallow] in *.
      eexists _, _. split; [reflexivity|]. split; [easy|]. split; [constructor; exact RS|]. split; [exact Wx|]. now intros q.
  Qed.
  Lemma deg_ext db d x n t f e : x <> [] -> Forall nib x -> rep db n t -> wf e t -> (length x + e <= d)%nat -> N.of_nat e <= 2 ^ 30 -> (4 <= f)%nat ->
    to_normal db d (TX x t) (degenerate f db (Ext x n)).
  Proof.
    intros NX FX R W L D Lf. destruct t as [|k v|y t|ts]; [inversion W| | |apply (deg_ext_B db d x n _ f e); auto; [easy|lia]].
    - (* leaf *)
      assert (G : to_normal db d (TX x (TL k v)) (Ok (Leaf (x ++ k) v))).
      { eexists _, (TL (x ++ k) v). split; [reflexivity|]. split; [easy|]. split; [constructor|]. split; [|apply same_X_L].
        inversion W as [? ? ? Tk Lk Nv Wv Lv| |]; subst. constructor; auto; [now apply term_app|rewrite app_length; lia]. }
      destruct f as [|[|f]]; try lia. rewrite deg_X. inversion R as [| | | |? LE DB S]; subst; [exact G|].
      rewrite (recover_ok keccak keccak_32 keccak_wf db _ e) by (auto; now right). cbn [obnd TrieCodec.shallow]. rewrite deg_X. exact G.
    - (* extension *)
      inversion W as [|? e' ? ? NY FY TBy Ly Wy|]; subst.
      assert (G : forall n' f', rep db n' t -> (2 <= f')%nat -> to_normal db d (TX x (TX y t)) (degenerate f' db (Ext (x ++ y) n'))).
      { intros n' f' R' Lf'. destruct (deg_ext_B db d (x ++ y) n' t f' e') as (n2 & t2 & E & P2 & R2 & W2 & S2); auto.
        - now destruct x.
        - apply Forall_app. now split.
        - rewrite app_length. lia.
        - lia.
        - exists n2, t2. split; [exact E|]. split; [exact P2|]. split; [exact R2|]. split; [exact W2|]. intros q Tq. rewrite S2 by exact Tq. now apply same_X_X. }
      destruct f as [|[|f]]; try lia. rewrite deg_X. inversion R as [| |? n' ? R'| |? LE DB S]; subst; [apply G; [exact R'|lia]|].
      rewrite (recover_ok keccak keccak_32 keccak_wf db _ e) by (auto; now right). cbn [obnd]. pose proof (rep_shallow keccak db _ S) as RS.
      cbn [TrieCodec.shallow] in *. inversion RS as [| |? n' ? R'| |]; subst. rewrite deg_X. apply G; [exact R'|lia].
  Qed.
  Lemma deg_branch db d ch ts f e : Forall2 (rep db) ch ts -> length ts = 16%nat -> Forall (fun t => t = TE \/ wf e t) ts -> (1 + e <= d)%nat -> N.of_nat e <= 2 ^ 30 ->
    (1 <= used ts)%nat -> (5 <= f)%nat -> to_normal db d (TB ts) (degenerate f db (Branch ch None)).
  Proof.
    intros R L16 FT Le D US Lf. destruct f as [|f]; [lia|]. rewrite deg_B, (used_from_rep db ch ts R 0). pose proof (usedT_length ts 0) as UL.
    destruct (usedT 0 ts) as [|i [|j r]] eqn:E.
    - cbn in UL. lia.
    - assert (I : In i (usedT 0 ts)) by (rewrite E; now left). apply usedT_in in I as (m & -> & Lm & Nm). cbn [Nat.add] in *.
      destruct (Forall2_nth_error _ _ _ TE m R Lm) as (c & -> & Rc). cbn [opt_panic obnd].
      destruct (Forall_nth' _ _ _ TE FT Lm) as [X|Wm]; [easy|].
      destruct (deg_ext db d [N.of_nat m] c (nth m ts TE) f e) as (n2 & t2 & E2 & P2 & R2 & W2 & S2); auto; try lia; [easy|constructor; [unfold nib; lia|constructor]|].
      exists n2, t2. split; [exact E2|]. split; [exact P2|]. split; [exact R2|]. split; [exact W2|].
      intros q Tq. rewrite S2 by exact Tq. destruct q as [|y q]; [inversion Tq|]. rewrite tget_B. cbn [tget common_prefix length].
      apply term_inv in Tq as [[-> ->]|[Y Tq]].
      + rewrite N.eqb_refl. now rewrite (proj2 (N.eqb_neq 16 (N.of_nat m))) by lia.
      + unfold nib in Y. rewrite (proj2 (N.eqb_neq y 16)) by lia. destruct (N.eqb_spec y (N.of_nat m)) as [->|NE].
        * rewrite Nat2N.id. now destruct q.
        * destruct (nth (N.to_nat y) ts TE) eqn:Q; [reflexivity|..]; exfalso; apply NE;
            (assert (I : In (N.to_nat y) (usedT 0 ts)) by (apply usedT_in; exists (N.to_nat y); rewrite Q; repeat split; [lia|easy]);
             rewrite E in I; destruct I as [I|[]]; lia).
    - eexists _, (TB ts). split; [reflexivity|]. split; [easy|]. split; [constructor; exact R|]. split; [|now intros q].
      apply (wf_B d e); auto. rewrite <- UL. cbn. lia.
  Qed.
  Lemma deg_norm db d n t f : rep db n t -> wf d t -> plain n -> N.of_nat d <= 2 ^ 30 -> (5 <= f)%nat -> to_normal db d t (degenerate f db n).
  Proof.
    intros R W P D Lf. destruct R as [|k v|x n t R|ch ts R|t]; [inversion W| | | |now destruct (P (keccak (encT t)))].
    - destruct f as [|f]; [lia|]. eexists _, _. split; [reflexivity|]. split; [easy|]. split; [constructor|]. split; [exact W|]. now intros q.
    - inversion W as [|? e ? ? NX FX TBx Lx Wx|]; subst. apply (deg_ext db d x n t f e); auto; lia.
    - inversion W as [| |? e ? L16 Le FT US]; subst. apply (deg_branch db d ch ts f e); auto; lia.
  Qed.

  (* ---------------- removal ---------------- *)
  Definition present (o : option bytes) : bool := match o with Some _ => true | None => false end.
  Definition after_delete (db : database) (d : nat) (t : tree) (p : list N) (r : outcome (node * bool)) : Prop :=
    exists n' t', r = Ok (n', present (tget t p)) /\ plain n' /\ rep db n' t' /\ wfr d t' /\ forall q, term q -> tget t' q = if beqb p q then None else tget t q.
  Lemma absent_unchanged t p : tget t p = None -> forall q, tget t q = if beqb p q then None else tget t q.
  Proof. intros H q. destruct (beqb p q) eqn:E; [|reflexivity]. apply beqb_eq in E. now subst. Qed.

  Theorem delete_ok db : forall d n t p f, rep db n t -> wfr d t -> N.of_nat d <= 2 ^ 30 -> term p -> compat t p -> (2 * d + 10 <= f)%nat ->
    after_delete db d t p (delete_at f db n p).
  Proof.
    induction d as [d IHd] using lt_wf_ind.
    assert (direct : forall n t p f, plain n -> rep db n t -> wfr d t -> N.of_nat d <= 2 ^ 30 -> term p -> compat t p -> (2 * d + 9 <= f)%nat ->
      after_delete db d t p (delete_at f db n p)).
    { intros n t p f P R W D T C Lf. destruct f as [|f]; [lia|]. destruct R as [|k w|x n t R|ch ts R|t].
      - cbn [delete_at]. exists Empty, TE. split; [reflexivity|]. split; [easy|]. split; [constructor|]. split; [now left|]. intros q _. now destruct (beqb p q).
      - cbn [delete_at]. destruct (beqb k p) eqn:E.
        + apply beqb_eq in E. subst p. exists Empty, TE. split; [now rewrite tget_L, beqb_refl|]. split; [easy|]. split; [constructor|]. split; [now left|].
          intros q _. rewrite tget_L. now destruct (beqb k q).
        + exists (Leaf k w), (TL k w). split; [now rewrite tget_L, E|]. split; [easy|]. split; [constructor|]. split; [exact W|].
          intros q _. apply absent_unchanged. now rewrite tget_L, E.
      - destruct W as [W|W]; [discriminate W|]. inversion W as [|? e ? ? NX FX TBx Lx Wx|]; subst. rewrite del_X.
        destruct (Nat.eqb_spec (common_prefix p x) (length x)) as [E|E].
        + destruct (cp_full _ _ E) as (r & ->). rewrite E, skipn_app_all. apply term_skip in T; [|exact FX].
          assert (C' : compat t r).
          { intros q Tq G. destruct (C (x ++ q)) as [X|X]; [now apply term_app|now rewrite tget_X|left; now apply app_inv_head in X|right; now apply diverge_app in X]. }
          assert (Lxp : (1 <= length x)%nat) by (destruct x; [easy|cbn; lia]).
          destruct (IHd e ltac:(lia) n t r f) as (n' & t' & -> & P' & R' & W' & G'); auto; try lia; [now right|]. cbn [obnd fst snd]. unfold finish. cbn [fst snd].
          destruct (tget t r) as [w|] eqn:Gr; cbn [present].
          * assert (W2 : wf e t').
            { destruct W' as [->|W2]; [|exact W2]. exfalso. destruct t as [| | |ts]; try contradiction.
              destruct (wf_two _ _ Wx) as (a & b & q1 & q2 & w1 & w2 & Na & Nb & Dab & Tq1 & Tq2 & G1 & G2).
              pose proof (G' (a :: q1) ltac:(now constructor)) as Z1. pose proof (G' (b :: q2) ltac:(now constructor)) as Z2.
              rewrite G1 in Z1. rewrite G2 in Z2. cbn [tget] in Z1, Z2.
              destruct (beqb r (a :: q1)) eqn:B1; [|discriminate Z1]. destruct (beqb r (b :: q2)) eqn:B2; [|discriminate Z2].
              apply beqb_eq in B1, B2. congruence. }
            destruct (deg_ext db d x n' t' f e) as (n2 & t2 & -> & P2 & R2 & W3 & S2); auto; try lia. cbn [obnd].
            exists n2, t2. rewrite tget_X, Gr. split; [reflexivity|]. split; [exact P2|]. split; [exact R2|]. split; [now right|].
            intros q Tq. rewrite S2 by exact Tq. destruct (Nat.eqb_spec (common_prefix q x) (length x)) as [E2|E2].
            { destruct (cp_full _ _ E2) as (q' & ->). apply term_skip in Tq; [|exact FX]. rewrite !tget_X, beqb_app. now apply G'. }
            cbn [tget]. rewrite (proj2 (Nat.eqb_neq _ _) E2). now destruct (beqb (x ++ r) q).
          * eexists _, (TX x t). rewrite tget_X, Gr. split; [reflexivity|]. split; [easy|]. split; [constructor; exact R|]. split; [now right|].
            intros q _. apply absent_unchanged. now rewrite tget_X.
        + assert (G : tget (TX x t) p = None) by (cbn [tget]; now rewrite (proj2 (Nat.eqb_neq _ _) E)).
          eexists _, (TX x t). rewrite G. split; [reflexivity|]. split; [easy|]. split; [constructor; exact R|]. split; [now right|]. intros q _. now apply absent_unchanged.
      - destruct W as [W|W]; [discriminate W|]. inversion W as [| |? e ? L16 Le FT US]; subst.
        destruct p as [|i r]; [inversion T|].
        destruct (wf_two _ _ W) as (a & b & q1 & q2 & w1 & w2 & Na & Nb & Dab & Tq1 & Tq2 & G1 & G2).
        assert (I : nib i /\ term r).
        { apply term_inv in T as [[-> ->]|[I T]]; [|now split]. exfalso.
          destruct (C (a :: q1)) as [X|X]; [now constructor|rewrite G1; discriminate|injection X as -> _; unfold nib in Na; lia|].
          apply (diverge_head 16 a [] [] q1) in X as [X _]; unfold nib in *; lia. }
        destruct I as [I Tr]. unfold nib in I. rewrite del_B. rewrite (proj2 (N.eqb_neq i 16)) by lia.
        destruct (Forall2_nth_error _ _ _ TE (N.to_nat i) R) as (c & -> & Rc); [lia|]. cbn [opt_panic obnd].
        assert (Li : (N.to_nat i < length ts)%nat) by lia.
        assert (C' : compat (nth (N.to_nat i) ts TE) r).
        { intros q Tq G. destruct (C (i :: q)) as [X|X].
          - now constructor.
          - rewrite tget_B, (proj2 (N.eqb_neq i 16)) by lia. exact G.
          - left. now injection X.
          - right. now apply (diverge_app [i]). }
        destruct (IHd e ltac:(lia) c (nth (N.to_nat i) ts TE) r f) as (n' & t' & -> & P' & R' & W' & G'); auto; try lia.
        { apply (Forall_nth' _ _ _ TE FT Li). }
        cbn [obnd fst snd]. unfold finish. cbn [fst snd].
        assert (GT : tget (TB ts) (i :: r) = tget (nth (N.to_nat i) ts TE) r) by (rewrite tget_B; now rewrite (proj2 (N.eqb_neq i 16)) by lia).
        destruct (tget (nth (N.to_nat i) ts TE) r) as [w|] eqn:Gr; cbn [present].
        + destruct (deg_branch db d (set_nth (N.to_nat i) n' ch) (set_nth (N.to_nat i) t' ts) f e) as (n2 & t2 & -> & P2 & R2 & W3 & S2); auto; try lia.
          * now apply Forall2_set_nth.
          * now rewrite set_nth_length.
          * now apply Forall_set_nth.
          * pose proof (used_set_out ts t' (N.to_nat i)). lia.
          * cbn [obnd]. exists n2, t2. rewrite GT. split; [reflexivity|]. split; [exact P2|]. split; [exact R2|]. split; [now right|].
            intros q Tq. rewrite S2 by exact Tq. destruct q as [|y q]; [inversion Tq|]. rewrite !tget_B. apply term_inv in Tq as [[-> ->]|[Y Tq]].
            { rewrite N.eqb_refl. now destruct (beqb (i :: r) [16]). }
            unfold nib in Y. rewrite (proj2 (N.eqb_neq y 16)) by lia. rewrite nth_set_nth by lia.
            destruct (Nat.eqb_spec (N.to_nat y) (N.to_nat i)) as [E|E].
            { apply N2Nat.inj in E. subst y. rewrite G' by exact Tq. change (i :: r) with ([i] ++ r). change (i :: q) with ([i] ++ q). now rewrite beqb_app. }
            rewrite beqb_neq; [reflexivity|]. intros X. injection X as X _. subst. easy.
        + eexists _, (TB ts). rewrite GT. split; [reflexivity|]. split; [easy|]. split; [constructor; exact R|]. split; [now right|].
          intros q _. now apply absent_unchanged.
      - now destruct (P (keccak (encT t))). }
    intros n t p f R W D T C Lf. destruct n as [|k w|x n|ch o|h]; try (apply direct; auto; [easy|lia]).
    inversion R as [| | | |? L G S]; subst. destruct f as [|f]; [lia|]. rewrite del_H, (recover_ok keccak keccak_32 keccak_wf db t d) by auto. cbn [obnd].
    destruct (direct (shallow t) t p f) as (n' & t' & -> & P' & R' & W' & G'); auto; [intros h; apply shallow_not_hash|now apply rep_shallow|lia|].
    cbn [obnd]. unfold finish. cbn [fst snd]. destruct (tget t p) as [w|] eqn:Gp; cbn [present].
    - destruct W' as [->|W'].
      + inversion R' as [| | | |? LE]; subst; [|vm_compute in LE; now destruct LE]. destruct f as [|f]; [lia|]. cbn [degenerate obnd].
        exists Empty, TE. rewrite Gp. split; [reflexivity|]. split; [easy|]. split; [constructor|]. split; [now left|]. exact G'.
      + destruct (deg_norm db d n' t' f) as (n2 & t2 & -> & P2 & R2 & W3 & S2); auto; [lia|]. cbn [obnd].
        exists n2, t2. rewrite Gp. split; [reflexivity|]. split; [exact P2|]. split; [exact R2|]. split; [now right|].
        intros q Tq. rewrite S2 by exact Tq. now apply G'.
    - exists n', t'. rewrite Gp. split; [reflexivity|]. split; [exact P'|]. split; [exact R'|]. split; [exact W'|]. exact G'.
  Qed.

  (* ---------------- commit ---------------- *)
  Lemma child_of db n t : rep db n t -> (plain n -> fst (encode_raw n) = encT t) -> fst (child_item n (encode_raw n)) = item_of (encT t).
  Proof.
    intros R K. unfold TrieModel.child_item, TrieCodec.item_of. destruct n as [|k v|x n|ch v|h]; try (pose proof (K ltac:(easy)) as E; rewrite E; destruct (len (encT t) <? 32); [exact E|reflexivity]).
    inversion R as [| | | |? LE]; subst. cbn [fst]. match goal with |- context [len ?e <? 32] => destruct (N.ltb_spec (len e) 32) end; [lia|reflexivity].
  Qed.
  Lemma enc_rep db t : forall n, rep db n t -> plain n -> fst (encode_raw n) = encT t.
  Proof.
    induction t as [|k v|x t IH|ts IH] using tree_ind'; intros n R P; inversion R as [|? ?|? n' ? R'|ch ? R'|]; subst; try (now destruct (P _ eq_refl)); try reflexivity.
    - cbn [TrieModel.encode_raw TrieCodec.encT fst]. now rewrite (child_of db n' t R' (IH n' R')).
    - cbn [TrieModel.encode_raw TrieCodec.encT fst]. f_equal. f_equal. rewrite map_map. clear R P.
      induction R' as [|c t ch ts R F IHF]; [reflexivity|]. inversion IH as [|? ? IHc IHs]; subst. cbn [map]. f_equal; [|now apply IHF].
      apply (child_of db c t R (IHc c R)).
  Qed.
  (** the encodings below a tree that are named by their hash *)
  Fixpoint below (t : tree) : list bytes :=
    match t with
    | TE | TL _ _ => []
    | TX _ c => (if len (encT c) <? 32 then [] else [encT c]) ++ below c
    | TB ts => flat_map (fun c => (if len (encT c) <? 32 then [] else [encT c]) ++ below c) ts
    end.
  Definition extends (db db' : database) : Prop := forall h e, db h = Some e -> db' h = Some e.
  Lemma stored_mono db db' t : extends db db' -> stored db t -> stored db' t.
  Proof.
    intros X. induction t as [|k v|x t IH|ts IH] using tree_ind'; intros S; inversion S as [| |? ? D S'|? F]; subst; constructor; auto.
    clear S. induction F as [|c ts [D S] F IHF]; [constructor|]. inversion IH; subst. constructor; auto.
  Qed.
  Lemma rep_mono db db' t : extends db db' -> forall n, rep db n t -> rep db' n t.
  Proof.
    intros X. induction t as [|k v|x t IH|ts IH] using tree_ind'; intros n R; inversion R as [| |? n' ? R'|ch ? R'|? L D S]; subst; constructor; auto; try (eapply stored_mono; eauto).
    clear R. induction R' as [|c t ch ts R F IHF]; [constructor|]. inversion IH; subst. constructor; auto.
  Qed.
  Definition wrote (db : database) (w : writes) : Prop := forall h e, In (h, e) w -> db h = Some e.
  Lemma wrote_app db a b : wrote db (a ++ b) <-> wrote db a /\ wrote db b.
  Proof. unfold wrote. setoid_rewrite in_app_iff. firstorder. Qed.
  (** the writes of a commit: each under its hash, and together with what was there they hold all that is below *)
  Lemma writes_rep db : forall t n, rep db n t -> plain n ->
    (forall h e, In (h, e) (snd (encode_raw n)) -> h = keccak e /\ In e (below t)) /\
    (forall db', extends db db' -> wrote db' (snd (encode_raw n)) -> stored db' t).
  Proof.
    assert (child : forall n t, rep db n t ->
      (plain n -> (forall h e, In (h, e) (snd (encode_raw n)) -> h = keccak e /\ In e (below t)) /\
        (forall db', extends db db' -> wrote db' (snd (encode_raw n)) -> stored db' t)) ->
      (forall h e, In (h, e) (snd (child_item n (encode_raw n))) -> h = keccak e /\ In e ((if len (encT t) <? 32 then [] else [encT t]) ++ below t)) /\
      (forall db', extends db db' -> wrote db' (snd (child_item n (encode_raw n))) -> (32 <= len (encT t) -> db' (keccak (encT t)) = Some (encT t)) /\ stored db' t)).
    { intros n t R K. pose proof (enc_rep db t n R) as E. destruct n as [|k v|x n|ch v|h0].
      5: { inversion R as [| | | |? L D S]; subst. cbn [TrieModel.child_item snd]. split; [easy|]. intros db' X _. split; [intros _; now apply X|eapply stored_mono; eauto]. }
      all: specialize (E ltac:(easy)); specialize (K ltac:(easy)) as [K1 K2]; unfold TrieModel.child_item; rewrite E; destruct (N.ltb_spec (len (encT t)) 32) as [LT|GE]; cbn [snd].
      all: try (split; [intros h e I; apply K1 in I as [? ?]; now split|intros db' X Wr; split; [lia|now apply K2]]).
      all: (split; [intros h e [I|I]; [injection I as <- <-; split; [reflexivity|now left]|apply K1 in I as [? ?]; split; [assumption|now right]]|
            intros db' X Wr; split; [intros _; apply Wr; now left|apply K2; [exact X|intros h e I; apply Wr; now right]]]). }
    induction t as [|k v|x t IH|ts IH] using tree_ind'; intros n R P; inversion R as [|? ?|? n' ? R'|ch ? R'|]; subst; try (now destruct (P _ eq_refl)).
    - cbn. split; [easy|]. intros. constructor.
    - cbn. split; [easy|]. intros. constructor.
    - destruct (child n' t R' (IH n' R')) as [C1 C2]. cbn [TrieModel.encode_raw snd below]. split; [exact C1|].
      intros db' X Wr. destruct (C2 db' X Wr). now constructor.
    - cbn [TrieModel.encode_raw snd below]. rewrite map_map. clear R P.
      assert (A : (forall h e, In (h, e) (concat (map (fun c => snd (child_item c (encode_raw c))) ch)) -> h = keccak e /\
          In e (flat_map (fun c => (if len (encT c) <? 32 then [] else [encT c]) ++ below c) ts)) /\
        (forall db', extends db db' -> wrote db' (concat (map (fun c => snd (child_item c (encode_raw c))) ch)) ->
          Forall (fun c => (32 <= len (encT c) -> db' (keccak (encT c)) = Some (encT c)) /\ stored db' c) ts)).
      { induction R' as [|c t ch ts R F IHF]; [split; [easy|constructor]|]. inversion IH as [|? ? IHc IHs]; subst. destruct (IHF IHs) as [F1 F2].
        destruct (child c t R (IHc c R)) as [C1 C2]. cbn [map concat flat_map]. split.
        - intros h e I. apply in_app_iff in I as [I|I]; [apply C1 in I as [? ?]|apply F1 in I as [? ?]]; (split; [assumption|]); apply in_app_iff; auto.
        - intros db' X Wr. apply wrote_app in Wr as [W1 W2]. constructor; auto. }
      destruct A as [A1 A2]. split; [exact A1|]. intros db' X Wr. constructor. now apply A2.
  Qed.

  (** A database whose entries are under their hashes, the hashes telling the entries in [U] apart. *)
  Definition injective_on (U : bytes -> Prop) : Prop := forall a b, U a -> U b -> keccak a = keccak b -> a = b.
  Definition honest (U : bytes -> Prop) (db : database) : Prop := forall h e, db h = Some e -> h = keccak e /\ U e.
  Lemma put_all_ok U : injective_on U -> forall w db, honest U db -> (forall h e, In (h, e) w -> h = keccak e /\ U e) ->
    honest U (put_all db w) /\ extends db (put_all db w) /\ wrote (put_all db w) w.
  Proof.
    intros IU. induction w as [|[h e] w IH]; intros db H A; [split; [exact H|split; [now intros ? ?|easy]]|].
    destruct (A h e (or_introl eq_refl)) as [-> Ue].
    assert (H' : honest U (db_insert db (keccak e) e)).
    { intros h' e' G. unfold db_insert in G. destruct (beqb h' (keccak e)) eqn:B; [injection G as <-; apply beqb_eq in B; now split|now apply H]. }
    assert (X : extends db (db_insert db (keccak e) e)).
    { intros h' e' G. unfold db_insert. destruct (beqb h' (keccak e)) eqn:B; [|exact G]. apply beqb_eq in B. subst h'. destruct (H _ _ G) as [K Ue']. f_equal. now apply IU. }
    destruct (IH _ H') as (H2 & X2 & W2); [intros; apply A; now right|]. change (put_all db ((keccak e, e) :: w)) with (put_all (db_insert db (keccak e) e) w).
    split; [exact H2|]. split; [intros h' e' G; now apply X2, X|]. intros h' e' [G|G]; [|now apply W2]. injection G as <- <-. apply X2. unfold db_insert. now rewrite beqb_refl.
  Qed.
  Definition commit_writes (n : node) : writes := (keccak (fst (encode_raw n)), fst (encode_raw n)) :: snd (encode_raw n).
  Lemma trie_root_plain T : plain (tr_root T) ->
    trie_root keccak T = let db := put_all (tr_db T) (commit_writes (tr_root T)) in
                         let! n := recover db (keccak (fst (encode_raw (tr_root T)))) in Ok (keccak (fst (encode_raw (tr_root T))), mktrie n db).
  Proof. intros P. unfold trie_root, commit_writes. destruct (tr_root T); try (now destruct (encode_raw _)). now destruct (P h). Qed.
  Theorem commit_ok U db n t d : injective_on U -> honest U db -> rep db n t -> wfr d t -> N.of_nat d <= 2 ^ 30 -> plain n ->
    Forall (fun w => U (snd w)) (commit_writes n) ->
    exists db', trie_root keccak (mktrie n db) = Ok (keccak (encT t), mktrie (shallow t) db') /\ honest U db' /\ extends db db' /\ stored db' t
      /\ db' (keccak (encT t)) = Some (encT t).
  Proof.
    intros IU H R W D P F. rewrite trie_root_plain by exact P. cbn [tr_root tr_db]. cbn zeta. unfold commit_writes in *. rewrite (enc_rep db t n R P) in *.
    destruct (writes_rep db t n R P) as [A B].
    destruct (put_all_ok U IU ((keccak (encT t), encT t) :: snd (encode_raw n)) db H) as (H' & X & Wr).
    { intros h e I. rewrite Forall_forall in F. split; [|apply (F _ I)]. destruct I as [I|I]; [now injection I as <- <-|now apply A in I]. }
    set (db' := put_all db ((keccak (encT t), encT t) :: snd (encode_raw n))) in *.
    assert (G : db' (keccak (encT t)) = Some (encT t)) by (apply Wr; now left).
    exists db'. rewrite (recover_ok keccak keccak_32 keccak_wf db' t d) by auto. cbn [obnd]. split; [reflexivity|]. split; [exact H'|]. split; [exact X|].
    split; [|exact G]. apply B; [exact X|]. intros h e I. apply Wr. now right.
  Qed.
  (** what a commit writes are the encodings of the tree and of what is below it *)
  Lemma commit_writes_in db n t : rep db n t -> plain n -> forall w, In w (commit_writes n) -> snd w = encT t \/ In (snd w) (below t).
  Proof.
    intros R P [h e] [I|I]; unfold commit_writes in *; [injection I as <- <-; left; now apply (enc_rep db)|].
    right. now apply (writes_rep db t n R P) in I as [_ ?].
  Qed.
End Del.
