(** Proofs about the paths of the trie: hashes bind trees, proofs carry the nodes on the path, and the keys in use never start one another. *)
From Verif Require Import Bytes BytesProofs Rlp RlpProofs TxModel TrieModel TrieProofs TrieCodec TrieOps TrieDelete.
From Coq Require Import NArith List Lia.
Import ListNotations.
Local Open Scope N_scope.

(* ---------------- keys ---------------- *)
Lemma nibbles_nib b : wf_bytes b -> Forall nib (nibbles b).
Proof.
  unfold nibbles. induction 1 as [|x b X W IH]; cbn; [constructor|]. unfold is_byte, nib in *.
  constructor; [apply N.div_lt_upper_bound; lia|]. constructor; [apply N.mod_lt; lia|exact IH].
Qed.
Lemma from_raw_term b : wf_bytes b -> term (from_raw b).
Proof. intros W. apply term_app; [now apply nibbles_nib|constructor]. Qed.
Lemma from_raw_length b : length (from_raw b) = (2 * length b + 1)%nat.
Proof. unfold from_raw. rewrite app_length. cbn [length]. f_equal. unfold nibbles. induction b as [|x b IH]; cbn; lia. Qed.
Lemma nibbles_prefix a : forall b z, wf_bytes a -> wf_bytes b -> nibbles b = nibbles a ++ z -> exists c, b = a ++ c.
Proof.
  induction a as [|x a IH]; intros b z Wa Wb E; [now exists b|]. destruct b as [|y b]; [discriminate E|]. cbn in E. injection E as E1 E2 E3.
  inversion Wa; subst. inversion Wb; subst. destruct (IH b z) as (c & ->); auto. exists c. cbn. f_equal.
  rewrite (N.div_mod y 16), (N.div_mod x 16) by lia. now rewrite E1, E2.
Qed.
Lemma from_raw_inj a b : wf_bytes a -> wf_bytes b -> from_raw a = from_raw b -> a = b.
Proof.
  intros Wa Wb E. unfold from_raw in E. apply app_inj_tail in E as [E _].
  destruct (nibbles_prefix a b [] Wa Wb) as (c & ->); [now rewrite app_nil_r|].
  apply (f_equal (@length N)) in E. unfold nibbles in E. rewrite flat_map_app, app_length in E. destruct c as [|x c]; [now rewrite app_nil_r|cbn in E; lia].
Qed.
(** No key of [K] starts another one. *)
Definition prefix_free (K : bytes -> Prop) : Prop := forall a b c, K a -> K b -> b = a ++ c -> c = [].
Lemma paths_diverge K a b : prefix_free K -> (forall k, K k -> wf_bytes k) -> K a -> K b -> a <> b -> diverge (from_raw a) (from_raw b).
Proof.
  intros PF W Ka Kb NE. assert (W1 := W a Ka). assert (W2 := W b Kb).
  destruct (term_part (from_raw a) (from_raw b)) as (c & i & j & r & s & E & F & D & _); [now apply from_raw_term..|intros E; apply NE; now apply from_raw_inj|].
  assert (one : forall a b i j c r s, K a -> K b -> wf_bytes a -> wf_bytes b -> from_raw a = c ++ i :: r -> from_raw b = c ++ j :: s -> i <> j -> i <> 16).
  { clear - PF. intros a b i j c r s Ka Kb Wa Wb E F D ->.
    assert (r = []) as ->.
    { pose proof (from_raw_term a Wa) as T. rewrite E in T. pose proof (term_pre _ _ _ T) as P. apply term_skip in T; [|exact P]. inversion T; subst; [reflexivity|unfold nib in *; lia]. }
    unfold from_raw in E. apply app_inj_tail in E as [E _]. destruct s as [|s0 s] using rev_ind.
    - unfold from_raw in F. apply app_inj_tail in F as [_ F]. now subst j.
    - clear IHs. unfold from_raw in F. rewrite app_comm_cons, app_assoc in F. apply app_inj_tail in F as [F _].
      destruct (nibbles_prefix a b (j :: s) Wa Wb) as (z & Z); [now rewrite E|]. pose proof (PF a b z Ka Kb Z). subst z. rewrite app_nil_r in Z. subst b.
      apply (f_equal (@length N)) in F. rewrite E, app_length in F. cbn in F. lia. }
  assert (I16 : i <> 16) by (eapply one; [exact Ka|exact Kb|..]; eauto). assert (J16 : j <> 16) by (eapply (one b a); [exact Kb|exact Ka|..]; eauto).
  exists c, i, j, r, s. split; [exact E|]. split; [exact F|]. split; [exact D|].
  pose proof (from_raw_term a W1) as Ta. pose proof (from_raw_term b W2) as Tb. rewrite E in Ta. rewrite F in Tb.
  split; [now apply (term_nibs c i r)|now apply (term_nibs c j s)].
Qed.

Section Paths.
  Variable keccak : bytes -> bytes.
  Hypothesis keccak_32 : forall b, length (keccak b) = 32%nat.
  Hypothesis keccak_wf : forall b, wf_bytes (keccak b).
  Local Notation encT := (encT keccak).
  Local Notation shallow := (shallow keccak).
  Local Notation rep := (rep keccak).
  Local Notation stored := (stored keccak).
  Local Notation below := (below keccak).
  Local Notation injective_on := (injective_on keccak).
  Local Notation honest := (honest keccak).

  Definition name (t : tree) : list bytes := if len (encT t) <? 32 then [] else [encT t].
  Definition child (t : tree) : node := if len (encT t) <? 32 then shallow t else HashN (keccak (encT t)).
  Lemma shallow_X x c : shallow (TX x c) = Ext x (child c).
  Proof. reflexivity. Qed.
  Lemma shallow_B ts : shallow (TB ts) = Branch (map child ts) None.
  Proof. reflexivity. Qed.
  Lemma below_X x c : below (TX x c) = name c ++ below c.
  Proof. reflexivity. Qed.
  Lemma below_B ts : below (TB ts) = flat_map (fun c => name c ++ below c) ts.
  Proof. reflexivity. Qed.
  Lemma in_name e t : In e (name t) <-> 32 <= len (encT t) /\ e = encT t.
  Proof. unfold name. destruct (N.ltb_spec (len (encT t)) 32); cbn; split; try easy; [lia|intros [<-|[]]; now split|intros [_ ->]; now left]. Qed.

  (* ---------------- what is stored below a tree ---------------- *)
  Lemma stored_below db t : stored db t <-> (forall e, In e (below t) -> db (keccak e) = Some e).
  Proof.
    induction t as [|k v|x t IH|ts IH] using tree_ind'.
    - split; [easy|constructor].
    - split; [easy|constructor].
    - rewrite below_X. split.
      + intros S e I. inversion S as [| |? ? D S'|]; subst. apply in_app_iff in I as [I|I]; [apply in_name in I as [L ->]; now apply D|now apply IH].
      + intros A. constructor; [intros L; apply A; apply in_app_iff; left; now apply in_name|apply IH; intros e I; apply A; apply in_app_iff; now right].
    - rewrite below_B. split.
      + intros S e I. inversion S as [| | |? F]; subst. apply in_flat_map in I as (c & Ic & I). rewrite Forall_forall in F, IH. destruct (F c Ic) as [D S'].
        apply in_app_iff in I as [I|I]; [apply in_name in I as [L ->]; now apply D|now apply (IH c Ic)].
      + intros A. constructor. rewrite Forall_forall in *. intros c Ic. split.
        * intros L. apply A. apply in_flat_map. exists c. split; [exact Ic|]. apply in_app_iff. left. now apply in_name.
        * apply (IH c Ic). intros e I. apply A. apply in_flat_map. exists c. split; [exact Ic|]. apply in_app_iff. now right.
  Qed.

  (* ---------------- hashes bind trees ---------------- *)
  Lemma bind_shallow U : injective_on U -> forall t u d e, wfr d t -> wfr e u -> N.of_nat d <= 2 ^ 30 -> N.of_nat e <= 2 ^ 30 ->
    (forall x, In x (below t) -> U x) -> (forall x, In x (below u) -> U x) -> shallow t = shallow u -> t = u.
  Proof.
    intros IU. induction t as [|k v|x t IH|ts IH] using tree_ind'; intros u d e W V D E A B Q.
    - destruct u; try discriminate Q. reflexivity.
    - destruct u; try discriminate Q. now injection Q as -> ->.
    - destruct u as [| |y u|]; try discriminate Q. rewrite !shallow_X in Q. injection Q as -> Q. f_equal.
      destruct W as [W|W]; [discriminate W|]. inversion W as [|? d' ? ? NX FX TBx Lx Wx|]; subst.
      destruct V as [V|V]; [discriminate V|]. inversion V as [|? e' ? ? NY FY TBy Ly Wy|]; subst.
      assert (G : shallow t = shallow u).
      { unfold child in Q. destruct (len (encT t) <? 32) eqn:L1, (len (encT u) <? 32) eqn:L2; [exact Q|now apply shallow_not_hash in Q|symmetry in Q; now apply shallow_not_hash in Q|].
        injection Q as Q. assert (X : encT t = encT u).
        { apply IU; [apply A|apply B|exact Q]; rewrite below_X; apply in_app_iff; left; unfold name; rewrite ?L1, ?L2; now left. }
        pose proof (decode_ok keccak keccak_32 keccak_wf t d' (or_intror Wx) ltac:(lia)) as D1.
        pose proof (decode_ok keccak keccak_32 keccak_wf u e' (or_intror Wy) ltac:(lia)) as D2. rewrite X, D2 in D1. now injection D1. }
      apply (IH u d' e'); try (now right); try lia; auto; intros z Z; [apply A|apply B]; rewrite below_X; apply in_app_iff; now right.
    - destruct u as [| | |us]; try discriminate Q. rewrite !shallow_B in Q. injection Q as Q. f_equal.
      destruct W as [W|W]; [discriminate W|]. inversion W as [| |? d' ? L16 Le FT US]; subst.
      destruct V as [V|V]; [discriminate V|]. inversion V as [| |? e' ? M16 Me FU VS]; subst.
      rewrite below_B in A, B. clear W V L16 US M16 VS. revert us FU B Q. induction ts as [|t ts IHts]; intros us FU B Q; [now destruct us|].
      destruct us as [|u us]; [discriminate Q|]. cbn [map] in Q. injection Q as Q Q'. inversion IH as [|? ? IHt IHs]; subst. inversion FT; subst. inversion FU; subst.
      cbn [flat_map] in A, B. f_equal.
      + assert (G : shallow t = shallow u).
        { unfold child in Q. destruct (len (encT t) <? 32) eqn:L1, (len (encT u) <? 32) eqn:L2; [exact Q|now apply shallow_not_hash in Q|symmetry in Q; now apply shallow_not_hash in Q|].
          injection Q as Q. assert (X : encT t = encT u).
          { apply IU; [apply A|apply B|exact Q]; apply in_app_iff; left; apply in_app_iff; left; unfold name; rewrite ?L1, ?L2; now left. }
          pose proof (decode_ok keccak keccak_32 keccak_wf t d' ltac:(assumption) ltac:(lia)) as D1.
          pose proof (decode_ok keccak keccak_32 keccak_wf u e' ltac:(assumption) ltac:(lia)) as D2. rewrite X, D2 in D1. now injection D1. }
        apply (IHt u d' e'); try lia; auto; intros z Z; [apply A|apply B]; apply in_app_iff; left; apply in_app_iff; now right.
      + apply IHts; auto; intros z Z; [apply A|apply B]; apply in_app_iff; now right.
  Qed.
  Theorem bind_root U t u d e : injective_on U -> wfr d t -> wfr e u -> N.of_nat d <= 2 ^ 30 -> N.of_nat e <= 2 ^ 30 ->
    (forall x, In x (encT t :: below t) -> U x) -> (forall x, In x (encT u :: below u) -> U x) -> keccak (encT t) = keccak (encT u) -> t = u.
  Proof.
    intros IU W V D E A B Q. assert (X : encT t = encT u) by (apply IU; [apply A; now left|apply B; now left|exact Q]).
    pose proof (decode_ok keccak keccak_32 keccak_wf t d W D) as D1. pose proof (decode_ok keccak keccak_32 keccak_wf u e V E) as D2. rewrite X, D2 in D1.
    apply (bind_shallow U IU t u d e); auto; [intros; apply A; now right|intros; apply B; now right|now injection D1].
  Qed.

  (* ---------------- the nodes on a path ---------------- *)
  Fixpoint pencs (t : tree) (p : list N) : list bytes :=
    match t with
    | TE | TL _ _ => []
    | TX x c => if Nat.eqb (common_prefix p x) (length x) then name c ++ pencs c (skipn (length x) p) else []
    | TB ts =>
        match p with
        | [] => []
        | i :: r => if i =? 16 then [] else
            (fix go l n := match l, n with [], _ => [] | c :: _, O => name c ++ pencs c r | _ :: l', S m => go l' m end) ts (N.to_nat i)
        end
    end.
  Lemma name_TE : name TE = [].
  Proof. reflexivity. Qed.
  Lemma pencs_B ts i r : pencs (TB ts) (i :: r) = if i =? 16 then [] else name (nth (N.to_nat i) ts TE) ++ pencs (nth (N.to_nat i) ts TE) r.
  Proof.
    cbn [pencs]. destruct (i =? 16); [reflexivity|]. generalize (N.to_nat i) as n. induction ts as [|c ts IH]; intros [|n]; cbn [nth]; auto.
  Qed.
  Lemma nth_below ts i e : (i < length ts)%nat -> In e (name (nth i ts TE) ++ below (nth i ts TE)) -> In e (below (TB ts)).
  Proof. intros L I. rewrite below_B. apply in_flat_map. exists (nth i ts TE). split; [now apply nth_In|exact I]. Qed.
  Lemma nth_error_map_child ts i : (i < length ts)%nat -> nth_error (map child ts) i = Some (child (nth i ts TE)).
  Proof. intros L. apply (map_nth_error child). now apply nth_error_nth'. Qed.

  Lemma path_ok db : forall d t p f, stored db t -> wfr d t -> N.of_nat d <= 2 ^ 30 -> term p -> (2 * d + 2 <= f)%nat ->
    exists l, path_at f db (shallow t) p = Ok l /\ map (fun n => fst (encode_raw keccak n)) l = rev (pencs t p).
  Proof.
    induction d as [d IHd] using lt_wf_ind.
    assert (K : forall e t p f, (e < d)%nat -> N.of_nat d <= 2 ^ 30 -> stored db t -> (32 <= len (encT t) -> db (keccak (encT t)) = Some (encT t)) -> wfr e t -> term p -> (2 * e + 3 <= f)%nat ->
      exists l, path_at f db (child t) p = Ok l /\ map (fun n => fst (encode_raw keccak n)) l = rev (name t ++ pencs t p)).
    { intros e t p f Le D S G W T Lf. unfold child, name. destruct (N.ltb_spec (len (encT t)) 32) as [L|L].
      - destruct (IHd e Le t p f) as (l & H1 & H2); auto; [lia|lia|]. exists l. now split.
      - destruct f as [|f]; [lia|]. cbn [path_at]. rewrite (recover_ok keccak keccak_32 keccak_wf db t e) by (auto; lia). cbn [obnd].
        destruct (IHd e Le t p f) as (l & -> & H2); auto; [lia|lia|]. cbn [obnd]. eexists. split; [reflexivity|]. rewrite map_app, H2. cbn [map app rev].
        f_equal. f_equal. apply (enc_rep keccak db); [now apply rep_shallow|intros h; apply shallow_not_hash]. }
    intros t p f S W D T Lf. destruct f as [|f]; [lia|]. destruct t as [|k v|x t|ts].
    - exists []. now split.
    - exists []. now split.
    - destruct W as [W|W]; [discriminate W|]. inversion W as [|? e ? ? NX FX TBx Lx Wx|]; subst. inversion S as [| |? ? Dx Sx|]; subst.
      rewrite shallow_X. cbn [path_at pencs]. destruct (Nat.eqb_spec (common_prefix p x) (length x)) as [E|E]; [|exists []; now split].
      rewrite E. assert (1 <= length x)%nat by (destruct x; [easy|cbn; lia]). apply cp_full in E as (q & ->). rewrite skipn_app_all.
      apply (K e); auto; [lia|now right|now apply term_skip in T|lia].
    - destruct W as [W|W]; [discriminate W|]. inversion W as [| |? e ? L16 Le FT US]; subst. inversion S as [| | |? F]; subst.
      destruct p as [|i r]; [inversion T|]. rewrite shallow_B, pencs_B. cbn [path_at]. apply term_inv in T as [[-> ->]|[I T]]; [exists []; now split|].
      unfold nib in I. rewrite (proj2 (N.eqb_neq i 16)) by lia. rewrite nth_error_map_child by lia. cbn [opt_panic obnd].
      assert (Li : (N.to_nat i < length ts)%nat) by lia. pose proof (Forall_nth' _ _ _ TE F Li) as [Fd Fs]. pose proof (Forall_nth' _ _ _ TE FT Li) as Wi.
      apply (K e); auto; lia.
  Qed.

  (** Looking a key up among nodes that may be missing: the answer is that of the tree, or nothing, and then a node on the path was missing. *)
  Lemma get_some U db : injective_on U -> honest U db -> forall d t p f, (forall e, In e (below t) -> U e) -> wfr d t -> N.of_nat d <= 2 ^ 30 -> term p -> (2 * d + 2 <= f)%nat ->
    get_at f db (shallow t) p = Ok (tget t p) \/ (get_at f db (shallow t) p = Ok None /\ exists e, In e (pencs t p) /\ db (keccak e) = None).
  Proof.
    intros IU H. induction d as [d IHd] using lt_wf_ind.
    assert (K : forall e t p f, (e < d)%nat -> N.of_nat d <= 2 ^ 30 -> (forall x, In x (name t ++ below t) -> U x) -> wfr e t -> term p -> (2 * e + 3 <= f)%nat ->
      get_at f db (child t) p = Ok (tget t p) \/ (get_at f db (child t) p = Ok None /\ exists e, In e (name t ++ pencs t p) /\ db (keccak e) = None)).
    { intros e t p f Le D A W T Lf. unfold child, name in *. destruct (N.ltb_spec (len (encT t)) 32) as [L|L]; [apply (IHd e); auto; lia|].
      destruct f as [|f]; [lia|]. cbn [get_at]. destruct (db (keccak (encT t))) as [y|] eqn:G.
      - destruct (H _ _ G) as [Q Uy]. apply IU in Q; [|apply A; now left|exact Uy]. subst y.
        rewrite (recover_ok keccak keccak_32 keccak_wf db t e) by (auto; lia). cbn [obnd].
        destruct (IHd e Le t p f) as [X|(X & z & Z & N)]; auto; [intros x I; apply A; now right|lia|lia|]. right. split; [exact X|]. exists z. split; [now right|exact N].
      - right. unfold recover. rewrite G. cbn [obnd]. destruct f as [|f]; [lia|]. split; [reflexivity|]. exists (encT t). split; [now left|exact G]. }
    intros t p f A W D T Lf. destruct f as [|f]; [lia|]. destruct t as [|k v|x t|ts]; [now left|now left| |].
    - destruct W as [W|W]; [discriminate W|]. inversion W as [|? e ? ? NX FX TBx Lx Wx|]; subst.
      rewrite shallow_X. cbn [get_at pencs tget]. destruct (Nat.eqb_spec (common_prefix p x) (length x)) as [E|E]; [|now left].
      rewrite E. assert (1 <= length x)%nat by (destruct x; [easy|cbn; lia]). apply cp_full in E as (q & ->). rewrite skipn_app_all.
      apply (K e); auto; [lia|now right|now apply term_skip in T|lia].
    - destruct W as [W|W]; [discriminate W|]. inversion W as [| |? e ? L16 Le FT US]; subst.
      destruct p as [|i r]; [inversion T|]. rewrite shallow_B, pencs_B, tget_B. cbn [get_at]. apply term_inv in T as [[-> ->]|[I T]]; [now left|].
      unfold nib in I. rewrite (proj2 (N.eqb_neq i 16)) by lia. assert (Li : (N.to_nat i < length ts)%nat) by lia. rewrite nth_error_map_child by lia. cbn [opt_panic obnd].
      apply (K e); auto; [|apply (Forall_nth' _ _ _ TE FT Li)|lia]. intros z Z. apply A. now apply (nth_below ts (N.to_nat i)).
  Qed.
  Lemma pencs_below t : forall p e d, wfr d t -> In e (pencs t p) -> In e (below t) /\ 32 <= len e.
  Proof.
    induction t as [|k v|x t IH|ts IH] using tree_ind'; intros p e d W I; try easy.
    - destruct W as [W|W]; [discriminate W|]. inversion W as [|? d' ? ? NX FX TBx Lx Wx|]; subst. cbn [pencs] in I. rewrite below_X.
      destruct (Nat.eqb _ _); [|easy]. apply in_app_iff in I as [I|I].
      + split; [apply in_app_iff; now left|apply in_name in I as [L ->]; exact L].
      + apply (IH _ _ d') in I as [I L]; [|now right]. split; [apply in_app_iff; now right|exact L].
    - destruct W as [W|W]; [discriminate W|]. inversion W as [| |? d' ? L16 Le FT US]; subst. destruct p as [|i r]; [easy|]. rewrite pencs_B in I.
      destruct (i =? 16); [easy|]. destruct (Nat.lt_ge_cases (N.to_nat i) (length ts)) as [Li|Li]; [|rewrite nth_overflow in I by exact Li; easy].
      assert (Z : In e (name (nth (N.to_nat i) ts TE) ++ below (nth (N.to_nat i) ts TE)) /\ 32 <= len e).
      { apply in_app_iff in I as [I|I].
        - split; [apply in_app_iff; now left|apply in_name in I as [L ->]; exact L].
        - pose proof (Forall_nth' _ _ _ TE IH Li r e d' (Forall_nth' _ _ _ TE FT Li) I) as [J L]. split; [apply in_app_iff; now right|exact L]. }
      destruct Z as [Z1 Z2]. split; [now apply (nth_below ts (N.to_nat i))|exact Z2].
  Qed.

  (* ---------------- the nodes of a proof as a database ---------------- *)
  Lemma proof_db_in root : forall proof db (P : bytes -> Prop), (forall h e, db h = Some e -> h = keccak e /\ P e) -> (forall e, In e proof -> P e) ->
    forall h e, fold_left (fun db d => if beqb root (keccak d) || (32 <=? len d) then db_insert db (keccak d) d else db) proof db h = Some e -> h = keccak e /\ P e.
  Proof.
    induction proof as [|d proof IH]; intros db P H A h e G; [now apply H|]. cbn [fold_left] in G. eapply IH; [|intros; apply A; now right|exact G].
    destruct (_ || _); [|exact H]. intros h' e' G'. unfold db_insert in G'. destruct (beqb h' (keccak d)) eqn:B; [|now apply H].
    injection G' as <-. apply beqb_eq in B. split; [exact B|apply A; now left].
  Qed.
  Lemma proof_db_has root U : injective_on U -> forall proof db, (forall e, In e proof -> U e) -> honest U db ->
    forall e, (In e proof /\ (root = keccak e \/ 32 <= len e)) \/ db (keccak e) = Some e ->
    fold_left (fun db d => if beqb root (keccak d) || (32 <=? len d) then db_insert db (keccak d) d else db) proof db (keccak e) = Some e.
  Proof.
    intros IU. induction proof as [|d proof IH]; intros db A H e G; [now destruct G as [[[] _]|G]|]. cbn [fold_left].
    assert (H' : honest U (if beqb root (keccak d) || (32 <=? len d) then db_insert db (keccak d) d else db)).
    { destruct (_ || _); [|exact H]. intros h' e' G'. unfold db_insert in G'. destruct (beqb h' (keccak d)) eqn:B; [|now apply H].
      injection G' as <-. apply beqb_eq in B. split; [exact B|apply A; now left]. }
    apply IH; [intros; apply A; now right|exact H'|]. destruct G as [[[->|I] C]|G].
    - right. replace (beqb root (keccak e) || (32 <=? len e)) with true.
      + unfold db_insert. now rewrite beqb_refl.
      + symmetry. apply Bool.orb_true_iff. destruct C as [->|C]; [left; apply beqb_refl|right; now apply N.leb_le].
    - left. now split.
    - right. destruct (_ || _); [|exact G]. unfold db_insert. destruct (beqb (keccak e) (keccak d)) eqn:B; [|exact G]. apply beqb_eq in B. f_equal. symmetry.
      apply IU; [apply (H _ _ G)|apply A; now left|exact B].
  Qed.
End Paths.
