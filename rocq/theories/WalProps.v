(** C35, C36: the write-ahead logs. *)
From Verif Require Import Bytes BytesProofs TxModel WalModel.
From stdpp Require Import base gmap list sorting.
From Coq Require Import Lia.

(* ------------------------------------------------------------------------ *)
(** * C35: the consensus WAL *)

(** What happened to the log, newest first.  [WTorn]: the process died while writing, with [k] bytes
    on disk; [WCleaning]: it died while removing old files, [gone] being removed. *)
Inductive wop :=
| WSave (ts : N) (info : bytes)
| WTorn (ts : N) (info : bytes) (k : nat)
| WCleaning (ts : N) (info : bytes) (gone : list N)
| WClear.
Definition w_ts (o : wop) : option N := match o with WSave t _ | WTorn t _ _ | WCleaning t _ _ => Some t | WClear => None end.

Section C35.
  Variable digest : bytes -> bytes.
  Hypothesis digest_len : forall b, length (digest b) = 32.

  Notation content := (wal_content digest).
  Fixpoint wdir (h : list wop) : gmap N bytes :=
    match h with
    | [] => ∅
    | WSave t i :: r => update_wal digest (wdir r) t i
    | WTorn t i k :: r => update_torn digest (wdir r) t i k
    | WCleaning t i g :: r => update_cleaning digest (wdir r) t i g
    | WClear :: r => clear_wal (wdir r)
    end.
  (** The clock never goes back: each save uses a later name than all earlier ones. *)
  Fixpoint clock_ok (h : list wop) : Prop :=
    match h with
    | [] => True
    | o :: r => (forall t u o', w_ts o = Some t -> o' ∈ r -> w_ts o' = Some u -> (u < t)%N) /\ clock_ok r
    end.

  (** Specification: walk the history back; an interrupted write counts when all its bytes were written. *)
  Inductive expected := XInfo (i : bytes) | XNothing | XShort.
  Fixpoint expect (h : list wop) : expected :=
    match h with
    | [] | WClear :: _ => XNothing
    | WSave _ i :: _ | WCleaning _ i _ :: _ => XInfo i
    | WTorn _ i k :: r =>
        if decide (length (digest i ++ i) <= k) then XInfo i
        else if decide (k < 32) then XShort else expect r
    end.
  (** No proper prefix of an interrupted payload has the payload's checksum. *)
  Definition no_collision (h : list wop) : Prop :=
    forall t i k p, WTorn t i k ∈ h -> p `prefix_of` i -> digest p = digest i -> p = i.

  Definition valid (b : bytes) : Prop := 32 <= length b /\ beqb (take 32 b) (digest (drop 32 b)) = true.
  Definition long_invalid (b : bytes) : Prop := 32 <= length b /\ beqb (take 32 b) (digest (drop 32 b)) = false.

  Lemma take_content i : take 32 (content i) = digest i.
  Proof using digest_len. unfold wal_content. apply take_app_alt. by rewrite digest_len. Qed.
  Lemma drop_content i : drop 32 (content i) = i.
  Proof using digest_len. unfold wal_content. apply drop_app_alt. by rewrite digest_len. Qed.
  Lemma valid_content i : valid (content i).
  Proof using digest_len.
    split; [unfold wal_content; rewrite app_length, digest_len; lia|].
    rewrite take_content, drop_content. by apply beqb_eq.
  Qed.
  Lemma torn_content i k : 32 <= k -> k < length (content i) ->
    (forall p, p `prefix_of` i -> digest p = digest i -> p = i) -> long_invalid (take k (content i)).
  Proof using digest_len.
    intros K L NC. assert (LC : length (take k (content i)) = k) by (rewrite take_length; lia).
    split; [lia|]. destruct (beqb _ _) eqn:B; [|done]. exfalso. apply beqb_eq in B.
    rewrite take_take, Nat.min_l in B by lia. rewrite take_content in B.
    assert (D : drop 32 (take k (content i)) = take (k - 32) i).
    { rewrite skipn_firstn_comm. f_equal. apply drop_content. }
    rewrite D in B. symmetry in B. apply NC in B; [|exists (drop (k - 32) i); by rewrite take_drop].
    apply (f_equal length) in B. rewrite take_length in B. unfold wal_content in L. rewrite app_length, digest_len in L. lia.
  Qed.

  (** The loop over a sorted list of names. *)
  Fixpoint walk (d : gmap N bytes) (names : list N) : expected :=
    match names with
    | [] => XNothing
    | t :: r => match d !! t with
                | None => XNothing
                | Some b => if decide (length b < 32) then XShort
                            else if beqb (take 32 b) (digest (drop 32 b)) then XInfo (drop 32 b) else walk d r
                end
    end.
  Lemma load_walk d names : forall i fuel, 
    match walk d (drop i names) with
    | XShort => load_loop digest fuel d names i = None
    | XInfo b => length names - i < fuel -> load_loop digest fuel d names i = Some (Ok b)
    | XNothing => length names - i < fuel -> load_loop digest fuel d names i = Some Err
    end.
  Proof using.
    clear digest_len. intros i fuel. revert i. induction fuel as [|f IH]; intros i.
    { destruct (walk _ _); try lia. done. }
    cbn [load_loop]. destruct (names !! i) as [t|] eqn:E.
    2:{ rewrite drop_ge by (by apply lookup_ge_None). done. }
    rewrite (drop_S _ _ _ E). cbn [walk]. destruct (d !! t) as [b|] eqn:D; [|done].
    specialize (IH (S i)) as IHS. specialize (IH i) as IHi. rewrite (drop_S _ _ _ E) in IHi. cbn [walk] in IHi. rewrite D in IHi.
    destruct (decide (length b < 32)) as [L|L].
    - assert (LB : (length b <? 32)%nat = true) by (by apply Nat.ltb_lt). rewrite LB. exact IHi.
    - assert (LB : (length b <? 32)%nat = false) by (apply Nat.ltb_ge; lia). rewrite LB.
      destruct (beqb _ _); [done|]. apply lookup_lt_Some in E.
      destruct (walk d (drop (S i) names)); [intros; apply IHS; lia|intros; apply IHS; lia|exact IHS].
  Qed.

  Lemma sorted_names_elem d t : t ∈ sorted_names d <-> is_Some (d !! t).
  Proof using. unfold sorted_names. rewrite elem_of_reverse, merge_sort_Permutation, elem_of_elements. apply elem_of_dom. Qed.
  (** strictly descending lists of the same set are equal *)
  Fixpoint desc (l : list N) : Prop := match l with [] => True | x :: r => (forall y, y ∈ r -> (y < x)%N) /\ desc r end.
  Lemma desc_eq l1 l2 : desc l1 -> desc l2 -> (forall x, x ∈ l1 <-> x ∈ l2) -> l1 = l2.
  Proof using.
    clear digest_len digest.
    revert l2. induction l1 as [|a l1 IH]; intros [|b l2] D1 D2 E; [done| | |].
    - exfalso. eapply elem_of_nil, E, elem_of_cons. by left.
    - exfalso. eapply elem_of_nil, E, elem_of_cons. by left.
    - destruct D1 as [A D1], D2 as [B D2].
      assert (a = b) as <-.
      { assert (HA : a ∈ b :: l2) by (apply E, elem_of_cons; by left).
        assert (HB : b ∈ a :: l1) by (apply E, elem_of_cons; by left).
        apply elem_of_cons in HA as [->|HA]; [done|]. apply elem_of_cons in HB as [->|HB]; [done|].
        apply B in HA. apply A in HB. lia. }
      f_equal. apply IH; [done|done|]. intros x. split; intros X.
      + assert (HX : x ∈ a :: l2) by (apply E, elem_of_cons; by right). apply elem_of_cons in HX as [->|HX]; [|done]. apply A in X. lia.
      + assert (HX : x ∈ a :: l1) by (apply E, elem_of_cons; by right). apply elem_of_cons in HX as [->|HX]; [|done]. apply B in X. lia.
  Qed.
  Lemma desc_reverse l : StronglySorted N.le l -> NoDup l -> desc (reverse l).
  Proof using.
    clear digest_len digest.
    induction 1 as [|x l ST IH F]; intros ND; [done|]. apply NoDup_cons in ND as [N ND]. rewrite reverse_cons.
    specialize (IH ND). rewrite List.Forall_forall in F.
    assert (FF : forall y, y ∈ reverse l -> (x < y)%N).
    { intros y Y. rewrite elem_of_reverse in Y. assert (x <= y)%N by (apply F, elem_of_list_In; exact Y). assert (x <> y) by (by intros ->). lia. }
    clear -IH FF. induction (reverse l) as [|y m IHm]; cbn.
    - split; [intros y Y; by apply elem_of_nil in Y|done].
    - destruct IH as [A IH]. split.
      + intros z Z. apply elem_of_app in Z as [Z|Z]; [by apply A|]. apply elem_of_list_singleton in Z as ->. apply FF, elem_of_cons. by left.
      + apply IHm; [done|]. intros z Z. apply FF, elem_of_cons. by right.
  Qed.
  #[local] Instance N_le_total : Total N.le.
  Proof using. clear. intros a b. lia. Qed.
  #[local] Instance N_le_trans : Transitive N.le.
  Proof using. clear. intros a b c. lia. Qed.
  Lemma sorted_names_desc d : desc (sorted_names d).
  Proof using.
    clear digest_len digest.
    unfold sorted_names. apply desc_reverse; [apply StronglySorted_merge_sort; apply _|].
    rewrite merge_sort_Permutation. apply NoDup_elements.
  Qed.

  (** adding a newest name puts it in front *)
  Lemma sorted_names_insert d t b : (forall u, is_Some (d !! u) -> (u < t)%N) -> sorted_names (<[t := b]> d) = t :: sorted_names d.
  Proof using.
    clear digest_len digest.
    intros L. apply desc_eq; [apply sorted_names_desc| |].
    - split; [|apply sorted_names_desc]. intros y Y. apply sorted_names_elem in Y. by apply L.
    - intros x. rewrite elem_of_cons, !sorted_names_elem. rewrite lookup_insert_is_Some'. naive_solver.
  Qed.
  (** the walk only looks at the listed files *)
  Lemma walk_ext d d' names : (forall t, t ∈ names -> d !! t = d' !! t) -> walk d names = walk d' names.
  Proof using.
    clear digest_len.
    induction names as [|t r IH]; intros E; cbn; [done|]. rewrite <- E by (apply elem_of_cons; by left).
    destruct (d !! t); [|done]. destruct (decide _); [done|]. destruct (beqb _ _); [done|].
    apply IH. intros u U. apply E, elem_of_cons. by right.
  Qed.

  Lemma wdir_ts h t : is_Some (wdir h !! t) -> exists o, o ∈ h /\ w_ts o = Some t.
  Proof using.
    clear. assert (INS : forall (d : gmap N bytes) u b, is_Some (<[u := b]> d !! t) -> u = t \/ is_Some (d !! t)).
    { intros d u b. rewrite lookup_insert_is_Some'. naive_solver. }
    induction h as [|o h IH]; cbn; [rewrite lookup_empty; by intros [? ?]|].
    assert (K : forall u, w_ts o = Some u -> (u = t \/ is_Some (wdir h !! t)) -> exists o', o' ∈ o :: h /\ w_ts o' = Some t).
    { intros u E [->|S]; [exists o; split; [apply elem_of_cons; by left|done]|].
      destruct (IH S) as (o' & I & E'). exists o'. split; [apply elem_of_cons; by right|done]. }
    destruct o as [u i|u i k|u i g|]; cbn; intros S.
    - apply (K u eq_refl). unfold update_wal in S. destruct S as [b S]. apply map_filter_lookup_Some in S as [S _]. apply (INS _ _ (content i)). by exists b.
    - apply (K u eq_refl). apply (INS _ _ _ S).
    - apply (K u eq_refl). unfold update_cleaning in S. destruct S as [b S]. apply map_filter_lookup_Some in S as [S _]. apply (INS _ _ (content i)). by exists b.
    - unfold clear_wal in S. rewrite lookup_empty in S. by destruct S.
  Qed.

  (** a complete newest file is what the walk finds first *)
  Lemma walk_newest d t i : d !! t = Some (content i) -> (forall u, is_Some (d !! u) -> (u <= t)%N) -> walk d (sorted_names d) = XInfo i.
  Proof using digest_len.
    intros D L. assert (E : sorted_names d = t :: sorted_names (delete t d)).
    { rewrite <- (insert_delete d t _ D) at 1. apply sorted_names_insert. intros u U.
      destruct (decide (t = u)) as [<-|N]; [rewrite lookup_delete in U; by destruct U|].
      rewrite lookup_delete_ne in U by done. apply L in U. lia. }
    rewrite E. cbn [walk]. unfold bytes in D |- *. rewrite D. fold bytes. destruct (valid_content i) as [V1 V2].
    rewrite decide_False by lia. rewrite V2. by rewrite drop_content.
  Qed.

  Lemma wdir_walk h : clock_ok h -> no_collision h -> walk (wdir h) (sorted_names (wdir h)) = expect h.
  Proof using digest_len.
    induction h as [|o h IH]; intros CK NC.
    { cbn. unfold sorted_names. by rewrite dom_empty_L, elements_empty. }
    destruct CK as [C1 CK].
    assert (NC' : no_collision h) by (intros t i k p I; apply (NC t i k p), elem_of_cons; by right). specialize (IH CK NC').
    assert (LT : forall t, w_ts o = Some t -> forall u, is_Some (wdir h !! u) -> (u < t)%N).
    { intros t T u U. apply wdir_ts in U as (o' & I & E). by apply (C1 t u o'). }
    destruct o as [t i|t i k|t i g|]; cbn [wdir expect].
    - apply walk_newest with t.
      + unfold update_wal. apply map_filter_lookup_Some. rewrite lookup_insert. split; [done|]. cbn. lia.
      + intros u [b U]. unfold update_wal in U. apply map_filter_lookup_Some in U as [U _].
        destruct (decide (t = u)) as [<-|N]; [lia|]. rewrite lookup_insert_ne in U by done.
        assert (u < t)%N by (apply (LT t); [done|by exists b]). lia.
    - unfold update_torn. destruct (decide (length (digest i ++ i) <= k)) as [F|F].
      + change (digest i ++ i) with (content i) in F. apply walk_newest with t.
        * rewrite lookup_insert. f_equal. by apply take_ge.
        * intros u [b U]. destruct (decide (t = u)) as [<-|N]; [lia|]. rewrite lookup_insert_ne in U by done.
          assert (u < t)%N by (apply (LT t); [done|by exists b]). lia.
      + change (digest i ++ i) with (content i) in F.
        rewrite sorted_names_insert by (by apply LT). cbn [walk]. rewrite lookup_insert.
        assert (LC : length (take k (content i)) = k) by (rewrite take_length; lia).
        rewrite LC. destruct (decide (k < 32)) as [S|S]; [done|].
        destruct (torn_content i k) as [_ B]; [lia|lia| |].
        { intros p. apply (NC t i k p). apply elem_of_cons. by left. }
        rewrite B. rewrite <- IH. apply walk_ext. intros u U. apply sorted_names_elem in U.
        rewrite lookup_insert_ne; [done|]. intros <-. pose proof (LT t eq_refl t U). lia.
    - apply walk_newest with t.
      + unfold update_cleaning. apply map_filter_lookup_Some. rewrite lookup_insert. split; [done|]. cbn. lia.
      + intros u [b U]. unfold update_cleaning in U. apply map_filter_lookup_Some in U as [U _].
        destruct (decide (t = u)) as [<-|N]; [lia|]. rewrite lookup_insert_ne in U by done.
        assert (u < t)%N by (apply (LT t); [done|by exists b]). lia.
    - unfold clear_wal, sorted_names. by rewrite dom_empty_L, elements_empty.
  Qed.

  (** Loading after any history of completed and interrupted saves: the newest completely written state, as long as no newer
      interrupted write stopped within the first 32 bytes. *)
  Theorem C35_load_partial : forall h i, clock_ok h -> no_collision h -> expect h = XInfo i ->
    exists f0, forall f, f0 <= f -> load_wal digest f (wdir h) = Some (Ok i).
  Proof using digest_len.
    intros h i CK NC E. pose proof (wdir_walk h CK NC) as W. rewrite E in W.
    exists (S (length (sorted_names (wdir h)))). intros f F. unfold load_wal.
    pose proof (load_walk (wdir h) (sorted_names (wdir h)) 0 f) as L. rewrite drop_0, W in L. apply L. lia.
  Qed.
  Theorem C35_nothing_saved : forall h, clock_ok h -> no_collision h -> expect h = XNothing ->
    exists f0, forall f, f0 <= f -> load_wal digest f (wdir h) = Some Err.
  Proof using digest_len.
    intros h CK NC E. pose proof (wdir_walk h CK NC) as W. rewrite E in W.
    exists (S (length (sorted_names (wdir h)))). intros f F. unfold load_wal.
    pose proof (load_walk (wdir h) (sorted_names (wdir h)) 0 f) as L. rewrite drop_0, W in L. apply L. lia.
  Qed.
  (** Otherwise loading never ends. *)
  Theorem C35_short_file_hangs : forall h, clock_ok h -> no_collision h -> expect h = XShort ->
    forall f, load_wal digest f (wdir h) = None.
  Proof using digest_len.
    intros h CK NC E f. pose proof (wdir_walk h CK NC) as W. rewrite E in W. unfold load_wal.
    pose proof (load_walk (wdir h) (sorted_names (wdir h)) 0 f) as L. by rewrite drop_0, W in L.
  Qed.

  (** A crash between creating the file of a save and writing it leaves a node whose next start hangs, whatever was saved before. *)
  Theorem C35_crash_hangs_refuted : forall h t i, clock_ok (WTorn t i 0 :: h) ->
    forall f, load_wal digest f (wdir (WTorn t i 0 :: h)) = None.
  Proof using.
    clear digest_len.
    intros h t i CK f. unfold load_wal.
    assert (LT : forall u, is_Some (wdir h !! u) -> (u < t)%N).
    { intros u U. apply wdir_ts in U as (o' & I & E). by apply (proj1 CK t u o'). }
    assert (W : walk (wdir (WTorn t i 0 :: h)) (sorted_names (wdir (WTorn t i 0 :: h))) = XShort).
    { cbn [wdir]. unfold update_torn. rewrite (sorted_names_insert _ _ _ LT). cbn [walk]. rewrite lookup_insert.
      rewrite decide_True; [done|]. rewrite take_length. lia. }
    pose proof (load_walk (wdir (WTorn t i 0 :: h)) (sorted_names (wdir (WTorn t i 0 :: h))) 0 f) as L.
    by rewrite drop_0, W in L.
  Qed.

  (** When the clock went back between two completed saves, the older state is loaded. *)
  Theorem C35_clock_refuted : forall i j, exists h, (exists t u, h = [WSave t j; WSave u i]) /\
    exists f0, forall f, f0 <= f -> load_wal digest f (wdir h) = Some (Ok i).
  Proof using digest_len.
    intros i j. exists [WSave 1 j; WSave 2 i]. split; [by do 2 eexists|].
    assert (W : walk (wdir [WSave 1 j; WSave 2 i]) (sorted_names (wdir [WSave 1 j; WSave 2 i])) = XInfo i).
    { apply walk_newest with 2%N.
      - cbn [wdir]. unfold update_wal. apply map_filter_lookup_Some. rewrite lookup_insert_ne by done.
        split; [|cbn; lia]. apply map_filter_lookup_Some. rewrite lookup_insert. split; [done|cbn; lia].
      - intros u U. apply wdir_ts in U as (o & I & E). rewrite !elem_of_cons, elem_of_nil in I.
        destruct I as [->|[->|[]]]; injection E as <-; lia. }
    exists (S (length (sorted_names (wdir [WSave 1 j; WSave 2 i])))). intros f F. unfold load_wal.
    pose proof (load_walk (wdir [WSave 1 j; WSave 2 i]) (sorted_names (wdir [WSave 1 j; WSave 2 i])) 0 f) as L.
    rewrite drop_0, W in L. apply L. lia.
  Qed.

  (** Power loss: nothing is synchronised to disk, so a completed save may lose its bytes after the older files are gone. *)
  Theorem C35_power_loss_refuted : forall t u i j, (u < t)%N -> forall d,
    d = <[t := []]> (update_wal digest (wdir [WSave u i]) t j) -> forall f, load_wal digest f d = None.
  Proof using.
    clear digest_len.
    intros t u i j LT d -> f. unfold load_wal.
    set (d := <[t := []]> _).
    assert (W : walk d (sorted_names d) = XShort).
    { assert (E : d = <[t := []]> (delete t d)).
      { unfold d. by rewrite delete_insert_delete, insert_delete_insert. }
      assert (B : forall v, is_Some (delete t d !! v) -> (v < t)%N).
      { intros v [b V]. apply lookup_delete_Some in V as [N V]. unfold d in V. rewrite lookup_insert_ne in V by done.
        unfold update_wal in V. apply map_filter_lookup_Some in V as [V _]. rewrite lookup_insert_ne in V by done.
        assert (S : is_Some (wdir [WSave u i] !! v)) by (by exists b). apply wdir_ts in S as (o & I & EE).
        apply elem_of_list_singleton in I as ->. injection EE as <-. done. }
      rewrite E. rewrite (sorted_names_insert _ _ _ B). cbn [walk]. rewrite lookup_insert. by rewrite decide_True by (cbn; lia). }
    pose proof (load_walk d (sorted_names d) 0 f) as L. by rewrite drop_0, W in L.
  Qed.
End C35.

(** A history with two saves, a crash in the middle of a long write and one while cleaning up. *)
Definition ex_digest (b : bytes) : bytes := repeat (N.of_nat (length b)) 32.
Definition ex_wal : list wop := [WTorn 9 [7;7;7]%N 33; WCleaning 7 [1;2]%N [3%N]; WSave 5 [5]%N; WTorn 3 [4;4]%N 33].
Example C35_ex : (forall b, length (ex_digest b) = 32) /\ clock_ok ex_wal /\ no_collision ex_digest ex_wal /\
  expect ex_digest ex_wal = XInfo [1;2]%N /\ load_wal ex_digest 9 (wdir ex_digest ex_wal) = Some (Ok [1;2]%N).
Proof.
  split; [intros b; apply repeat_length|]. split; [|split; [|split]].
  - cbn. repeat split; intros t u o [= <-] I E; rewrite ?elem_of_cons, elem_of_nil in I; naive_solver lia.
  - intros t i k p I P E. apply (f_equal (hd 0%N)) in E. unfold ex_digest in E. cbn in E.
    assert (L : length p = length i) by lia. destruct P as [q ->]. rewrite app_length in L.
    assert (q = []) by (apply nil_length_inv; lia). subst. by rewrite app_nil_r.
  - vm_compute. reflexivity.
  - vm_compute. reflexivity.
Qed.

(* ------------------------------------------------------------------------ *)
(** * C36: the transaction WAL *)

Inductive xop {tx : Type} :=
| XSave (n : N) (root : bytes) (txs : list tx)
| XTorn (n : N) (root : bytes) (txs : list tx) (k : nat)
| XRemove (n : N)
| XRemoveAll.
Arguments xop : clear implicits.

Section C36.
  Context {tx : Type}.
  Variable enc : list tx -> bytes.
  Variable dec : bytes -> outcome (list tx).
  Hypothesis dec_enc : forall l, dec (enc l) = Ok l.
  Notation op := (xop tx).

  Fixpoint xdir (h : list op) : gmap N (gmap bytes bytes) :=
    match h with
    | [] => ∅
    | XSave n r l :: t => save_txs tx enc (xdir t) n r l
    | XTorn n r l k :: t => save_torn tx enc (xdir t) n r l k
    | XRemove n :: t => remove_upto (xdir t) n
    | XRemoveAll :: t => remove_all (xdir t)
    end.

  (** Specification: what was saved last for a height and root and not removed since. *)
  Fixpoint saved (h : list op) (n : N) (root : bytes) : option (list tx) :=
    match h with
    | [] | XRemoveAll :: _ => None
    | XSave m r l :: t => if decide (m = n /\ r = root) then Some l else saved t n root
    | XTorn m r l k :: t => saved t n root
    | XRemove m :: t => if decide (n <= m)%N then None else saved t n root
    end.
  (** is there a save for the height since the last removal? *)
  Fixpoint live (h : list op) (n : N) : Prop :=
    match h with
    | [] | XRemoveAll :: _ => False
    | XSave m _ _ :: t | XTorn m _ _ _ :: t => m = n \/ live t n
    | XRemove m :: t => (m < n)%N /\ live t n
    end.
  (** Saves for one height and file name always carry the same transactions under the same root (the root commits to the
      transactions, and no two roots share their four visible bytes); the order may differ as long as the encoding is equally long. *)
  Definition same_file (h : list op) : Prop :=
    forall n r l r' l', (XSave n r l ∈ h \/ exists k, XTorn n r l k ∈ h) -> (XSave n r' l' ∈ h \/ exists k, XTorn n r' l' k ∈ h) ->
      file_name r = file_name r' -> r = r' /\ length (enc l) = length (enc l').

  Lemma remove_all_empty (d : gmap N (gmap bytes bytes)) : remove_all d = ∅.
  Proof using.
    clear. unfold remove_all, available. apply map_empty. intros n.
    assert (G : forall l d, (forall m, is_Some (d !! m) -> m ∈ l) -> fold_left remove_upto l d !! n = None).
    { clear. intros l. induction l as [|a l IH]; intros d I; cbn.
      - destruct (d !! n) eqn:E; [|done]. exfalso. eapply elem_of_nil, I. by exists g.
      - apply IH. intros m [f M]. unfold remove_upto in M. apply map_filter_lookup_Some in M as [M L]. cbn in L.
        assert (IN : m ∈ a :: l) by (apply I; by exists f). apply elem_of_cons in IN as [->|IN]; [lia|done]. }
    apply G. intros m M. by apply elem_of_elements, elem_of_dom.
  Qed.

  Lemma xdir_live h n : is_Some (xdir h !! n) <-> live h n.
  Proof using.
    clear. induction h as [|o h IH]; cbn; [rewrite lookup_empty; split; [by intros [? ?]|done]|].
    destruct o as [m r l|m r l k|m|]; cbn.
    - unfold save_txs. rewrite lookup_insert_is_Some', IH. done.
    - unfold save_torn. rewrite lookup_insert_is_Some', IH. done.
    - unfold remove_upto. split.
      + intros [f S]. apply map_filter_lookup_Some in S as [S L]. cbn in L. split; [lia|]. apply IH. by exists f.
      + intros [L S]. apply IH in S as [f S]. exists f. apply map_filter_lookup_Some. split; [done|]. cbn. lia.
    - rewrite remove_all_empty, lookup_empty. split; [by intros [? ?]|done].
  Qed.

  (** Removing up to a height removes exactly the heights at or below it; the listed heights are those saved since. *)
  Theorem C36_heights : forall h n, n ∈ available (xdir h) <-> live h n.
  Proof using. intros h n. unfold available. rewrite elem_of_elements, elem_of_dom. apply xdir_live. Qed.
  Theorem C36_remove_exact : forall h m n root,
    load_txs tx dec (xdir (XRemove m :: h)) n root = if decide (n <= m)%N then Err else load_txs tx dec (xdir h) n root.
  Proof using.
    intros h m n root. cbn. unfold load_txs, files, remove_upto.
    destruct (decide (n <= m)%N) as [L|L].
    - assert (E : filter (fun p : N * gmap bytes bytes => ~ (p.1 <= m)%N) (xdir h) !! n = None).
      { apply map_filter_lookup_None. right. intros f _ H. by apply H. }
      rewrite E. cbn. by rewrite lookup_empty.
    - assert (E : filter (fun p : N * gmap bytes bytes => ~ (p.1 <= m)%N) (xdir h) !! n = xdir h !! n).
      { destruct (xdir h !! n) as [f|] eqn:E.
        - apply map_filter_lookup_Some. done.
        - apply map_filter_lookup_None. by left. }
      by rewrite E.
  Qed.
  Theorem C36_remove_by_number : forall h m n,
    load_by_number tx dec (xdir (XRemove m :: h)) n = if decide (n <= m)%N then [] else load_by_number tx dec (xdir h) n.
  Proof using.
    intros h m n. cbn. unfold load_by_number, files, remove_upto.
    destruct (decide (n <= m)%N) as [L|L].
    - assert (E : filter (fun p : N * gmap bytes bytes => ~ (p.1 <= m)%N) (xdir h) !! n = None).
      { apply map_filter_lookup_None. right. intros f _ H. by apply H. }
      rewrite E. cbn. by rewrite map_to_list_empty.
    - assert (E : filter (fun p : N * gmap bytes bytes => ~ (p.1 <= m)%N) (xdir h) !! n = xdir h !! n).
      { destruct (xdir h !! n) as [f|] eqn:E.
        - apply map_filter_lookup_Some. done.
        - apply map_filter_lookup_None. by left. }
      by rewrite E.
  Qed.

  Lemma same_file_tail o h : same_file (o :: h) -> same_file h.
  Proof using.
    intros SF n r l r' l' A B. apply (SF n).
    - destruct A as [A|[k A]]; [left|right; exists k]; apply elem_of_cons; by right.
    - destruct B as [B|[k B]]; [left|right; exists k]; apply elem_of_cons; by right.
  Qed.
  (** every file was written by some save of its height *)
  Lemma file_origin h n nm b : files (xdir h) n !! nm = Some b ->
    exists r l, (XSave n r l ∈ h \/ exists k, XTorn n r l k ∈ h) /\ file_name r = nm.
  Proof using.
    clear. revert nm b. induction h as [|o h IH]; intros nm b; cbn.
    { unfold files. rewrite lookup_empty. cbn. by rewrite lookup_empty. }
    assert (IH' : forall nm b, files (xdir h) n !! nm = Some b ->
       exists r l, (XSave n r l ∈ o :: h \/ exists k, XTorn n r l k ∈ o :: h) /\ file_name r = nm).
    { intros nm' b' E. destruct (IH nm' b' E) as (r & l & [A|[k A]] & F); exists r, l; (split; [|done]); [left|right; exists k]; apply elem_of_cons; by right. }
    destruct o as [m r l|m r l k|m|]; cbn.
    - unfold files, save_txs. destruct (decide (m = n)) as [->|N].
      + rewrite lookup_insert. cbn. destruct (decide (file_name r = nm)) as [E|E].
        * intros _. exists r, l. split; [left; apply elem_of_cons; by left|done].
        * rewrite lookup_insert_ne by done. apply IH'.
      + rewrite lookup_insert_ne by done. apply IH'.
    - unfold files, save_torn. destruct (decide (m = n)) as [->|N].
      + rewrite lookup_insert. cbn. destruct (decide (file_name r = nm)) as [E|E].
        * intros _. exists r, l. split; [right; exists k; apply elem_of_cons; by left|done].
        * rewrite lookup_insert_ne by done. apply IH'.
      + rewrite lookup_insert_ne by done. apply IH'.
    - unfold files, remove_upto. destruct (filter _ (xdir h) !! n) as [f|] eqn:E; cbn; [|by rewrite lookup_empty].
      apply map_filter_lookup_Some in E as [E _]. intros F. apply (IH' nm b). unfold files. by rewrite E.
    - rewrite remove_all_empty. unfold files. rewrite lookup_empty. cbn. by rewrite lookup_empty.
  Qed.

  Lemma overwrite_len old new : length (overwrite old new) = length new `max` length old.
  Proof using. unfold overwrite. rewrite app_length, drop_length. lia. Qed.
  (** a file is never longer than what was saved under its name *)
  Lemma file_len h n r l b : same_file h -> (XSave n r l ∈ h \/ exists k, XTorn n r l k ∈ h) ->
    files (xdir h) n !! file_name r = Some b -> length b <= length (enc l).
  Proof using.
    clear dec_enc dec. revert n r l b. induction h as [|o h IH]; intros n r l b SF IN; [cbn; unfold files; rewrite lookup_empty; cbn; by rewrite lookup_empty|].
    pose proof (same_file_tail _ _ SF) as SF'.
    assert (OLD : forall b, files (xdir h) n !! file_name r = Some b -> length b <= length (enc l)).
    { intros b' E. destruct (file_origin h n _ _ E) as (r0 & l0 & A & F).
      assert (A' : XSave n r0 l0 ∈ o :: h \/ exists k, XTorn n r0 l0 k ∈ o :: h).
      { destruct A as [A|[k A]]; [left|right; exists k]; apply elem_of_cons; by right. }
      destruct (SF n r0 l0 r l A' IN F) as [-> L]. rewrite <- L. by apply (IH n r l0 b'). }
    assert (NEW : forall m rr ll k, (XSave m rr ll ∈ o :: h \/ exists k, XTorn m rr ll k ∈ o :: h) -> 
      (<[m := <[file_name rr := overwrite (default [] (files (xdir h) m !! file_name rr)) (take k (enc ll))]> (files (xdir h) m)]> (xdir h) !! n ≫= (.!! file_name r)) = Some b ->
      length b <= length (enc l)).
    { intros m rr ll k A. destruct (decide (m = n)) as [->|N].
      - rewrite lookup_insert. cbn. destruct (decide (file_name rr = file_name r)) as [E|E].
        + rewrite E, lookup_insert. intros [= <-]. rewrite overwrite_len, take_length.
          destruct (SF n rr ll r l A IN E) as [-> L]. rewrite L.
          destruct (files (xdir h) n !! file_name r) as [b'|] eqn:FB; cbn; [specialize (OLD b' eq_refl)|]; lia.
        + rewrite lookup_insert_ne by done. apply OLD.
      - rewrite lookup_insert_ne by done. intros E. apply OLD. unfold files. by destruct (xdir h !! n). }
    assert (FD : forall d : gmap N (gmap bytes bytes), files d n !! file_name r = (d !! n ≫= (.!! file_name r))).
    { intros d. unfold files. destruct (d !! n); cbn; [done|apply lookup_empty]. }
    destruct o as [m rr ll|m rr ll k|m|]; cbn [xdir].
    - rewrite FD. intros E. apply (NEW m rr ll (length (enc ll))); [left; apply elem_of_cons; by left|]. rewrite firstn_all. exact E.
    - rewrite FD. intros E. apply (NEW m rr ll k); [right; exists k; apply elem_of_cons; by left|]. exact E.
    - unfold files, remove_upto. destruct (filter _ (xdir h) !! n) as [f|] eqn:E; cbn; [|by rewrite lookup_empty].
      apply map_filter_lookup_Some in E as [E _]. intros F. apply OLD. unfold files. by rewrite E.
    - rewrite remove_all_empty. unfold files. rewrite lookup_empty. cbn. by rewrite lookup_empty.
  Qed.

  (** Loading a height and root returns the transactions saved last, provided no interrupted save of the same root came after. *)
  Fixpoint torn_since (h : list op) (n : N) (root : bytes) : Prop :=
    match h with
    | [] | XRemoveAll :: _ => False
    | XSave m r l :: t => ~ (m = n /\ r = root) /\ torn_since t n root
    | XTorn m r l k :: t => (m = n /\ r = root) \/ torn_since t n root
    | XRemove m :: t => torn_since t n root
    end.
  Theorem C36_load_partial : forall h n root l, same_file h -> ~ torn_since h n root -> saved h n root = Some l ->
    load_txs tx dec (xdir h) n root = Ok l.
  Proof using dec_enc.
    intros h n root l SF NT S.
    assert (G : files (xdir h) n !! file_name root = Some (enc l) /\ (XSave n root l ∈ h)).
    { induction h as [|o h IH]; [done|]. pose proof (same_file_tail _ _ SF) as SF'.
      destruct o as [m r ll|m r ll k|m|]; cbn [saved torn_since] in S, NT.
      - destruct (decide (m = n /\ r = root)) as [[-> ->]|N].
        + injection S as ->. split; [|apply elem_of_cons; by left]. cbn. unfold files at 1, save_txs. rewrite lookup_insert. cbn. rewrite lookup_insert.
          f_equal. unfold overwrite. rewrite drop_ge; [apply app_nil_r|].
          destruct (files (xdir h) n !! file_name root) as [b|] eqn:FB; cbn; [|lia].
          destruct (file_origin h n _ _ FB) as (r0 & l0 & A & F).
          assert (A' : XSave n r0 l0 ∈ XSave n root l :: h \/ exists k, XTorn n r0 l0 k ∈ XSave n root l :: h).
          { destruct A as [A|[k A]]; [left|right; exists k]; apply elem_of_cons; by right. }
          destruct (SF n r0 l0 root l A' ltac:(left; apply elem_of_cons; by left) F) as [-> L]. rewrite <- L.
          by apply (file_len h n root l0 b).
        + destruct IH as [IH1 IH2]; [done|naive_solver|done|]. split; [|apply elem_of_cons; by right].
          cbn. unfold files, save_txs. destruct (decide (m = n)) as [->|NM]; [|by rewrite lookup_insert_ne].
          rewrite lookup_insert. cbn. rewrite lookup_insert_ne; [exact IH1|]. intros E.
          destruct (SF n r ll root l ltac:(left; apply elem_of_cons; by left) ltac:(left; apply elem_of_cons; by right) E) as [-> _]. by apply N.
      - destruct IH as [IH1 IH2]; [done|naive_solver|done|]. split; [|apply elem_of_cons; by right].
        cbn. unfold files, save_torn. destruct (decide (m = n)) as [->|NM]; [|by rewrite lookup_insert_ne].
        rewrite lookup_insert. cbn. rewrite lookup_insert_ne; [exact IH1|]. intros E.
        destruct (SF n r ll root l ltac:(right; exists k; apply elem_of_cons; by left) ltac:(left; apply elem_of_cons; by right) E) as [-> _].
        apply NT. by left.
      - destruct (decide (n <= m)%N); [done|]. destruct IH as [IH1 IH2]; [done|done|done|]. split; [|apply elem_of_cons; by right].
        cbn. unfold files, remove_upto. unfold files in IH1. destruct (xdir h !! n) as [f|] eqn:E; cbn in IH1; [|by rewrite lookup_empty in IH1].
        assert (E2 : filter (fun p : N * gmap bytes bytes => ~ (p.1 <= m)%N) (xdir h) !! n = Some f) by (apply map_filter_lookup_Some; done).
        by rewrite E2.
      - done. }
    unfold load_txs. destruct G as [-> _]. apply dec_enc.
  Qed.

  (** Loading by number returns every transaction of every complete save of the height. *)
  Theorem C36_by_number_complete : forall h n root l t, same_file h -> ~ torn_since h n root -> saved h n root = Some l -> t ∈ l ->
    t ∈ load_by_number tx dec (xdir h) n.
  Proof using dec_enc.
    intros h n root l t SF NT S T. pose proof (C36_load_partial h n root l SF NT S) as L. unfold load_txs in L.
    destruct (files (xdir h) n !! file_name root) as [b|] eqn:E; [|done]. unfold load_by_number.
    apply elem_of_list_In, in_concat. exists l. split; [|by apply elem_of_list_In].
    apply in_map_iff. exists (file_name root, b). split; [cbn; by rewrite L|]. apply elem_of_list_In, elem_of_map_to_list. done.
  Qed.
  (** A height never saved, or removed, has nothing. *)
  Theorem C36_gone : forall h n root, ~ live h n -> load_txs tx dec (xdir h) n root = Err /\ load_by_number tx dec (xdir h) n = [].
  Proof using.
    intros h n root NL. assert (E : xdir h !! n = None).
    { destruct (xdir h !! n) eqn:E; [|done]. exfalso. apply NL, xdir_live. by exists g. }
    unfold load_txs, load_by_number, files. rewrite E. cbn. split; [by rewrite lookup_empty|by rewrite map_to_list_empty].
  Qed.
End C36.

(** Two roots that agree in their first and last two bytes share a file: after saving both, loading the first gives the second. *)
Definition ex_enc (l : list N) : bytes := N.of_nat (length l) :: l.
Definition ex_dec (b : bytes) : outcome (list N) := match b with [] => Err | n :: r => if (n <=? N.of_nat (length r))%N then Ok (take (N.to_nat n) r) else Err end.
Definition ex_root (x : N) : bytes := [1;2]%N ++ repeat x 28 ++ [3;4]%N.
Theorem C36_name_collision_refuted : exists h n r l l', ex_root 5 <> ex_root 6 /\
  saved h n r = Some l /\ load_txs N ex_dec (xdir ex_enc h) n r = Ok l' /\ l <> l'.
Proof.
  exists [XSave 9 (ex_root 6) [8;8]%N; XSave 9 (ex_root 5) [7;7]%N], 9%N, (ex_root 5), [7;7]%N, [8;8]%N.
  split; [vm_compute; done|]. split; [vm_compute; done|]. split; [vm_compute; done|done].
Qed.
(** Loading by number mixes the transactions of all proposals seen at the height. *)
Definition ex_root2 (x : N) : bytes := repeat x 32.
Theorem C36_by_number_refuted : exists h n r l, same_file ex_enc (XSave n r l :: h) /\
  load_by_number N ex_dec (xdir ex_enc (XSave n r l :: h)) n <> l.
Proof.
  exists [XSave 9 (ex_root2 5) [7;7]%N], 9%N, (ex_root2 6), [8;8]%N. split; [|vm_compute; done].
  intros n r l r' l' A B F.
  assert (P : forall n r l, (XSave n r l ∈ [XSave 9 (ex_root2 6) [8;8]%N; XSave 9 (ex_root2 5) [7;7]%N] \/ exists k, XTorn n r l k ∈ [XSave 9 (ex_root2 6) [8;8]%N; XSave 9 (ex_root2 5) [7;7]%N]) ->
     (r = ex_root2 6 /\ l = [8;8]%N) \/ (r = ex_root2 5 /\ l = [7;7]%N)).
  { clear. intros n r l [A|[k A]]; rewrite !elem_of_cons, elem_of_nil in A; naive_solver. }
  apply P in A. apply P in B. clear P.
  destruct A as [(-> & ->)|(-> & ->)], B as [(-> & ->)|(-> & ->)]; done.
Qed.

Example C36_ex : (forall l, ex_dec (ex_enc l) = Ok l) /\
  let h := [XTorn 10 (ex_root 5) [6]%N 1; XRemove 8; XSave 9 (ex_root 6) [8;9]%N; XSave 8 (ex_root 5) [7]%N] in
  same_file ex_enc h /\ saved h 9 (ex_root 6) = Some [8;9]%N /\ ~ torn_since h 9 (ex_root 6) /\
  load_txs N ex_dec (xdir ex_enc h) 9 (ex_root 6) = Ok [8;9]%N /\ load_txs N ex_dec (xdir ex_enc h) 8 (ex_root 5) = Err.
Proof.
  split.
  { intros l. unfold ex_dec, ex_enc. rewrite N.leb_refl, Nat2N.id. by rewrite firstn_all. }
  intros h. split; [|split; [|split; [|split]]].
  - intros n r l r' l' A B F.
    assert (P : forall n r l, (XSave n r l ∈ h \/ exists k, XTorn n r l k ∈ h) ->
       (n = 9%N /\ r = ex_root 6 /\ l = [8;9]%N) \/ (n = 8%N /\ r = ex_root 5 /\ l = [7]%N) \/ (n = 10%N /\ r = ex_root 5 /\ l = [6]%N)).
    { clear. intros n r l [A|[k A]]; unfold h in A; rewrite !elem_of_cons, elem_of_nil in A; naive_solver. }
    apply P in A. apply P in B.
    destruct A as [(-> & -> & ->)|[(-> & -> & ->)|(-> & -> & ->)]], B as [(E & -> & ->)|[(E & -> & ->)|(E & -> & ->)]]; done.
  - vm_compute. reflexivity.
  - cbn. intros [[E _]|[_ [_ []]]]. done.
  - vm_compute. reflexivity.
  - vm_compute. reflexivity.
Qed.

Print Assumptions C35_load_partial.
Print Assumptions C35_nothing_saved.
Print Assumptions C35_short_file_hangs.
Print Assumptions C35_crash_hangs_refuted.
Print Assumptions C35_clock_refuted.
Print Assumptions C35_power_loss_refuted.
Print Assumptions C36_heights.
Print Assumptions C36_remove_exact.
Print Assumptions C36_remove_by_number.
Print Assumptions C36_load_partial.
Print Assumptions C36_by_number_complete.
Print Assumptions C36_gone.
Print Assumptions C36_name_collision_refuted.
Print Assumptions C36_by_number_refuted.
