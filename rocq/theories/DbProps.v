(** C100: the database holds what was stored, and the node's storage is what the bytes on disk say. *)
From Verif Require Import Bytes BytesProofs Rlp RlpProofs TxModel TxProofs TxProps StorageModel StorageProofs BlockModel BlockProofs Keccak Web3Model DbModel.
From Verif Require MetaModel.
From stdpp Require Import base gmap list sorting.
From Coq Require Import Lia.
Local Open Scope N_scope.

(* ================================================================ *)
(** * Columns *)
Lemma column_inj : Inj (=) (=) column_name.
Proof. intros [] [] E; (reflexivity || discriminate E). Qed.
Lemma mem_inj : Inj (=) (=) mem_name.
Proof. intros [] [] E; (reflexivity || discriminate E). Qed.
Lemma opened_all c : c ∈ opened.
Proof. destruct c; unfold opened; repeat first [apply elem_of_list_here|apply elem_of_list_further]. Qed.
#[global] Instance category_dec : EqDecision category.
Proof. intros a b. unfold Decision. decide equality. Defined.

Lemma ok_inj {A} (x y : A) : Ok x = Ok y → x = y.
Proof. congruence. Qed.
(** A database with exactly the columns of the node. *)
Definition proper (d : gmap bytes (gmap bytes bytes)) : Prop :=
  (∀ c, is_Some (d !! column_name c)) ∧ (∀ name, is_Some (d !! name) → ∃ c, name = column_name c).
Definition column (d : gmap bytes (gmap bytes bytes)) (c : category) : gmap bytes bytes := default ∅ (d !! column_name c).

Lemma open_fold (d : gmap bytes (gmap bytes bytes)) l name :
  add_columns d l !! name =
  match d !! name with Some m => Some m | None => if bool_decide (name ∈ map column_name l) then Some ∅ else None end.
Proof.
  unfold add_columns. revert name. induction l as [|c l IH]; intros name; cbn [fold_right map].
  - destruct (d !! name); [done|]. rewrite bool_decide_eq_false_2; [done|]. apply not_elem_of_nil.
  - set (q := fold_right _ d l) in *. destruct (q !! column_name c) as [m|] eqn:Q.
    + rewrite IH. destruct (d !! name) as [x|] eqn:D; [done|]. destruct (decide (name = column_name c)) as [->|N].
      * rewrite IH in Q. rewrite D in Q. case_bool_decide; [|done]. rewrite bool_decide_eq_true_2; [done|]. apply elem_of_list_further. done.
      * do 2 case_bool_decide; try done; exfalso; set_solver.
    + destruct (decide (name = column_name c)) as [->|N].
      * rewrite lookup_insert. rewrite IH in Q. destruct (d !! column_name c); [done|].
        rewrite bool_decide_eq_true_2; [done|]. apply elem_of_list_here.
      * rewrite lookup_insert_ne by done. rewrite IH. destruct (d !! name); [done|]. do 2 case_bool_decide; try done; exfalso; set_solver.
Qed.

(** Opening: a database that the node made is opened as it is; one with fewer columns gets empty ones and keeps all its entries; a missing one is created
    only when that is asked for; one with a column of another program is refused. *)
Theorem C100_open (disk : option (gmap bytes (gmap bytes bytes))) am d : rocks_open disk am = Ok d →
  proper d ∧ match disk with
             | None => am = true ∧ ∀ c, column d c = ∅
             | Some d0 => (∀ name, is_Some (d0 !! name) → ∃ c, name = column_name c) ∧ (∀ name m, d0 !! name = Some m → d !! name = Some m) ∧
                          (∀ c, d0 !! column_name c = None → column d c = ∅) ∧ (proper d0 → d = d0)
             end.
Proof.
  unfold rocks_open. destruct disk as [d0|].
  - case_bool_decide as F; [|done]. intros E. apply ok_inj in E. subst d. set (d := add_columns d0 opened).
    assert (L : ∀ name, d !! name = match d0 !! name with Some m => Some m | None => if bool_decide (name ∈ map column_name opened) then Some ∅ else None end)
      by (intros name; apply open_fold).
    assert (M : ∀ name, name ∈ map column_name opened → ∃ c, name = column_name c).
    { intros name H. change (map column_name opened) with (column_name <$> opened) in H. apply elem_of_list_fmap in H as (c & -> & _). by exists c. }
    assert (O : ∀ c, column_name c ∈ map column_name opened).
    { intros c. change (map column_name opened) with (column_name <$> opened). apply elem_of_list_fmap. exists c. split; [done|apply opened_all]. }
    assert (F' : ∀ name, is_Some (d0 !! name) → ∃ c, name = column_name c).
    { intros name [m H]. apply M. exact (F name m H). }
    split; [split|split; [|split; [|split]]].
    + intros c. rewrite L. destruct (d0 !! column_name c); [by eexists|]. rewrite bool_decide_eq_true_2 by apply O. by eexists.
    + intros name [m H]. rewrite L in H. destruct (d0 !! name) eqn:Z; [apply F'; by eexists|]. case_bool_decide; [by apply M|done].
    + exact F'.
    + intros name m H. by rewrite L, H.
    + intros c H. unfold column. rewrite L, H, bool_decide_eq_true_2 by apply O. done.
    + intros [P1 P2]. apply map_eq. intros name. rewrite L. destruct (d0 !! name) eqn:Z; [done|]. case_bool_decide as B; [|done].
      apply M in B as [c ->]. destruct (P1 c) as [? X]. rewrite X in Z. done.
  - destruct am; [|done]. intros E. apply ok_inj in E. subst d. split; [split|].
    + intros []; vm_compute; eauto.
    + intros name [m H]. apply elem_of_list_to_map_2 in H. apply elem_of_list_In, in_map_iff in H as (c & E & _). injection E as <- _. by exists c.
    + split; [done|]. intros []; reflexivity.
Qed.
(** Two categories never share a column. *)
Theorem C100_columns c c' : column_name c = column_name c' ↔ c = c'.
Proof. split; [apply column_inj|by intros ->]. Qed.
Lemma open_proper d am : proper d → rocks_open (Some d) am = Ok d.
Proof.
  intros P. destruct (rocks_open (Some d) am) as [d'| |] eqn:E.
  - destruct (C100_open _ _ _ E) as (_ & _ & _ & _ & H). by rewrite (H P).
  - unfold rocks_open in E. case_bool_decide as B; [done|]. exfalso. apply B. intros name m H. destruct P as [_ P].
    destruct (P name) as [c ->]; [by eexists|]. change (map column_name opened) with (column_name <$> opened).
    apply elem_of_list_fmap. exists c. split; [done|apply opened_all].
  - unfold rocks_open in E. case_bool_decide; done.
Qed.

(* ================================================================ *)
(** * Reading back *)
(** What a call asks to have written, if it is carried out: a category and what becomes of its keys. *)
Definition asks (x : call) : option (category * list (bytes * option bytes)) :=
  match x with
  | OInsert Sc k v => Some (s_cat Sc, [(enc_key Sc k, Some (enc_val Sc v))])
  | ORemove Sc k => Some (s_cat Sc, [(enc_key Sc k, None)])
  | OBatch Sc ks vs => if (length ks =? length vs)%nat then Some (s_cat Sc, zip_with (λ k v, (enc_key Sc k, option_map (enc_val Sc) v)) ks vs) else None
  | OReopen _ => None
  end.
(** The last word of a list of changes about a key. *)
Fixpoint last_word (l : list (bytes * option bytes)) (k : bytes) : option (option bytes) :=
  match l with
  | [] => None
  | (k', v) :: r => match last_word r k with Some w => Some w | None => if bool_decide (k' = k) then Some v else None end
  end.
(** What a history (newest first; the flag tells whether the library carried the call out) says about a key. *)
Fixpoint said (h : list (call * bool)) (c : category) (k : bytes) : option bytes :=
  match h with
  | [] => None
  | (x, io) :: r =>
      match asks x with
      | Some (c', l) => if io && bool_decide (c' = c) then match last_word l k with Some w => w | None => said r c k end else said r c k
      | None => said r c k
      end
  end.

Lemma apply_all_lookup m l k : apply_all m l !! k = match last_word l k with Some w => w | None => m !! k end.
Proof.
  unfold apply_all. revert m. induction l as [|[k' v] l IH]; intros m; cbn [fold_left last_word]; [done|].
  rewrite IH. destruct (last_word l k) as [w|]; [done|]. unfold apply_change. cbn [fst snd].
  destruct v as [v|]; case_bool_decide as E; subst; rewrite ?lookup_insert, ?lookup_delete; try done.
  - by rewrite lookup_insert_ne.
  - by rewrite lookup_delete_ne.
Qed.
Lemma write_spec io d c l : proper d → ∃ d', rocks_write io d c l = (d', if io then Ok () else Err) ∧ proper d' ∧
  ∀ c' k, column d' c' !! k = if io && bool_decide (c = c') then match last_word l k with Some w => w | None => column d c' !! k end else column d c' !! k.
Proof.
  intros [P1 P2]. unfold rocks_write. destruct (P1 c) as [m E]. rewrite E. destruct io; cbn [andb].
  - eexists. split; [done|]. split; [split|].
    + intros c'. destruct (decide (c = c')) as [->|N]; [rewrite lookup_insert; by eexists|].
      rewrite lookup_insert_ne; [apply P1|]. intros X. by apply N, column_inj.
    + intros name H. destruct (decide (name = column_name c)) as [->|N]; [by exists c|]. rewrite lookup_insert_ne in H by done. by apply P2.
    + intros c' k. unfold column. case_bool_decide as B.
      * subst c'. rewrite lookup_insert. rewrite E. apply apply_all_lookup.
      * rewrite lookup_insert_ne; [done|]. intros X. by apply B, column_inj.
  - exists d. split; [done|]. split; [split; assumption|]. done.
Qed.
Lemma step_spec d x io : proper d → proper (rocks_step d (x, io)).1 ∧
  (∀ c k, column (rocks_step d (x, io)).1 c !! k =
     match asks x with
     | Some (c', l) => if io && bool_decide (c' = c) then match last_word l k with Some w => w | None => column d c !! k end else column d c !! k
     | None => column d c !! k
     end) ∧
  ((rocks_step d (x, io)).2 = Ok () ↔ match x with OReopen _ => True | OBatch _ ks vs => length ks = length vs ∧ io = true | _ => io = true end) ∧
  ((rocks_step d (x, io)).2 ≠ Ok () → (rocks_step d (x, io)).1 = d ∧ (rocks_step d (x, io)).2 = Err).
Proof.
  intros P. unfold rocks_step. cbn [fst snd].
  assert (G : ∀ c l, let r := rocks_write io d c l in proper r.1 ∧
    (∀ c' k, column r.1 c' !! k = if io && bool_decide (c = c') then match last_word l k with Some w => w | None => column d c' !! k end else column d c' !! k) ∧
    (r.2 = Ok () ↔ io = true) ∧ (r.2 ≠ Ok () → r.1 = d ∧ r.2 = Err)).
  { intros c l. cbn zeta. destruct (write_spec io d c l P) as (d' & E & P' & L). rewrite E. cbn [fst snd].
    split; [done|]. split; [done|]. split; [by destruct io|]. intros N. destruct io; [done|]. split; [|done].
    unfold rocks_write in E. destruct (d !! column_name c); by injection E as <-. }
  destruct x as [Sc k v|Sc k|Sc ks vs|am]; cbn [asks].
  - apply G.
  - apply G.
  - unfold rocks_batch. destruct (Nat.eqb_spec (length ks) (length vs)) as [L|L]; cbn [negb].
    + unfold pairs. destruct (G (s_cat Sc) (zip_with (λ k v, (enc_key Sc k, option_map (enc_val Sc) v)) ks vs)) as (A & B & C & D).
      split; [exact A|]. split; [exact B|]. split; [|exact D]. rewrite C. split; [done|by intros []].
    + cbn [fst snd]. split; [done|]. split; [done|]. split; [|done]. split; [done|]. by intros [].
  - rewrite (open_proper _ _ P). cbn [fst snd]. split; [done|]. split; [done|]. split; [done|]. done.
Qed.
Lemma run_spec d h : proper d → (∀ c, column d c = ∅) → proper (rocks_run d h) ∧ ∀ c k, column (rocks_run d h) c !! k = said h c k.
Proof.
  intros P E. induction h as [|[x io] h [IH1 IH2]]; cbn [rocks_run said].
  - split; [done|]. intros c k. by rewrite E, lookup_empty.
  - destruct (step_spec _ x io IH1) as (A & B & _). split; [exact A|]. intros c k. rewrite B. destruct (asks x) as [[c' l]|]; [|apply IH2].
    rewrite !IH2. done.
Qed.

(** Whatever was called on a database, with whatever failures and reopenings: a read finds exactly the last value that was written under the encoded key
    in the category of the schema, by any schema, and nothing if it was removed or never written. *)
Theorem C100_read_back d h (Sc : schema) k : rocks_open None true = Ok d →
  rocks_get Sc true (rocks_run d h) k =
    match said h (s_cat Sc) (enc_key Sc k) with
    | None => Ok None
    | Some b => match dec_val Sc b with Ok v => Ok (Some v) | Err => Err | Panic => Panic end
    end ∧
  rocks_contains Sc true (rocks_run d h) k = Ok (bool_decide (is_Some (said h (s_cat Sc) (enc_key Sc k)))).
Proof.
  intros O. destruct (C100_open _ _ _ O) as (P & _ & E). destruct (run_spec d h P E) as ([P1 _] & L).
  unfold rocks_get, rocks_contains. destruct (P1 (s_cat Sc)) as [m M]. rewrite M. specialize (L (s_cat Sc) (enc_key Sc k)). unfold column in L. rewrite M in L.
  cbn [default] in L. unfold id in L. rewrite L. destruct (said h (s_cat Sc) (enc_key Sc k)); split; try done.
Qed.
(** A call that is refused, or fails, leaves the database as it is; a batch is carried out as a whole. *)
Theorem C100_all_or_nothing d h x io : rocks_open None true = Ok d → let before := rocks_run d h in let after := (rocks_step before (x, io)).1 in
  (∀ c k, column after c !! k = column before c !! k) ∧ (rocks_step before (x, io)).2 = Err ∨
  (rocks_step before (x, io)).2 = Ok () ∧ ∀ c k, column after c !! k =
     match asks x with
     | Some (c', l) => if bool_decide (c' = c) then match last_word l k with Some w => w | None => column before c !! k end else column before c !! k
     | None => column before c !! k
     end.
Proof.
  intros O. cbn zeta. destruct (C100_open _ _ _ O) as (P & _ & E). destruct (run_spec d h P E) as (P' & _).
  destruct (step_spec _ x io P') as (A & B & C & D).
  destruct (rocks_step (rocks_run d h) (x, io)).2 as [[]| |] eqn:R.
  - right. split; [done|]. intros c k. rewrite B. destruct (asks x) as [[c' l]|] eqn:X; [|done].
    assert (io = true) as ->; [|done]. destruct C as [C _]. specialize (C eq_refl). destruct x; cbn in X; try done. by destruct C.
  - left. destruct D as [D _]; [done|]. rewrite D. done.
  - destruct D as [_ D]; done.
Qed.

(* ================================================================ *)
(** * The two adapters *)
(** The memory adapter run on the same calls; there is nothing to open. *)
Definition mem_step (db : gmap bytes (gmap bytes bytes)) (x : call) : gmap bytes (gmap bytes bytes) * outcome unit :=
  match x with
  | OInsert Sc k v => mem_insert Sc db k v
  | ORemove Sc k => mem_remove Sc db k
  | OBatch Sc ks vs => mem_batch Sc db ks vs
  | OReopen _ => (db, Ok ())
  end.
Fixpoint mem_run (h : list call) : gmap bytes (gmap bytes bytes) := match h with [] => ∅ | x :: r => (mem_step (mem_run r) x).1 end.
Lemma mem_write_entry Sc db l c k : entry (mem_write Sc db l).1 c !! k =
  if bool_decide (s_cat Sc = c) then match last_word l k with Some w => w | None => entry db c !! k end else entry db c !! k.
Proof.
  unfold mem_write, entry. cbn [fst]. case_bool_decide as B.
  - subst c. rewrite lookup_insert. cbn [default]. apply apply_all_lookup.
  - rewrite lookup_insert_ne; [done|]. intros X. by apply B, mem_inj.
Qed.
Lemma mem_run_spec h c k : entry (mem_run h) c !! k = said (map (λ x, (x, true)) h) c k.
Proof.
  revert c k. induction h as [|x h IH]; intros c k; cbn [mem_run map said].
  - unfold entry. rewrite lookup_empty. cbn [default]. apply lookup_empty.
  - destruct x as [Sc k' v|Sc k'|Sc ks vs|am]; cbn [mem_step asks andb]; unfold mem_insert, mem_remove, mem_batch.
    + rewrite mem_write_entry, IH. done.
    + rewrite mem_write_entry, IH. done.
    + destruct (length ks =? length vs)%nat; cbn [negb]; [rewrite mem_write_entry, IH; done|]. cbn [fst]. apply IH.
    + cbn [fst]. apply IH.
Qed.
(** On the same calls, none failing, both adapters answer reads alike and succeed alike, so a test with the memory adapter says something about the node. *)
Theorem C100_adapters d h x (Sc : schema) k : rocks_open None true = Ok d →
  rocks_get Sc true (rocks_run d (map (λ x, (x, true)) h)) k = (mem_get Sc (mem_run h) k).2 ∧
  rocks_contains Sc true (rocks_run d (map (λ x, (x, true)) h)) k = (mem_contains Sc (mem_run h) k).2 ∧
  (rocks_step (rocks_run d (map (λ x, (x, true)) h)) (x, true)).2 = (mem_step (mem_run h) x).2 ∧
  (∀ c k', entry (mem_get Sc (mem_run h) k).1 c !! k' = entry (mem_run h) c !! k').
Proof.
  intros O. destruct (C100_read_back d (map (λ x, (x, true)) h) Sc k O) as [G C].
  unfold mem_get, mem_contains. cbn [snd]. rewrite mem_run_spec. split; [rewrite G; by destruct (said _ _ _)|].
  split; [rewrite C; by destruct (said _ _ _)|]. split.
  - destruct (C100_open _ _ _ O) as (P & _ & E). destruct (run_spec d (map (λ x, (x, true)) h) P E) as (P' & _).
    destruct (step_spec _ x true P') as (_ & _ & A & B).
    destruct x as [Sc' k' v|Sc' k'|Sc' ks vs|am]; cbn [mem_step]; try by apply A.
    unfold mem_batch. destruct (Nat.eqb_spec (length ks) (length vs)) as [L|L]; cbn [negb]; [by apply A|].
    cbn [snd]. apply B. intros X. apply A in X as [X _]. done.
  - intros c k'. unfold touch, entry. cbn [fst]. destruct (decide (s_cat Sc = c)) as [<-|N].
    + by rewrite lookup_insert.
    + rewrite lookup_insert_ne; [done|]. intros X. by apply N, mem_inj.
Qed.
(** It does not hold for iteration: the memory adapter goes through the whole category. *)
Definition fresh_db : gmap bytes (gmap bytes bytes) := match rocks_open None true with Ok d => d | _ => ∅ end.
Lemma fresh_ok : rocks_open None true = Ok fresh_db.
Proof. reflexivity. Qed.
Definition toy : schema := Schema bytes bytes CTx (λ b, b) (λ b, b) Ok Ok.
Theorem C100_iteration_refuted : ∃ d h prefix l, rocks_open None true = Ok d ∧
  rocks_iter toy (rocks_run d (map (λ x, (x, true)) h)) prefix = Ok l ∧ ¬ l ≡ₚ mem_iter toy (mem_run h) prefix.
Proof.
  exists fresh_db, [OInsert toy [1] [5]; OInsert toy [2] [6]], [2], [Ok ([2], [6])].
  split; [exact fresh_ok|]. split; [vm_compute; reflexivity|]. intros X. apply Permutation_length in X. vm_compute in X. discriminate X.
Qed.
(** Nor does the RocksDB iterator end with the prefix: it goes on to the end of the category. What it gives is every entry from the prefix on, once,
    in the order of the keys. *)
Theorem C100_iterator d h (Sc : schema) prefix : rocks_open None true = Ok d →
  ∃ l, rocks_iter Sc (rocks_run d h) prefix = Ok (map (decode_entry Sc) l) ∧ NoDup (map fst l) ∧ StronglySorted key_le l ∧
    ∀ k b, (k, b) ∈ l ↔ said h (s_cat Sc) k = Some b ∧ MetaModel.bytes_cmp prefix k ≠ Gt.
Proof.
  intros O. destruct (C100_open _ _ _ O) as (P & _ & E). destruct (run_spec d h P E) as ([P1 _] & L).
  unfold rocks_iter. destruct (P1 (s_cat Sc)) as [m M]. rewrite M. exists (iter_from m prefix). split; [done|].
  assert (L' : ∀ k, m !! k = said h (s_cat Sc) k) by (intros k; rewrite <- L; unfold column; by rewrite M).
  split; [apply iter_from_nodup|]. split; [apply iter_from_sorted|]. intros k b. rewrite iter_from_elem, L'. done.
Qed.
Theorem C100_prefix_refuted : ∃ d h prefix k b l, rocks_open None true = Ok d ∧ rocks_iter toy (rocks_run d h) prefix = Ok l ∧
  Ok (k, b) ∈ l ∧ ¬ prefix `prefix_of` k.
Proof.
  exists fresh_db, [(OInsert toy [3; 1] [5], true)], [2], [3; 1], [5], [Ok ([3; 1], [5])].
  split; [exact fresh_ok|]. split; [vm_compute; reflexivity|]. split; [apply elem_of_list_here|].
  intros [r X]. cbn in X. discriminate X.
Qed.

(* ---------------- the hypotheses are met ---------------- *)
Definition toy_calls : list (call * bool) :=
  [(OInsert toy [9] [7], false); (OReopen true, true); (OBatch toy [[1]; [2]; [1]] [Some [5]; Some [6]; None], true); (OInsert toy [1] [4], true)].
Example C100_example_calls : rocks_open None true = Ok fresh_db ∧
  map (rocks_get toy true (rocks_run fresh_db toy_calls)) [[1]; [2]; [9]] = [Ok None; Ok (Some [6]); Ok None] ∧
  said toy_calls CTx [2] = Some [6] ∧ said toy_calls CTx [1] = None.
Proof. split; [exact fresh_ok|]. split; [vm_compute; reflexivity|]. split; vm_compute; reflexivity. Qed.
Print Assumptions C100_open.
Print Assumptions C100_columns.
Print Assumptions C100_read_back.
Print Assumptions C100_all_or_nothing.
Print Assumptions C100_adapters.
Print Assumptions C100_iteration_refuted.
Print Assumptions C100_iterator.
Print Assumptions C100_prefix_refuted.
