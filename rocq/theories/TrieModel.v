(** The Merkle Patricia trie under every state root, transactions root and receipts root.
    Models /repo/core/executor/src/adapter/trie/wrapped.rs (MPTTrie), /repo/common/merkle/src/lib.rs 56-104 (TrieMerkle),
    /repo/core/api/src/adapter.rs 257-331 (get_proof) and /repo/devtools/axon-tools/src/proof.rs 16-25 (verify_trie_proof).
    The trie itself is the crate cita_trie (5.0.0, Cargo.lock 926), which is not in /repo; its nodes, nibbles, insertion, removal,
    encoding, commit and proofs are written down function by function from its published source (src/nibbles.rs, src/node.rs,
    src/trie.rs).
    Simplifications: the nodes kept for the next commit and the database are one database, which is the function that answers its
    look-ups (C31 is about the cache before it); the keys that commit would remove are left out, because remove_batch does nothing here
    (trie/db.rs 127-133, MemoryDB::new(false)); errors carry no message; recursion takes fuel, and running out of it is a panic. *)
From Verif Require Import Bytes Rlp TxModel.
From Coq Require Import NArith List.
Import ListNotations.
Local Open Scope N_scope.

Definition obnd {A B} (o : outcome A) (f : A -> outcome B) : outcome B :=
  match o with Ok x => f x | Err => Err | Panic => Panic end.
Notation "'let!' x := e1 'in' e2" := (obnd e1 (fun x => e2))
  (at level 200, x pattern, e1 at level 100, e2 at level 200, right associativity).
Definition opt_err {A} (o : option A) : outcome A := match o with Some x => Ok x | None => Err end.
Definition opt_panic {A} (o : option A) : outcome A := match o with Some x => Ok x | None => Panic end.

(* ---------------- nibbles.rs ---------------- *)
(** The path of a key: two nibbles per byte, and 16 as its end (Nibbles::from_raw(key, true)). *)
Definition nibbles (b : bytes) : list N := flat_map (fun x => [x / 16; x mod 16]) b.
Definition from_raw (key : bytes) : list N := nibbles key ++ [16].
(** is_leaf: the last nibble is 16; an empty path panics. *)
Definition is_leaf (k : list N) : outcome bool :=
  match rev k with [] => Panic | x :: _ => Ok (x =? 16) end.
Fixpoint pairs (l : list N) : bytes :=
  match l with
  | a :: b :: r => a * 16 + b :: pairs r
  | _ => []
  end.
(** encode_compact (hex prefix form) *)
Definition encode_compact (k : list N) : bytes :=
  let leaf := last k 0 =? 16 in
  let hex := if leaf then removelast k else k in
  let odd := Nat.odd (length hex) in
  ((if odd then 16 + hd 0 hex else 0) + (if leaf then 32 else 0)) :: pairs (if odd then tl hex else hex).
(** from_compact: an empty text and an unknown flag panic. *)
Definition from_compact (c : bytes) : outcome (list N) :=
  match c with
  | [] => Panic
  | flag :: r =>
      match flag / 16 with
      | 0 => Ok (nibbles r)
      | 1 => Ok (flag mod 16 :: nibbles r)
      | 2 => Ok (nibbles r ++ [16])
      | 3 => Ok (flag mod 16 :: nibbles r ++ [16])
      | _ => Panic
      end
  end.
(** common_prefix; offset and slice are [skipn] and [firstn], join is [++]. *)
Fixpoint common_prefix (a b : list N) : nat :=
  match a, b with
  | x :: a', y :: b' => if x =? y then S (common_prefix a' b') else O
  | _, _ => O
  end.

(* ---------------- node.rs ---------------- *)
Inductive node :=
| Empty
| Leaf (key : list N) (value : bytes)
| Ext (prefix : list N) (n : node)
| Branch (children : list node) (value : option bytes)
| HashN (h : bytes).
Definition empty_children : list node := repeat Empty 16.
Fixpoint set_nth {A} (i : nat) (x : A) (l : list A) : list A :=
  match l, i with
  | [], _ => []
  | _ :: r, O => x :: r
  | y :: r, S j => y :: set_nth j x r
  end.
(** BranchNode::insert *)
Definition branch_insert (b : list node * option bytes) (i : N) (n : node) : outcome (list node * option bytes) :=
  if i =? 16 then match n with Leaf _ v => Ok (fst b, Some v) | _ => Panic end
  else if i <? 16 then Ok (set_nth (N.to_nat i) n (fst b), snd b)
  else Panic.

Definition database := bytes -> option bytes.
Definition db_insert (d : database) (k v : bytes) : database := fun x => if beqb x k then Some v else d x.

(* ---------------- trie.rs ---------------- *)
(** decode_node *)
Fixpoint decode_node (f : nat) (d : bytes) : outcome node :=
  match f with
  | O => Panic
  | S f' =>
      if is_data d then
        if Nat.eqb (size_ d) 0 then Ok Empty
        else if Nat.eqb (size_ d) 32 then let! h := opt_err (data_ d) in Ok (HashN h)
        else Err
      else
        match item_count d with
        | Some 2%nat =>
            let! i0 := opt_err (at_ d 0) in
            let! k := opt_err (data_ i0) in
            let! key := from_compact k in
            let! leaf := is_leaf key in
            let! i1 := opt_err (at_ d 1) in
            if leaf then let! v := opt_err (data_ i1) in Ok (Leaf key v)
            else let! n := decode_node f' i1 in Ok (Ext key n)
        | Some 17%nat =>
            let! children := map_outcome (fun i => let! r := opt_err (at_ d i) in decode_node f' r) (seq 0 16) in
            let! i16 := opt_err (at_ d 16) in
            if is_empty_item i16 then Ok (Branch children None)
            else let! v := opt_err (data_ i16) in Ok (Branch children (Some v))
        | _ => Err
        end
  end.
Definition decode (d : bytes) : outcome node := decode_node (S (length d)) d.

(** recover_from_db: a node that is not there reads as the empty one. *)
Definition recover (db : database) (h : bytes) : outcome node :=
  match db h with
  | Some d => decode d
  | None => Ok Empty
  end.

(** get_at *)
Fixpoint get_at (f : nat) (db : database) (n : node) (p : list N) : outcome (option bytes) :=
  match f with
  | O => Panic
  | S f' =>
      match n with
      | Empty => Ok None
      | Leaf k v => Ok (if beqb k p then Some v else None)
      | Branch ch v =>
          match p with
          | [] => Ok v
          | i :: r => if i =? 16 then Ok v else let! c := opt_panic (nth_error ch (N.to_nat i)) in get_at f' db c r
          end
      | Ext x c =>
          let m := common_prefix p x in
          if Nat.eqb m (length x) then get_at f' db c (skipn m p) else Ok None
      | HashN h => let! c := recover db h in get_at f' db c p
      end
  end.

(** insert_at *)
Fixpoint insert_at (f : nat) (db : database) (n : node) (p : list N) (v : bytes) : outcome node :=
  match f with
  | O => Panic
  | S f' =>
      match n with
      | Empty => Ok (Leaf p v)
      | Leaf k w =>
          let m := common_prefix p k in
          if Nat.eqb m (length k) then Ok (Leaf k v)
          else
            let! i := opt_panic (nth_error k m) in
            let! b := branch_insert (empty_children, None) i (Leaf (skipn (S m) k) w) in
            let! j := opt_panic (nth_error p m) in
            let! b := branch_insert b j (Leaf (skipn (S m) p) v) in
            Ok (if Nat.eqb m 0 then Branch (fst b) (snd b) else Ext (firstn m p) (Branch (fst b) (snd b)))
      | Branch ch o =>
          match p with
          | [] => Panic
          | i :: r =>
              if i =? 16 then Ok (Branch ch (Some v))
              else
                let! c := opt_panic (nth_error ch (N.to_nat i)) in
                let! c := insert_at f' db c r v in
                Ok (Branch (set_nth (N.to_nat i) c ch) o)
          end
      | Ext x c =>
          let m := common_prefix p x in
          if Nat.eqb m 0 then
            let! i := opt_panic (nth_error x 0) in
            let! b := branch_insert (empty_children, None) i (if Nat.eqb (length x) 1 then c else Ext (skipn 1 x) c) in
            insert_at f' db (Branch (fst b) (snd b)) p v
          else if Nat.eqb m (length x) then
            let! c := insert_at f' db c (skipn m p) v in Ok (Ext x c)
          else
            let! c := insert_at f' db (Ext (skipn m x) c) (skipn m p) v in Ok (Ext (firstn m x) c)
      | HashN h => let! c := recover db h in insert_at f' db c p v
      end
  end.

Definition is_empty_node (n : node) : bool := match n with Empty => true | _ => false end.
(** the indexes of the children in use *)
Fixpoint used_from (i : nat) (ch : list node) : list nat :=
  match ch with
  | [] => []
  | c :: r => if is_empty_node c then used_from (S i) r else i :: used_from (S i) r
  end.
(** degenerate *)
Fixpoint degenerate (f : nat) (db : database) (n : node) : outcome node :=
  match f with
  | O => Panic
  | S f' =>
      match n with
      | Branch ch v =>
          match used_from 0 ch, v with
          | [], Some w => Ok (Leaf [16] w)
          | [i], None => let! c := opt_panic (nth_error ch i) in degenerate f' db (Ext [N.of_nat i] c)
          | _, _ => Ok n
          end
      | Ext x c =>
          match c with
          | Ext y c' => degenerate f' db (Ext (x ++ y) c')
          | Leaf k v => Ok (Leaf (x ++ k) v)
          | HashN h => let! c' := recover db h in degenerate f' db (Ext x c')
          | _ => Ok n
          end
      | _ => Ok n
      end
  end.
(** delete_at; removing the value of a branch returns before the branch degenerates *)
Fixpoint delete_at (f : nat) (db : database) (n : node) (p : list N) : outcome (node * bool) :=
  match f with
  | O => Panic
  | S f' =>
      let finish (r : node * bool) : outcome (node * bool) :=
        if snd r then let! n' := degenerate f' db (fst r) in Ok (n', true) else Ok r in
      match n with
      | Empty => Ok (Empty, false)
      | Leaf k v => Ok (if beqb k p then (Empty, true) else (n, false))
      | Branch ch v =>
          match p with
          | [] => Panic
          | i :: r =>
              if i =? 16 then Ok (Branch ch None, true)
              else
                let! c := opt_panic (nth_error ch (N.to_nat i)) in
                let! cd := delete_at f' db c r in
                finish (Branch (if snd cd then set_nth (N.to_nat i) (fst cd) ch else ch) v, snd cd)
          end
      | Ext x c =>
          let m := common_prefix p x in
          if Nat.eqb m (length x) then
            let! cd := delete_at f' db c (skipn m p) in
            finish (Ext x (if snd cd then fst cd else c), snd cd)
          else Ok (n, false)
      | HashN h => let! c := recover db h in let! cd := delete_at f' db c p in finish cd
      end
  end.

Section Trie.
  Variable keccak : bytes -> bytes.

  Definition writes := list (bytes * bytes).
  (** what encode_raw appends for a child, given the child and its own encoding (encode_node inside encode_raw): a short encoding is
      put in place, a longer one is kept in the cache and named by its hash *)
  Definition child_item (c : node) (r : bytes * writes) : bytes * writes :=
    match c with
    | HashN h => (enc_str h, [])
    | _ => if len (fst r) <? 32 then r else (enc_str (keccak (fst r)), (keccak (fst r), fst r) :: snd r)
    end.
  (** encode_raw with the entries that go to the cache; a hash is unreachable *)
  Fixpoint encode_raw (n : node) : bytes * writes :=
    match n with
    | Empty => ([128], [])
    | Leaf k v => (enc_list [enc_str (encode_compact k); enc_str v], [])
    | Ext x c => let i := child_item c (encode_raw c) in (enc_list [enc_str (encode_compact x); fst i], snd i)
    | Branch ch v =>
        let is := map (fun c => child_item c (encode_raw c)) ch in
        (enc_list (map fst is ++ [enc_str (match v with Some w => w | None => [] end)]), concat (map snd is))
    | HashN _ => ([], [])
    end.

  Record trie := mktrie { tr_root : node; tr_db : database }.
  Definition trie_new (db : database) : trie := mktrie Empty db.
  (** PatriciaTrie::from: a root that is not there is InvalidStateRoot *)
  Definition trie_from (db : database) (root : bytes) : outcome trie :=
    let! d := opt_err (db root) in let! n := decode d in Ok (mktrie n db).
  Definition trie_get (f : nat) (t : trie) (key : bytes) : outcome (option bytes) := get_at f (tr_db t) (tr_root t) (from_raw key).
  Definition trie_remove (f : nat) (t : trie) (key : bytes) : outcome (trie * bool) :=
    let! nd := delete_at f (tr_db t) (tr_root t) (from_raw key) in Ok (mktrie (fst nd) (tr_db t), snd nd).
  Definition trie_insert (f : nat) (t : trie) (key v : bytes) : outcome trie :=
    match v with
    | [] => let! td := trie_remove f t key in Ok (fst td)
    | _ => let! n := insert_at f (tr_db t) (tr_root t) (from_raw key) v in Ok (mktrie n (tr_db t))
    end.
  Definition put_all (db : database) (w : writes) : database := fold_left (fun d kv => db_insert d (fst kv) (snd kv)) w db.
  (** commit, the body of root(): the root is hashed even when it is short, and read back *)
  Definition trie_root (t : trie) : outcome (bytes * trie) :=
    let '(h, w) :=
      match tr_root t with
      | HashN h => (h, [])
      | n => let '(d, w) := encode_raw n in (keccak d, (keccak d, d) :: w)
      end in
    let db := put_all (tr_db t) w in
    let! n := recover db h in Ok (h, mktrie n db).
  (** get_path_at, get_proof *)
  Fixpoint path_at (f : nat) (db : database) (n : node) (p : list N) : outcome (list node) :=
    match f with
    | O => Panic
    | S f' =>
        match n with
        | Empty | Leaf _ _ => Ok []
        | Branch ch _ =>
            match p with
            | [] => Ok []
            | i :: r => if i =? 16 then Ok [] else let! c := opt_panic (nth_error ch (N.to_nat i)) in path_at f' db c r
            end
        | Ext x c =>
            let m := common_prefix p x in
            if Nat.eqb m (length x) then path_at f' db c (skipn m p) else Ok []
        | HashN h => let! c := recover db h in let! rest := path_at f' db c p in Ok (rest ++ [c])
        end
    end.
  Definition trie_proof (f : nat) (t : trie) (key : bytes) : outcome (list bytes) :=
    let! path := path_at f (tr_db t) (tr_root t) (from_raw key) in
    let path := if is_empty_node (tr_root t) then path else path ++ [tr_root t] in
    Ok (map (fun n => fst (encode_raw n)) (rev path)).
  (** verify_proof: the nodes of the proof as a database *)
  Definition proof_db (root : bytes) (proof : list bytes) : database :=
    fold_left (fun db d => if beqb root (keccak d) || (32 <=? len d) then db_insert db (keccak d) d else db) proof (fun _ => None).
  Definition verify_proof (f : nat) (root key : bytes) (proof : list bytes) : outcome (option bytes) :=
    match trie_from (proof_db root proof) root with
    | Ok t => match trie_get f t key with Err => Err | r => r end
    | Err => Err
    | Panic => Panic
    end.

  (* ---------------- MPTTrie (wrapped.rs 13-73): the keys are hashed ---------------- *)
  Definition mpt_get (f : nat) (t : trie) (key : bytes) := trie_get f t (keccak key).
  Definition mpt_insert (f : nat) (t : trie) (key v : bytes) := trie_insert f t (keccak key) v.
  Definition mpt_remove (f : nat) (t : trie) (key : bytes) := trie_remove f t (keccak key).
  Definition mpt_proof (f : nat) (t : trie) (key : bytes) := trie_proof f t (keccak key).
  Definition mpt_from_root (db : database) (root : bytes) := trie_from db root.
  Definition mpt_commit (t : trie) := trie_root t.

  (* ---------------- TrieMerkle (common/merkle/src/lib.rs 56-104) ---------------- *)
  (** from_iter, from_receipts: the items under their RLP encoded positions; an error is unwrapped *)
  Fixpoint merkle_from (f : nat) (t : trie) (i : N) (items : list bytes) : outcome trie :=
    match items with
    | [] => Ok t
    | x :: r =>
        match trie_insert f t (enc_uint i) x with
        | Ok t' => merkle_from f t' (i + 1) r
        | _ => Panic
        end
    end.
  Definition merkle_root (f : nat) (items : list bytes) : outcome bytes :=
    let! t := merkle_from f (trie_new (fun _ => None)) 0 items in
    let! r := trie_root t in Ok (fst r).
End Trie.
