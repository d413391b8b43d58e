(** The chain storage: blocks, transactions, receipts, code, latest block and proof, with caches.
    Models /repo/core/storage/src/{lib,hash_key,schema,cache}.rs over the RocksDB adapter
    /repo/core/db/src/rocks.rs.
    Simplifications: a column is a map from encoded keys to decoded values; the values themselves
    (blocks, transactions, ...) are opaque with the few accessors the storage uses, so decoding a
    value of the right kind always succeeds (C01-C07 prove the codecs); database errors do not
    happen; the hardfork proposal register (477-479, 561-573) and the metrics are left out; an LRU
    cache is a map from which entries may vanish at any moment. *)
From Verif Require Import Bytes TxModel Keccak MetaModel.
From stdpp Require Import base gmap list sorting.

(** What the storage needs to know about the stored values
    (Block and Header /repo/protocol/src/types/block.rs, SignedTransaction, Receipt, Proof). *)
Record iface := Iface {
  blk : Type; hdr : Type; tx : Type; receipt : Type; proof : Type;
  b_header : blk -> hdr; h_number : hdr -> N; b_hash : blk -> bytes;
  t_hash : tx -> bytes; r_hash : receipt -> bytes }.

(** Key encodings: BlockKey and CommonPrefix are eight big-endian bytes (hash_key.rs 15-17, 64-66),
    CommonHashKey appends the hash (31-39, 91-95), a bare hash is its RLP string (codec/mod.rs 24-33). *)
Definition height_key (n : N) : bytes := be_fixed 8 n.
Definition hash_key (n : N) (x : bytes) : bytes := height_key n ++ x.
Definition rlp_key (x : bytes) : bytes := 160%N :: x.
(** CommonHashKey::decode (97-107); Hash::from_slice panics unless 32 bytes are left. *)
Definition key_decode (k : bytes) : outcome (N * bytes) :=
  if (8 <=? length k)%nat && (length (drop 8 k) =? 32)%nat then Ok (be_val (take 8 k), drop 8 k) else Panic.

(** LATEST_BLOCK_KEY, LATEST_PROOF_KEY (lib.rs 41-42). *)
Definition LATEST_BLOCK_KEY : bytes := Eval vm_compute in keccak256 [108;97;116;101;115;116;95;104;97;115;104]%N.
Definition LATEST_PROOF_KEY : bytes := Eval vm_compute in keccak256 [108;97;116;101;115;116;95;112;114;111;111;102]%N.

Section Storage.
  Variable I : iface.

  (** The block column holds blocks (by height and under LATEST_BLOCK_KEY) and the latest proof
      (schema.rs 35, 41, 42; all category Block); reading the wrong kind is a decoding error. *)
  Inductive bval := VBlock (b : blk I) | VProof (p : proof I).
  (** Columns (rocks.rs 290-330).  Block hashes and transaction hashes share [d_num]
      (schema.rs 37, 40), code hashes and code addresses share [d_code] (44-45). *)
  Record sdb := SDb { d_block : gmap bytes bval; d_header : gmap bytes (hdr I); d_tx : gmap bytes (tx I);
    d_rcpt : gmap bytes (receipt I); d_num : gmap bytes N; d_code : gmap bytes bytes }.
  (** StorageCache (cache.rs). *)
  Record scache := SCache { c_blocks : gmap N (blk I); c_nums : gmap bytes N; c_headers : gmap N (hdr I);
    c_txs : gmap bytes (tx I); c_codes : gmap bytes bytes; c_rcpts : gmap bytes (receipt I) }.
  Definition cache0 : scache := SCache ∅ ∅ ∅ ∅ ∅ ∅.
  (** ImplStorage (91-96). *)
  Record sstate := SState { s_db : sdb; s_cache : scache; s_latest : option (blk I); s_proof : option (proof I) }.
  Definition sstate0 : sstate := SState (SDb ∅ ∅ ∅ ∅ ∅ ∅) cache0 None None.

  Definition set_cache (s : sstate) (c : scache) : sstate := SState (s_db s) c (s_latest s) (s_proof s).
  Definition set_db (s : sstate) (d : sdb) : sstate := SState d (s_cache s) (s_latest s) (s_proof s).

  (* ---------------- reads ---------------- *)
  Definition read_block (d : sdb) (k : bytes) : outcome (option (blk I)) :=
    match d_block d !! k with None => Ok None | Some (VBlock b) => Ok (Some b) | Some (VProof _) => Err end.
  Definition read_proof (d : sdb) (k : bytes) : outcome (option (proof I)) :=
    match d_block d !! k with None => Ok None | Some (VProof p) => Ok (Some p) | Some (VBlock _) => Err end.

  (** get_block (181-186). *)
  Definition get_block (s : sstate) (n : N) : sstate * outcome (option (blk I)) :=
    let c := s_cache s in
    match c_blocks c !! n with
    | Some b => (s, Ok (Some b))
    | None =>
        match read_block (s_db s) (height_key n) with
        | Ok (Some b) => (set_cache s (SCache (<[n := b]> (c_blocks c)) (c_nums c) (c_headers c) (c_txs c) (c_codes c) (c_rcpts c)), Ok (Some b))
        | r => (s, r)
        end
    end.
  (** get_block_header (188-199). *)
  Definition get_block_header (s : sstate) (n : N) : sstate * outcome (option (hdr I)) :=
    let c := s_cache s in
    match c_headers c !! n with
    | Some h => (s, Ok (Some h))
    | None =>
        match d_header (s_db s) !! height_key n with
        | Some h => (set_cache s (SCache (c_blocks c) (c_nums c) (<[n := h]> (c_headers c)) (c_txs c) (c_codes c) (c_rcpts c)), Ok (Some h))
        | None => match get_block s n with
                  | (s', Ok o) => (s', Ok (option_map (b_header I) o))
                  | (s', Err) => (s', Err) | (s', Panic) => (s', Panic) end
        end
    end.
  (** get_latest_block (201-208), get_latest_block_header (210-223), get_latest_proof (468-475). *)
  Definition get_latest_block (s : sstate) : outcome (blk I) :=
    match s_latest s with
    | Some b => Ok b
    | None => match read_block (s_db s) (rlp_key LATEST_BLOCK_KEY) with Ok (Some b) => Ok b | Ok None => Err | Err => Err | Panic => Panic end
    end.
  Definition get_latest_block_header (s : sstate) : outcome (hdr I) :=
    match s_latest s with
    | Some b => Ok (b_header I b)
    | None => match read_block (s_db s) (rlp_key LATEST_BLOCK_KEY) with
              | Ok (Some b) => Ok (b_header I b) | Ok None => Err | Err => Err | Panic => Panic end
    end.
  Definition get_latest_proof (s : sstate) : outcome (proof I) :=
    match s_proof s with
    | Some p => Ok p
    | None => match read_proof (s_db s) (rlp_key LATEST_PROOF_KEY) with Ok (Some p) => Ok p | Ok None => Err | Err => Err | Panic => Panic end
    end.
  (** get_block_number_by_hash (108-113). *)
  Definition get_number (s : sstate) (x : bytes) : sstate * option N :=
    let c := s_cache s in
    match c_nums c !! x with
    | Some n => (s, Some n)
    | None =>
        match d_num (s_db s) !! rlp_key x with
        | Some n => (set_cache s (SCache (c_blocks c) (<[x := n]> (c_nums c)) (c_headers c) (c_txs c) (c_codes c) (c_rcpts c)), Some n)
        | None => (s, None)
        end
    end.
  (** get_block_by_hash (225-235). *)
  Definition get_block_by_hash (s : sstate) (x : bytes) : sstate * outcome (option (blk I)) :=
    match get_number s x with
    | (s', Some n) => get_block s' n
    | (s', None) => (s', Ok None)
    end.
  (** get_code_by_hash (326-331), get_code_by_address (333-345); a stored value that is not 32 bytes
      does not decode as a hash. *)
  Definition get_code_by_hash (s : sstate) (x : bytes) : sstate * option bytes :=
    let c := s_cache s in
    match c_codes c !! x with
    | Some v => (s, Some v)
    | None =>
        match d_code (s_db s) !! rlp_key x with
        | Some v => (set_cache s (SCache (c_blocks c) (c_nums c) (c_headers c) (c_txs c) (<[x := v]> (c_codes c)) (c_rcpts c)), Some v)
        | None => (s, None)
        end
    end.
  Definition get_code_by_address (s : sstate) (a : bytes) : sstate * outcome (option bytes) :=
    match d_code (s_db s) !! rlp_key a with
    | None => (s, Ok None)
    | Some x => if (length x =? 32)%nat then let '(s', r) := get_code_by_hash s x in (s', Ok r) else (s, Err)
    end.
  (** get_transaction_by_hash (347-365). *)
  Definition get_tx (s : sstate) (x : bytes) : sstate * option (tx I) :=
    let c := s_cache s in
    match c_txs c !! x with
    | Some t => (s, Some t)
    | None =>
        match d_num (s_db s) !! rlp_key x with
        | None => (s, None)
        | Some n =>
            match d_tx (s_db s) !! hash_key n x with
            | Some t => (set_cache s (SCache (c_blocks c) (c_nums c) (c_headers c) (<[x := t]> (c_txs c)) (c_codes c) (c_rcpts c)), Some t)
            | None => (s, None)
            end
        end
    end.
  (** get_receipt_by_hash (367-385). *)
  Definition get_receipt (s : sstate) (x : bytes) : sstate * option (receipt I) :=
    let c := s_cache s in
    match c_rcpts c !! x with
    | Some t => (s, Some t)
    | None =>
        match d_num (s_db s) !! rlp_key x with
        | None => (s, None)
        | Some n =>
            match d_rcpt (s_db s) !! hash_key n x with
            | Some t => (set_cache s (SCache (c_blocks c) (c_nums c) (c_headers c) (c_txs c) (c_codes c) (<[x := t]> (c_rcpts c))), Some t)
            | None => (s, None)
            end
        end
    end.

  (* ---------------- batch reads ---------------- *)
  (** The RocksDB iterator (rocks.rs 256-270): entries in byte order of the keys, starting at the prefix. *)
  Definition key_le {V} (a b : bytes * V) : Prop := bytes_cmp a.1 b.1 <> Gt.
  #[global] Instance key_le_dec {V} : RelDecision (@key_le V).
  Proof. intros a b. unfold key_le. destruct (bytes_cmp a.1 b.1); [left|left|right]; congruence. Defined.
  Definition iter_from {V} (m : gmap bytes V) (prefix : bytes) : list (bytes * V) :=
    filter (fun kv => bytes_cmp prefix kv.1 <> Gt) (merge_sort key_le (map_to_list m)).
  (** The loop (263-286 and 408-428): [count] entries still wanted. *)
  Fixpoint scan {V} (n : N) (hashes : list bytes) (count : nat) (l : list (bytes * V)) (found : list (bytes * V)) : outcome (list (bytes * V)) :=
    match count with
    | O => Ok found
    | S c =>
        match l with
        | [] => Ok found
        | (k, v) :: l' =>
            match key_decode k with
            | Ok (n', x) =>
                if negb (n' =? n)%N then Ok found
                else if bool_decide (x ∈ hashes) then scan n hashes c l' (found ++ [(x, v)])
                else scan n hashes count l' found
            | Err => Err | Panic => Panic
            end
        end
    end.
  (** found.remove(h) for every requested hash in turn (289-323 and 431-465). *)
  Fixpoint take_out {V} (m : gmap bytes V) (hashes : list bytes) : list (option V) :=
    match hashes with [] => [] | x :: r => m !! x :: take_out (delete x m) r end.
  Definition batch_get {V} (m : gmap bytes V) (n : N) (hashes : list bytes) : outcome (list (option V)) :=
    match scan n hashes (length hashes) (iter_from m (height_key n)) [] with
    | Ok found => Ok (take_out (fold_left (fun m kv => <[kv.1 := kv.2]> m) found ∅) hashes)
    | Err => Err | Panic => Panic
    end.
  (** get_transactions (246-324), get_receipts (388-466, with an early return for no hashes). *)
  Definition get_transactions (s : sstate) (n : N) (hashes : list bytes) : outcome (list (option (tx I))) :=
    batch_get (d_tx (s_db s)) n hashes.
  Definition get_receipts (s : sstate) (n : N) (hashes : list bytes) : outcome (list (option (receipt I))) :=
    match hashes with [] => Ok [] | _ => batch_get (d_rcpt (s_db s)) n hashes end.

  (* ---------------- writes ---------------- *)
  (** set_block (492-502). *)
  Definition set_block (s : sstate) (b : blk I) : sstate :=
    let d := s_db s in let n := h_number I (b_header I b) in
    set_db s (SDb (<[height_key n := VBlock b]> (d_block d)) (<[height_key n := b_header I b]> (d_header d))
                  (d_tx d) (d_rcpt d) (<[rlp_key (b_hash I b) := n]> (d_num d)) (d_code d)).
  (** set_latest_block (508-515). *)
  Definition set_latest_block (s : sstate) (b : blk I) : sstate :=
    let d := s_db s in
    SState (SDb (<[rlp_key LATEST_BLOCK_KEY := VBlock b]> (d_block d)) (d_header d) (d_tx d) (d_rcpt d) (d_num d) (d_code d))
           (s_cache s) (Some b) (s_proof s).
  (** insert_block (484-490). *)
  Definition insert_block (s : sstate) (b : blk I) : sstate := set_latest_block (set_block s b) b.
  (** remove_block (504-506). *)
  Definition remove_block (s : sstate) (n : N) : sstate :=
    let d := s_db s in
    set_db s (SDb (delete (height_key n) (d_block d)) (d_header d) (d_tx d) (d_rcpt d) (d_num d) (d_code d)).
  Definition put_many {V} (m : gmap bytes V) (l : list (bytes * V)) : gmap bytes V :=
    fold_left (fun m kv => <[kv.1 := kv.2]> m) l m.
  (** batch_insert_stxs (115-147), batch_insert_receipts (149-176). *)
  Definition insert_txs (s : sstate) (n : N) (l : list (tx I)) : sstate :=
    let d := s_db s in
    set_db s (SDb (d_block d) (d_header d) (put_many (d_tx d) (map (fun t => (hash_key n (t_hash I t), t)) l)) (d_rcpt d)
                  (put_many (d_num d) (map (fun t => (rlp_key (t_hash I t), n)) l)) (d_code d)).
  Definition insert_receipts (s : sstate) (n : N) (l : list (receipt I)) : sstate :=
    let d := s_db s in
    set_db s (SDb (d_block d) (d_header d) (d_tx d) (put_many (d_rcpt d) (map (fun t => (hash_key n (r_hash I t), t)) l))
                  (put_many (d_num d) (map (fun t => (rlp_key (r_hash I t), n)) l)) (d_code d)).
  (** insert_code (528-538). *)
  Definition insert_code (s : sstate) (a x code : bytes) : sstate :=
    let d := s_db s in
    set_db s (SDb (d_block d) (d_header d) (d_tx d) (d_rcpt d) (d_num d)
                  (<[rlp_key a := x]> (<[rlp_key x := code]> (d_code d)))).
  (** update_latest_proof (552-559). *)
  Definition update_latest_proof (s : sstate) (p : proof I) : sstate :=
    let d := s_db s in
    SState (SDb (<[rlp_key LATEST_PROOF_KEY := VProof p]> (d_block d)) (d_header d) (d_tx d) (d_rcpt d) (d_num d) (d_code d))
           (s_cache s) (s_latest s) (Some p).

  (* ---------------- executions ---------------- *)
  Inductive cname := KBlock (n : N) | KNum (x : bytes) | KHeader (n : N) | KTx (x : bytes) | KCode (x : bytes) | KRcpt (x : bytes).
  (** an LRU cache drops an entry *)
  Definition evict (c : scache) (k : cname) : scache :=
    match k with
    | KBlock n => SCache (delete n (c_blocks c)) (c_nums c) (c_headers c) (c_txs c) (c_codes c) (c_rcpts c)
    | KNum x => SCache (c_blocks c) (delete x (c_nums c)) (c_headers c) (c_txs c) (c_codes c) (c_rcpts c)
    | KHeader n => SCache (c_blocks c) (c_nums c) (delete n (c_headers c)) (c_txs c) (c_codes c) (c_rcpts c)
    | KTx x => SCache (c_blocks c) (c_nums c) (c_headers c) (delete x (c_txs c)) (c_codes c) (c_rcpts c)
    | KCode x => SCache (c_blocks c) (c_nums c) (c_headers c) (c_txs c) (delete x (c_codes c)) (c_rcpts c)
    | KRcpt x => SCache (c_blocks c) (c_nums c) (c_headers c) (c_txs c) (c_codes c) (delete x (c_rcpts c))
    end.
  Inductive sevent :=
  | ESave (b : blk I) | ESet (b : blk I) | ELatest (b : blk I) | ERemove (n : N)
  | ETxs (n : N) (l : list (tx I)) | ERcpts (n : N) (l : list (receipt I))
  | ECode (a x code : bytes) | EProof (p : proof I)
  | EGetBlock (n : N) | EGetHeader (n : N) | EGetNumber (x : bytes) | EGetByHash (x : bytes)
  | EGetTx (x : bytes) | EGetRcpt (x : bytes) | EGetCode (x : bytes) | EGetCodeAt (a : bytes)
  | EEvict (k : cname) | ERestart.
  (** A new process opens the database with empty caches (new, 99-106). *)
  Definition restart (s : sstate) : sstate := SState (s_db s) cache0 None None.
  Definition sstep (s : sstate) (e : sevent) : sstate :=
    match e with
    | ESave b => insert_block s b
    | ESet b => set_block s b
    | ELatest b => set_latest_block s b
    | ERemove n => remove_block s n
    | ETxs n l => insert_txs s n l
    | ERcpts n l => insert_receipts s n l
    | ECode a x c => insert_code s a x c
    | EProof p => update_latest_proof s p
    | EGetBlock n => (get_block s n).1
    | EGetHeader n => (get_block_header s n).1
    | EGetNumber x => (get_number s x).1
    | EGetByHash x => (get_block_by_hash s x).1
    | EGetTx x => (get_tx s x).1
    | EGetRcpt x => (get_receipt s x).1
    | EGetCode x => (get_code_by_hash s x).1
    | EGetCodeAt a => (get_code_by_address s a).1
    | EEvict k => set_cache s (evict (s_cache s) k)
    | ERestart => restart s
    end.
  (** history newest first *)
  Fixpoint srun (h : list sevent) : sstate :=
    match h with [] => sstate0 | e :: r => sstep (srun r) e end.
End Storage.
