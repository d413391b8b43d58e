(** The database adapters and the chain storage on top of raw bytes.
    Models /repo/core/db/src/{rocks,memory}.rs, the schemas of /repo/core/storage/src/schema.rs and, with encoded keys and values, the storage of
    /repo/core/storage/src/lib.rs (StorageModel holds decoded values).
    Simplifications: errors carry no message; options files, cache sizes, metrics and the locks are left out; a call of the RocksDB library either does
    what it is asked or fails and changes nothing ([io]); a RocksDB batch is atomic (its documentation); opening needs every column that exists, creates
    the missing ones and keeps the others (documentation); encoding never fails (every [encode] of /repo returns Ok). *)
From Verif Require Import Bytes Rlp TxModel StorageModel BlockModel Web3Model.
From stdpp Require Import base gmap list sorting.
Local Open Scope N_scope.

(* ---------------- categories ---------------- *)
(** StorageCategory (/repo/protocol/src/traits/storage.rs 7-19). *)
Inductive category := CBlock | CHeader | CReceipt | CTx | CWal | CNum | CCode | CEvm | CMeta | CCkb | CVersion.
(** map_category (rocks.rs 294-323): the names c1, c2, c4, c3, c5, c6, c7, c8, c9, c10, c0. *)
Definition column_name (c : category) : bytes :=
  match c with
  | CBlock => [99; 49] | CHeader => [99; 50] | CReceipt => [99; 52] | CTx => [99; 51] | CWal => [99; 53] | CNum => [99; 54]
  | CCode => [99; 55] | CEvm => [99; 56] | CMeta => [99; 57] | CCkb => [99; 49; 48] | CVersion => [99; 48]
  end.
(** The columns that open_internal asks for (rocks.rs 46-58). *)
Definition opened : list category := [CBlock; CHeader; CReceipt; CTx; CWal; CNum; CCode; CEvm; CMeta; CCkb; CVersion].

(** A schema (storage.rs 43-48): a category with codecs of keys and values. *)
Record schema := Schema { s_key : Type; s_val : Type; s_cat : category;
  enc_key : s_key -> bytes; enc_val : s_val -> bytes; dec_key : bytes -> outcome s_key; dec_val : bytes -> outcome s_val }.

(* ---------------- RocksAdapter ---------------- *)
(** A database on disk: its columns. *)
Notation rdb := (gmap bytes (gmap bytes bytes)).
(** create_missing_column_families *)
Definition add_columns (d : rdb) (l : list category) : rdb :=
  fold_right (fun c d => match d !! column_name c with Some _ => d | None => <[column_name c := ∅]> d end) d l.
(** open_internal (rocks.rs 37-95); the default column always exists and is not listed. [None]: no database at the path. *)
Definition rocks_open (disk : option rdb) (allow_missing : bool) : outcome rdb :=
  match disk with
  | None => if allow_missing then Ok (list_to_map (map (fun c => (column_name c, ∅)) opened)) else Err
  | Some d =>
      if bool_decide (map_Forall (fun name _ => name ∈ map column_name opened) d)
      then Ok (add_columns d opened)
      else Err
  end.

(** What one call writes: entries put or deleted, in one column. *)
Notation change := (bytes * option bytes)%type.
Definition apply_change (m : gmap bytes bytes) (x : change) : gmap bytes bytes :=
  match x.2 with Some v => <[x.1 := v]> m | None => delete x.1 m end.
Definition apply_all (m : gmap bytes bytes) (l : list change) : gmap bytes bytes := fold_left apply_change l m.
(** get_column (325-333) and a call of the library on the column. *)
Definition rocks_write (io : bool) (db : rdb) (c : category) (l : list change) : rdb * outcome unit :=
  match db !! column_name c with
  | None => (db, Err)
  | Some m => if io then (<[column_name c := apply_all m l]> db, Ok ()) else (db, Err)
  end.
Section Rocks.
  Variable Sc : schema.
  (** insert (158-170), remove (192-199). *)
  Definition rocks_insert (io : bool) (db : rdb) (k : s_key Sc) (v : s_val Sc) := rocks_write io db (s_cat Sc) [(enc_key Sc k, Some (enc_val Sc v))].
  Definition rocks_remove (io : bool) (db : rdb) (k : s_key Sc) := rocks_write io db (s_cat Sc) [(enc_key Sc k, None)].
  (** get (172-190), contains (201-207). *)
  Definition rocks_get (io : bool) (db : rdb) (k : s_key Sc) : outcome (option (s_val Sc)) :=
    match db !! column_name (s_cat Sc) with
    | None => Err
    | Some m => if io then
        match m !! enc_key Sc k with
        | None => Ok None
        | Some b => match dec_val Sc b with Ok v => Ok (Some v) | Err => Err | Panic => Panic end
        end else Err
    end.
  Definition rocks_contains (io : bool) (db : rdb) (k : s_key Sc) : outcome bool :=
    match db !! column_name (s_cat Sc) with
    | None => Err
    | Some m => if io then Ok (match m !! enc_key Sc k with Some _ => true | None => false end) else Err
    end.
  (** batch_modify (209-254). *)
  Definition pairs (ks : list (s_key Sc)) (vs : list (option (s_val Sc))) : list change :=
    zip_with (fun k v => (enc_key Sc k, option_map (enc_val Sc) v)) ks vs.
  Definition rocks_batch (io : bool) (db : rdb) (ks : list (s_key Sc)) (vs : list (option (s_val Sc))) : rdb * outcome unit :=
    if negb (length ks =? length vs)%nat then (db, Err) else rocks_write io db (s_cat Sc) (pairs ks vs).
  (** prepare_iter (256-270) and the iterator (104-156): the decoded entries from the prefix on. *)
  Definition decode_entry (kv : bytes * bytes) : outcome (s_key Sc * s_val Sc) :=
    match dec_key Sc kv.1 with
    | Ok k => match dec_val Sc kv.2 with Ok v => Ok (k, v) | Err => Err | Panic => Panic end
    | Err => Err | Panic => Panic
    end.
  Definition rocks_iter (db : rdb) (prefix : bytes) : outcome (list (outcome (s_key Sc * s_val Sc))) :=
    match db !! column_name (s_cat Sc) with
    | None => Err
    | Some m => Ok (map decode_entry (iter_from m prefix))
    end.
End Rocks.

(* ---------------- MemoryAdapter ---------------- *)
(** The outer map is keyed by the display name of the category; it starts empty (memory.rs 17-27). *)
Notation mdb := (gmap bytes (gmap bytes bytes)).
Definition mem_name (c : category) : bytes :=
  match c with
  | CBlock => [66] | CHeader => [66; 72] | CReceipt => [82] | CTx => [83; 84] | CWal => [87] | CNum => [72; 72]
  | CCode => [67] | CEvm => [69; 83] | CMeta => [77; 83] | CCkb => [67; 76] | CVersion => [86]
  end.  (* the initials of Block, BlockHeader, ...; only that they differ matters *)
(** entry(..).or_insert_with(HashMap::new) *)
Definition entry (db : mdb) (c : category) : gmap bytes bytes := default ∅ (db !! mem_name c).
Definition touch (db : mdb) (c : category) : mdb := <[mem_name c := entry db c]> db.
Section Memory.
  Variable Sc : schema.
  (** insert (83-101), remove (125-137), batch_modify (151-187) *)
  Definition mem_write (db : mdb) (l : list change) : mdb * outcome unit := (<[mem_name (s_cat Sc) := apply_all (entry db (s_cat Sc)) l]> db, Ok ()).
  Definition mem_insert (db : mdb) (k : s_key Sc) (v : s_val Sc) := mem_write db [(enc_key Sc k, Some (enc_val Sc v))].
  Definition mem_remove (db : mdb) (k : s_key Sc) := mem_write db [(enc_key Sc k, None)].
  Definition mem_batch (db : mdb) (ks : list (s_key Sc)) (vs : list (option (s_val Sc))) : mdb * outcome unit :=
    if negb (length ks =? length vs)%nat then (db, Err) else mem_write db (pairs Sc ks vs).
  (** get (103-123), contains (139-149) *)
  Definition mem_get (db : mdb) (k : s_key Sc) : mdb * outcome (option (s_val Sc)) :=
    (touch db (s_cat Sc),
     match entry db (s_cat Sc) !! enc_key Sc k with
     | None => Ok None
     | Some b => match dec_val Sc b with Ok v => Ok (Some v) | Err => Err | Panic => Panic end
     end).
  Definition mem_contains (db : mdb) (k : s_key Sc) : mdb * outcome bool :=
    (touch db (s_cat Sc), Ok (match entry db (s_cat Sc) !! enc_key Sc k with Some _ => true | None => false end)).
  (** prepare_iter (189-204): the prefix is not used; the order is that of a hash map, here some list. *)
  Definition mem_iter (db : mdb) (prefix : bytes) : list (outcome (s_key Sc * s_val Sc)) :=
    map (decode_entry Sc) (map_to_list (entry db (s_cat Sc))).
End Memory.

(* ---------------- histories of calls ---------------- *)
Inductive call :=
| OInsert (Sc : schema) (k : s_key Sc) (v : s_val Sc)
| ORemove (Sc : schema) (k : s_key Sc)
| OBatch (Sc : schema) (ks : list (s_key Sc)) (vs : list (option (s_val Sc)))
| OReopen (allow_missing : bool).
Definition rocks_step (db : rdb) (x : call * bool) : rdb * outcome unit :=
  match x.1 with
  | OInsert Sc k v => rocks_insert Sc x.2 db k v
  | ORemove Sc k => rocks_remove Sc x.2 db k
  | OBatch Sc ks vs => rocks_batch Sc x.2 db ks vs
  | OReopen am => match rocks_open (Some db) am with Ok d => (d, Ok ()) | Err => (db, Err) | Panic => (db, Panic) end
  end.
(** history newest first *)
Fixpoint rocks_run (start : rdb) (h : list (call * bool)) : rdb :=
  match h with [] => start | x :: r => (rocks_step (rocks_run start r) x).1 end.

(* ================================================================ *)
(** * The chain storage over bytes *)
Section Storage.
  Context (keccak : bytes -> bytes) (recover : bytes -> bytes -> option bytes) (shape : N -> option xshape).
  Notation W := (Web3Model.W keccak).

  Definition opt_out {A} (o : option A) : outcome A := of_option o.
  (** The schemas (schema.rs 23-45): keys as in StorageModel, values as RLP. *)
  Definition BlockSchema : schema := Schema N BlockModel.block CBlock height_key enc_block (fun b => Ok (be_val b)) (fun b => opt_out (dec_block b)).
  Definition HeaderSchema : schema := Schema N header CHeader height_key enc_hdr (fun b => Ok (be_val b)) (fun b => opt_out (dec_hdr b)).
  Definition hash_dec (b : bytes) : outcome bytes := opt_out (dec_hash 32 b).
  Definition NumSchema : schema := Schema bytes N CNum rlp_key enc_uint hash_dec (fun b => opt_out (dec_uint 8 b)).  (* block and transaction hashes *)
  Definition LatestBlockSchema : schema := Schema bytes BlockModel.block CBlock rlp_key enc_block hash_dec (fun b => opt_out (dec_block b)).
  Definition LatestProofSchema : schema := Schema bytes proof CBlock rlp_key enc_proof hash_dec (fun b => opt_out (dec_proof b)).
  Definition CodeSchema : schema := Schema bytes bytes CCode rlp_key enc_str hash_dec (fun b => opt_out (dec_value b)).
  Definition CodeAddressSchema : schema := Schema bytes bytes CCode rlp_key enc_str hash_dec (fun b => opt_out (dec_hash 32 b)).
  Definition TxSchema : schema := Schema (N * bytes) stx CTx (fun k => hash_key k.1 k.2) enc_stx key_decode (dec_stx keccak recover).
  Definition ReceiptSchema : schema := Schema (N * bytes) receipt CReceipt (fun k => hash_key k.1 k.2) enc_receipt key_decode (fun b => opt_out (dec_receipt shape b)).
  (** DBBytes (codec/mod.rs 35-44) *)
  Definition BytesSchema (c : category) : schema := Schema (N * bytes) bytes c (fun k => hash_key k.1 k.2) (fun b => b) key_decode Ok.

  (** ImplStorage over a database (lib.rs 91-106). *)
  Record bstate := BState { b_db : rdb; b_cache : scache W; b_latest : option BlockModel.block; b_proof : option proof }.
  Definition bset_cache (s : bstate) (c : scache W) : bstate := BState (b_db s) c (b_latest s) (b_proof s).

  (* ---------------- reads ---------------- *)
  (** get_block (181-186) *)
  Definition bget_block (s : bstate) (n : N) : bstate * outcome (option BlockModel.block) :=
    let c := b_cache s in
    match c_blocks W c !! n with
    | Some b => (s, Ok (Some b))
    | None =>
        match rocks_get BlockSchema true (b_db s) n with
        | Ok (Some b) => (bset_cache s (SCache W (<[n := b]> (c_blocks W c)) (c_nums W c) (c_headers W c) (c_txs W c) (c_codes W c) (c_rcpts W c)), Ok (Some b))
        | r => (s, r)
        end
    end.
  (** get_block_header (188-199) *)
  Definition bget_header (s : bstate) (n : N) : bstate * outcome (option header) :=
    let c := b_cache s in
    match c_headers W c !! n with
    | Some h => (s, Ok (Some h))
    | None =>
        match rocks_get HeaderSchema true (b_db s) n with
        | Ok (Some h) => (bset_cache s (SCache W (c_blocks W c) (c_nums W c) (<[n := h]> (c_headers W c)) (c_txs W c) (c_codes W c) (c_rcpts W c)), Ok (Some h))
        | Ok None => match bget_block s n with
                     | (s', Ok o) => (s', Ok (option_map b_header o))
                     | (s', Err) => (s', Err) | (s', Panic) => (s', Panic) end
        | Err => (s, Err) | Panic => (s, Panic)
        end
    end.
  Definition ensure {A} (o : outcome (option A)) : outcome A :=
    match o with Ok (Some x) => Ok x | Ok None => Err | Err => Err | Panic => Panic end.
  (** get_latest_block (201-208), get_latest_block_header (210-223), get_latest_proof (468-475) *)
  Definition bget_latest_block (s : bstate) : outcome BlockModel.block :=
    match b_latest s with Some b => Ok b | None => ensure (rocks_get LatestBlockSchema true (b_db s) LATEST_BLOCK_KEY) end.
  Definition bget_latest_header (s : bstate) : outcome header :=
    match b_latest s with
    | Some b => Ok (b_header b)
    | None => match ensure (rocks_get LatestBlockSchema true (b_db s) LATEST_BLOCK_KEY) with Ok b => Ok (b_header b) | Err => Err | Panic => Panic end
    end.
  Definition bget_latest_proof (s : bstate) : outcome proof :=
    match b_proof s with Some p => Ok p | None => ensure (rocks_get LatestProofSchema true (b_db s) LATEST_PROOF_KEY) end.
  (** get_block_number_by_hash (108-113) *)
  Definition bget_number (s : bstate) (x : bytes) : bstate * outcome (option N) :=
    let c := b_cache s in
    match c_nums W c !! x with
    | Some n => (s, Ok (Some n))
    | None =>
        match rocks_get NumSchema true (b_db s) x with
        | Ok (Some n) => (bset_cache s (SCache W (c_blocks W c) (<[x := n]> (c_nums W c)) (c_headers W c) (c_txs W c) (c_codes W c) (c_rcpts W c)), Ok (Some n))
        | r => (s, r)
        end
    end.
  (** get_block_by_hash (225-235) *)
  Definition bget_by_hash (s : bstate) (x : bytes) : bstate * outcome (option BlockModel.block) :=
    match bget_number s x with
    | (s', Ok (Some n)) => bget_block s' n
    | (s', Ok None) => (s', Ok None)
    | (s', Err) => (s', Err) | (s', Panic) => (s', Panic)
    end.
  (** get_code_by_hash (326-331), get_code_by_address (333-345) *)
  Definition bget_code (s : bstate) (x : bytes) : bstate * outcome (option bytes) :=
    let c := b_cache s in
    match c_codes W c !! x with
    | Some v => (s, Ok (Some v))
    | None =>
        match rocks_get CodeSchema true (b_db s) x with
        | Ok (Some v) => (bset_cache s (SCache W (c_blocks W c) (c_nums W c) (c_headers W c) (c_txs W c) (<[x := v]> (c_codes W c)) (c_rcpts W c)), Ok (Some v))
        | r => (s, r)
        end
    end.
  Definition bget_code_at (s : bstate) (a : bytes) : bstate * outcome (option bytes) :=
    match rocks_get CodeAddressSchema true (b_db s) a with
    | Ok None => (s, Ok None)
    | Ok (Some x) => bget_code s x
    | Err => (s, Err) | Panic => (s, Panic)
    end.
  (** get_transaction_by_hash (347-365), get_receipt_by_hash (367-385) *)
  Definition bget_tx (s : bstate) (x : bytes) : bstate * outcome (option stx) :=
    let c := b_cache s in
    match c_txs W c !! x with
    | Some t => (s, Ok (Some t))
    | None =>
        match rocks_get NumSchema true (b_db s) x with
        | Ok None => (s, Ok None)
        | Ok (Some n) =>
            match rocks_get TxSchema true (b_db s) (n, x) with
            | Ok (Some t) => (bset_cache s (SCache W (c_blocks W c) (c_nums W c) (c_headers W c) (<[x := t]> (c_txs W c)) (c_codes W c) (c_rcpts W c)), Ok (Some t))
            | r => (s, r)
            end
        | Err => (s, Err) | Panic => (s, Panic)
        end
    end.
  Definition bget_receipt (s : bstate) (x : bytes) : bstate * outcome (option receipt) :=
    let c := b_cache s in
    match c_rcpts W c !! x with
    | Some t => (s, Ok (Some t))
    | None =>
        match rocks_get NumSchema true (b_db s) x with
        | Ok None => (s, Ok None)
        | Ok (Some n) =>
            match rocks_get ReceiptSchema true (b_db s) (n, x) with
            | Ok (Some t) => (bset_cache s (SCache W (c_blocks W c) (c_nums W c) (c_headers W c) (c_txs W c) (c_codes W c) (<[x := t]> (c_rcpts W c))), Ok (Some t))
            | r => (s, r)
            end
        | Err => (s, Err) | Panic => (s, Panic)
        end
    end.

  (* ---------------- batch reads ---------------- *)
  (** The loop (263-286, 408-428) over the entries of the iterator, which come with their keys decoded. *)
  Fixpoint bscan (n : N) (hashes : list bytes) (count : nat) (l : list (outcome ((N * bytes) * bytes))) (found : list (bytes * bytes))
    : outcome (list (bytes * bytes)) :=
    match count with
    | O => Ok found
    | S c =>
        match l with
        | [] => Ok found
        | Ok ((n', x), v) :: l' =>
            if negb (n' =? n) then Ok found
            else if bool_decide (x ∈ hashes) then bscan n hashes c l' (found ++ [(x, v)])
            else bscan n hashes count l' found
        | Err :: _ => Err
        | Panic :: _ => Panic
        end
    end.
  (** Decoding what was found (289-317, 431-459), whether in one piece or in chunks. *)
  Fixpoint decode_found {V} (dec : bytes -> outcome V) (l : list (bytes * bytes)) : outcome (list (bytes * V)) :=
    match l with
    | [] => Ok []
    | (x, b) :: r =>
        match dec b with
        | Ok v => match decode_found dec r with Ok q => Ok ((x, v) :: q) | Err => Err | Panic => Panic end
        | Err => Err | Panic => Panic
        end
    end.
  Definition bbatch {V} (c : category) (dec : bytes -> outcome V) (s : bstate) (n : N) (hashes : list bytes) : outcome (list (option V)) :=
    match rocks_iter (BytesSchema c) (b_db s) (height_key n) with
    | Ok l =>
        match bscan n hashes (length hashes) l [] with
        | Ok found =>
            match decode_found dec found with
            | Ok vs => Ok (take_out (fold_left (fun m kv => <[kv.1 := kv.2]> m) vs ∅) hashes)
            | Err => Err | Panic => Panic
            end
        | Err => Err | Panic => Panic
        end
    | Err => Err | Panic => Panic
    end.
  (** get_transactions (246-324), get_receipts (387-466) *)
  Definition bget_transactions (s : bstate) (n : N) (hashes : list bytes) : outcome (list (option stx)) := bbatch CTx (dec_stx keccak recover) s n hashes.
  Definition bget_receipts (s : bstate) (n : N) (hashes : list bytes) : outcome (list (option receipt)) :=
    match hashes with [] => Ok [] | _ => bbatch CReceipt (fun b => opt_out (dec_receipt shape b)) s n hashes end.

  (* ---------------- writes ---------------- *)
  (** The calls a write makes, in order. *)
  Definition set_block_calls (b : BlockModel.block) : list call :=
    [OInsert BlockSchema (h_number (b_header b)) b; OInsert HeaderSchema (h_number (b_header b)) (b_header b);
     OInsert NumSchema (Web3Model.hash_of keccak b) (h_number (b_header b))].
  Definition latest_calls (b : BlockModel.block) : list call := [OInsert LatestBlockSchema LATEST_BLOCK_KEY b].
  Definition txs_calls (n : N) (l : list stx) : list call :=
    [OBatch TxSchema (map (fun t => (n, u_hash (s_tx t))) l) (map Some l); OBatch NumSchema (map (fun t => u_hash (s_tx t)) l) (map (fun _ => Some n) l)].
  Definition rcpts_calls (n : N) (l : list receipt) : list call :=
    [OBatch ReceiptSchema (map (fun r => (n, r_tx_hash r)) l) (map Some l); OBatch NumSchema (map r_tx_hash l) (map (fun _ => Some n) l)].
  Definition code_calls (a x code : bytes) : list call := [OInsert CodeSchema x code; OInsert CodeAddressSchema a x].
  (** The calls until the first that fails; [ios] says which of them the library refuses. *)
  Fixpoint calls (db : rdb) (l : list call) (ios : list bool) : rdb * outcome unit :=
    match l with
    | [] => (db, Ok ())
    | x :: r => match rocks_step db (x, match ios with [] => true | b :: _ => b end) with
                | (db', Ok _) => calls db' r (tl ios)
                | (db', e) => (db', e)
                end
    end.
  Definition bset_db (s : bstate) (d : rdb) : bstate := BState d (b_cache s) (b_latest s) (b_proof s).
  (** set_block (492-502), set_latest_block (508-515), insert_block (484-490), remove_block (504-506), insert_transactions (517-526),
      insert_receipts (540-550), insert_code (528-538), update_latest_proof (552-559). *)
  Definition bwrite (s : bstate) (l : list call) (ios : list bool) : bstate * outcome unit :=
    let '(d, r) := calls (b_db s) l ios in (bset_db s d, r).
  Definition bset_latest (s : bstate) (b : BlockModel.block) (ios : list bool) : bstate * outcome unit :=
    match bwrite s (latest_calls b) ios with
    | (s', Ok _) => (BState (b_db s') (b_cache s') (Some b) (b_proof s'), Ok ())
    | (s', e) => (s', e)
    end.
  Definition bset_proof (s : bstate) (p : proof) (ios : list bool) : bstate * outcome unit :=
    match bwrite s [OInsert LatestProofSchema LATEST_PROOF_KEY p] ios with
    | (s', Ok _) => (BState (b_db s') (b_cache s') (b_latest s') (Some p), Ok ())
    | (s', e) => (s', e)
    end.
  Definition binsert_block (s : bstate) (b : BlockModel.block) (ios : list bool) : bstate * outcome unit :=
    match bwrite s (set_block_calls b) ios with
    | (s', Ok _) => bset_latest s' b (drop 3 ios)
    | (s', e) => (s', e)
    end.

  (** One event of StorageModel, here over bytes; [ios] as above. *)
  Definition bstep (s : bstate) (e : sevent W) (ios : list bool) : bstate :=
    match e with
    | ESave _ b => (binsert_block s b ios).1
    | ESet _ b => (bwrite s (set_block_calls b) ios).1
    | ELatest _ b => (bset_latest s b ios).1
    | ERemove _ n => (bwrite s [ORemove BlockSchema n] ios).1
    | ETxs _ n l => (bwrite s (txs_calls n l) ios).1
    | ERcpts _ n l => (bwrite s (rcpts_calls n l) ios).1
    | ECode _ a x c => (bwrite s (code_calls a x c) ios).1
    | EProof _ p => (bset_proof s p ios).1
    | EGetBlock _ n => (bget_block s n).1
    | EGetHeader _ n => (bget_header s n).1
    | EGetNumber _ x => (bget_number s x).1
    | EGetByHash _ x => (bget_by_hash s x).1
    | EGetTx _ x => (bget_tx s x).1
    | EGetRcpt _ x => (bget_receipt s x).1
    | EGetCode _ x => (bget_code s x).1
    | EGetCodeAt _ a => (bget_code_at s a).1
    | EEvict _ k => bset_cache s (evict W (b_cache s) k)
    | ERestart _ => match rocks_open (Some (b_db s)) true with Ok d => BState d (cache0 W) None None | _ => s end
    end.
  (** A node from the first opening on, history newest first, no failing calls. *)
  Definition bstate0 : bstate := match rocks_open None true with Ok d => BState d (cache0 W) None None | _ => BState ∅ (cache0 W) None None end.
  Fixpoint brun (h : list (sevent W)) : bstate := match h with [] => bstate0 | e :: r => bstep (brun r) e [] end.
End Storage.
