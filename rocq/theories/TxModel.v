(** Transactions and their codecs.
    Models /repo/protocol/src/types/transaction.rs and
    /repo/protocol/src/codec/transaction.rs. *)
From Verif Require Import Bytes Rlp.

(** ethereum::TransactionAction (re-exported by types/transaction.rs:1-4). *)
Inductive action := Call (to : bytes) | Create.

(** ethereum::AccessListItem. *)
Record access_item := AccessItem { ai_address : bytes; ai_keys : list bytes }.

(** types/transaction.rs:172-182. *)
Record legacy_tx := LegacyTx {
  l_nonce : N; l_gas_price : N; l_gas_limit : N; l_action : action; l_value : N; l_data : bytes }.

(** types/transaction.rs:206-217. *)
Record eip2930_tx := Eip2930Tx {
  e_nonce : N; e_gas_price : N; e_gas_limit : N; e_action : action; e_value : N; e_data : bytes;
  e_access : list access_item }.

(** types/transaction.rs:245-255. *)
Record eip1559_tx := Eip1559Tx {
  f_nonce : N; f_max_prio : N; f_gas_price : N; f_gas_limit : N; f_action : action; f_value : N;
  f_data : bytes; f_access : list access_item }.

(** types/transaction.rs:18-23. *)
Inductive unsigned := Legacy (t : legacy_tx) | Eip2930 (t : eip2930_tx) | Eip1559 (t : eip1559_tx).

(** types/transaction.rs:346-351. *)
Record sigc := SigC { sg_r : bytes; sg_s : bytes; sg_v : N }.

(** types/transaction.rs:284-290. *)
Record utx := Utx { u_unsigned : unsigned; u_sig : option sigc; u_chain : option N; u_hash : bytes }.

(** types/transaction.rs:425-430. *)
Record stx := Stx { s_tx : utx; s_sender : bytes; s_public : option bytes }.

(** Rust outcome: value, error, or panic (index out of bounds, overflow). *)
Inductive outcome (A : Type) := Ok (a : A) | Err | Panic.
Arguments Ok {A} a. Arguments Err {A}. Arguments Panic {A}.

(* ---- accessors, types/transaction.rs:25-170 ---- *)
(** type_ (26-32). *)
Definition tx_type (u : unsigned) : N :=
  match u with Legacy _ => 0 | Eip2930 _ => 1 | Eip1559 _ => 2 end.
(** gas_price (78-84): the EIP-1559 price is the maximum of cap and tip. *)
Definition gas_price (u : unsigned) : N :=
  match u with
  | Legacy t => l_gas_price t | Eip2930 t => e_gas_price t
  | Eip1559 t => N.max (f_gas_price t) (f_max_prio t) end.
(** gas_limit (139-145), nonce (147-153), value (131-137), data (54-60), action (155-161), access_list (163-169). *)
Definition gas_limit (u : unsigned) : N :=
  match u with Legacy t => l_gas_limit t | Eip2930 t => e_gas_limit t | Eip1559 t => f_gas_limit t end.
Definition nonce (u : unsigned) : N :=
  match u with Legacy t => l_nonce t | Eip2930 t => e_nonce t | Eip1559 t => f_nonce t end.
Definition tx_value (u : unsigned) : N :=
  match u with Legacy t => l_value t | Eip2930 t => e_value t | Eip1559 t => f_value t end.
Definition tx_data (u : unsigned) : bytes :=
  match u with Legacy t => l_data t | Eip2930 t => e_data t | Eip1559 t => f_data t end.
Definition tx_action (u : unsigned) : action :=
  match u with Legacy t => l_action t | Eip2930 t => e_action t | Eip1559 t => f_action t end.
Definition access_list (u : unsigned) : list access_item :=
  match u with Legacy _ => [] | Eip2930 t => e_access t | Eip1559 t => f_access t end.
(** to (123-129). *)
Definition tx_to (u : unsigned) : option bytes :=
  match tx_action u with Call a => Some a | Create => None end.

(** max_priority_fee_per_gas (86-92). *)
Definition max_priority_fee (u : unsigned) : N :=
  match u with
  | Legacy t => l_gas_price t | Eip2930 t => e_gas_price t | Eip1559 t => f_max_prio t end.

(** may_cost (34-44).  Both factors are u64 so the product cannot overflow 256
    bits and the error branch is dead; the sum saturates at 2^256-1. *)
Definition may_cost (u : unsigned) : N :=
  let res := (gas_price u mod 2^64) * (gas_limit u mod 2^64) in
  if res + tx_value u <? 2^256 then res + tx_value u else 2^256 - 1.

(** SignatureComponents::len / is_eth_sig (382-384, 419-422). *)
Definition sig_len (s : sigc) : nat := (length (sg_r s) + length (sg_s s) + 1)%nat.
Definition is_eth_sig (s : sigc) : bool := (sig_len s =? 65)%nat.

(** add_chain_replay_protection (386-388).  The u64 additions panic on overflow
    (overflow-checks = true, /repo/Cargo.toml:56); well-formed transactions exclude it. *)
Definition replay_v (s : sigc) (chain : option N) : N :=
  sg_v s + match chain with Some i => i * 2 + 35 | None => 27 end.

(** extract_standard_v (390-397). *)
Definition extract_standard_v (v : N) : option N :=
  if v =? 27 then Some 0
  else if v =? 28 then Some 1
  else if 35 <=? v then Some ((v - 1) mod 2)
  else None.

(** extract_chain_id (399-405). *)
Definition extract_chain_id (v : N) : option N :=
  if 35 <=? v then Some ((v - 35) / 2) else None.

(* ---- encoders, codec/transaction.rs ---- *)
(** truncate_slice (13-18). *)
Definition truncate_slice (b : bytes) (n : nat) : bytes :=
  if (length b <=? n)%nat then b else firstn n b.

(** ethereum: impl Encodable for TransactionAction. *)
Definition enc_action (a : action) : bytes :=
  match a with Call t => enc_str t | Create => enc_str [] end.

(** r and s as they are appended (23-28, 102-107): integers for Ethereum
    signatures, raw strings otherwise. *)
Definition enc_rs (s : sigc) : list bytes :=
  if is_eth_sig s then
    [enc_uint (be_val (truncate_slice (sg_r s) 32)); enc_uint (be_val (truncate_slice (sg_s s) 32))]
  else [enc_str (sg_r s); enc_str (sg_s s)].

(** LegacyTransaction::rlp_encode (79-111). *)
Definition legacy_items (t : legacy_tx) (chain : option N) (sg : option sigc) : list bytes :=
  [enc_uint (l_nonce t); enc_uint (l_gas_price t); enc_uint (l_gas_limit t);
   enc_action (l_action t); enc_uint (l_value t); enc_str (l_data t)] ++
  match sg with
  | Some s => enc_uint (replay_v s chain) :: enc_rs s
  | None =>
      match chain with
      | Some id => [enc_uint id; enc_uint 0; enc_uint 0]
      | None => []
      end
  end.

(** access list encoding (154-162, 227-235). *)
Definition enc_access_item (a : access_item) : bytes :=
  enc_list [enc_hash (ai_address a); enc_list (map enc_hash (ai_keys a))].
Definition enc_access (l : list access_item) : bytes := enc_list (map enc_access_item l).

(** SignatureComponents::rlp_append (20-30). *)
Definition enc_sig (s : sigc) : list bytes := enc_uint (sg_v s) :: enc_rs s.
Definition sig_items (sg : option sigc) : list bytes :=
  match sg with Some s => enc_sig s | None => [] end.
Definition chain_or_0 (c : option N) : N := match c with Some i => i | None => 0 end.

(** Eip2930Transaction::rlp_encode (138-167). *)
Definition eip2930_items (t : eip2930_tx) (chain : option N) (sg : option sigc) : list bytes :=
  [enc_uint (chain_or_0 chain); enc_uint (e_nonce t); enc_uint (e_gas_price t);
   enc_uint (e_gas_limit t); enc_action (e_action t); enc_uint (e_value t); enc_str (e_data t);
   enc_access (e_access t)] ++ sig_items sg.

(** Eip1559Transaction::rlp_encode (210-240). *)
Definition eip1559_items (t : eip1559_tx) (chain : option N) (sg : option sigc) : list bytes :=
  [enc_uint (chain_or_0 chain); enc_uint (f_nonce t); enc_uint (f_max_prio t);
   enc_uint (f_gas_price t); enc_uint (f_gas_limit t); enc_action (f_action t);
   enc_uint (f_value t); enc_str (f_data t); enc_access (f_access t)] ++ sig_items sg.

(** UnverifiedTransaction::rlp_bytes (298-309) over UnsignedTransaction::encode
    (types/transaction.rs:109-121): the type byte, then the list. *)
Definition enc_unsigned (u : unsigned) (chain : option N) (sg : option sigc) : bytes :=
  match u with
  | Legacy t => enc_list (legacy_items t chain sg)
  | Eip2930 t => 1 :: enc_list (eip2930_items t chain sg)
  | Eip1559 t => 2 :: enc_list (eip1559_items t chain sg)
  end.
Definition enc_utx (t : utx) : bytes := enc_unsigned (u_unsigned t) (u_chain t) (u_sig t).

(* ---- decoders ---- *)
(** ethereum: impl Decodable for TransactionAction. *)
Definition dec_action (b : bytes) : option action :=
  if is_empty_item b then (if is_data b then Some Create else None)
  else let? a := dec_hash 20 b in Some (Call a).

(** SignatureComponents::rlp_decode (33-75).  [v] is read by the caller.  The
    sizes are taken in an ascending scan; re-reading r goes back to a lower
    index and therefore restarts inside the list. *)
Definition dec_rs (b : bytes) (off : nat) : option (bytes * bytes) :=
  let? r0 := at_ b (off + 1) in
  let? s0 := at_ b (off + 2) in
  if (size_ r0 + size_ s0 <=? 64)%nat then
    let? ri := at_restart b (off + 1) in
    let? r := dec_uint 32 ri in
    let? s := val_at (dec_uint 32) b (off + 2) in
    Some (be_fixed 32 r, be_fixed 32 s)
  else
    let? ri := at_restart b (off + 1) in
    let? r := dec_value ri in
    let? s := val_at dec_value b (off + 2) in
    Some (r, s).

Definition dec_sig_legacy (b : bytes) (v : N) : option sigc :=
  let? sv := extract_standard_v v in
  let? (r, s) := dec_rs b 6 in
  Some (SigC r s sv).

Definition dec_sig_typed (b : bytes) (off : nat) : option sigc :=
  let? v := val_at (dec_uint 1) b off in
  let? (r, s) := dec_rs b off in
  Some (SigC r s v).

(** Access list (182-197, 256-271): the outer list and each entry are counted,
    the storage keys are read with [list_at]. *)
Definition dec_access_item (b : bytes) : option access_item :=
  let? n := item_count b in
  if (n =? 2)%nat then
    let? a := val_at (dec_hash 20) b 0 in
    let? ks := val_at (dec_list (dec_hash 32)) b 1 in
    Some (AccessItem a ks)
  else None.
Definition dec_access (b : bytes) : option (list access_item) :=
  let? n := item_count b in
  dec_list dec_access_item b.

Section Hash.
(** [Hasher::digest]. *)
Variable keccak : bytes -> bytes.

(** LegacyTransaction::rlp_decode (113-134). *)
Definition dec_legacy (b : bytes) : option utx :=
  let? n := item_count b in
  if (n =? 9)%nat then
    let? no := val_at (dec_uint 8) b 0 in
    let? gp := val_at (dec_uint 8) b 1 in
    let? gl := val_at (dec_uint 8) b 2 in
    let? ac := val_at dec_action b 3 in
    let? va := val_at (dec_uint 32) b 4 in
    let? da := val_at dec_value b 5 in
    let? v := val_at (dec_uint 8) b 6 in
    let? sg := dec_sig_legacy b v in
    Some (Utx (Legacy (LegacyTx no gp gl ac va da)) (Some sg) (extract_chain_id v) (keccak b))
  else None.

(** Eip2930Transaction::rlp_decode (169-206); [b] is the buffer after the type byte. *)
Definition dec_eip2930 (b : bytes) : option utx :=
  let? n := item_count b in
  if (n =? 11)%nat then
    let? id := val_at (dec_uint 8) b 0 in
    let? no := val_at (dec_uint 8) b 1 in
    let? gp := val_at (dec_uint 8) b 2 in
    let? gl := val_at (dec_uint 8) b 3 in
    let? ac := val_at dec_action b 4 in
    let? va := val_at (dec_uint 32) b 5 in
    let? da := val_at dec_value b 6 in
    let? al := val_at dec_access b 7 in
    let? sg := dec_sig_typed b 8 in
    Some (Utx (Eip2930 (Eip2930Tx no gp gl ac va da al)) (Some sg) (Some id) (keccak (1 :: b)))
  else None.

(** Eip1559Transaction::rlp_decode (242-280). *)
Definition dec_eip1559 (b : bytes) : option utx :=
  let? n := item_count b in
  if (n =? 12)%nat then
    let? id := val_at (dec_uint 8) b 0 in
    let? no := val_at (dec_uint 8) b 1 in
    let? mp := val_at (dec_uint 8) b 2 in
    let? gp := val_at (dec_uint 8) b 3 in
    let? gl := val_at (dec_uint 8) b 4 in
    let? ac := val_at dec_action b 5 in
    let? va := val_at (dec_uint 32) b 6 in
    let? da := val_at dec_value b 7 in
    let? al := val_at dec_access b 8 in
    let? sg := dec_sig_typed b 9 in
    Some (Utx (Eip1559 (Eip1559Tx no mp gp gl ac va da al)) (Some sg) (Some id) (keccak (2 :: b)))
  else None.

Definition of_option {A} (o : option A) : outcome A :=
  match o with Some x => Ok x | None => Err end.

(** UnverifiedTransaction::decode (312-327); [raw[0]] panics on an empty slice. *)
Definition dec_utx (raw : bytes) : outcome utx :=
  match raw with
  | [] => Panic
  | header :: rest =>
      if 128 <=? header then of_option (dec_legacy raw)
      else if header =? 1 then of_option (dec_eip2930 rest)
      else if header =? 2 then of_option (dec_eip1559 rest)
      else Err
  end.

(** get_hash / calc_hash / check_hash (types/transaction.rs:292-315). *)
Definition get_hash (t : utx) : bytes := keccak (enc_utx t).
Definition calc_hash (t : utx) : utx :=
  Utx (u_unsigned t) (u_sig t) (u_chain t) (get_hash t).
Definition check_hash (t : utx) : bool := beqb (u_hash t) (get_hash t).

(** signature_hash(true) (318-328): what the sender signs. *)
Definition signing_payload (u : unsigned) (chain : option N) : bytes := enc_unsigned u chain None.
Definition signature_hash (t : utx) : bytes := keccak (signing_payload (u_unsigned t) (u_chain t)).

(** secp256k1_recover: message hash and 65-byte signature to the 64-byte public key. *)
Variable recover : bytes -> bytes -> option bytes.

(** SignatureComponents::as_bytes (366-380). *)
Definition sig_bytes (s : sigc) : bytes := sg_r s ++ sg_s s ++ [sg_v s].

(** public_to_address (519-524) and H256 -> H160 conversion: the last 20 bytes. *)
Definition low20 (h : bytes) : bytes := skipn 12 h.
Definition public_to_address (p : bytes) : bytes := low20 (keccak p).

(** protocol/src/types/interoperation.rs:56-60, 87-92 (derived RLP):
    CellDepWithPubKey { cell_dep: CellDep { tx_hash, index: u32, dep_type: u8 }, pub_key }. *)
Definition dec_cell_dep (b : bytes) : option (bytes * N * N) :=
  let? h := val_at (dec_hash 32) b 0 in
  let? i := val_at (dec_uint 4) b 1 in
  let? d := val_at (dec_uint 1) b 2 in
  Some (h, i, d).
Definition dec_cell_dep_with_pub_key (b : bytes) : option ((bytes * N * N) * bytes) :=
  let? c := val_at dec_cell_dep b 0 in
  let? p := val_at dec_value b 1 in
  Some (c, p).

(** extract_interoperation_tx_sender (types/transaction.rs:407-417); [self.r[0]] panics when r is empty. *)
Definition interop_sender (s : sigc) : outcome bytes :=
  match sg_r s with
  | [] => Panic
  | 0 :: r' =>
      match dec_cell_dep_with_pub_key r' with
      | Some (_, pk) => Ok (low20 (keccak pk))
      | None => Err
      end
  | _ => Err
  end.

(** Sender and public key of a signed transaction: the common part of
    SignedTransaction::decode (codec/transaction.rs:343-356) and
    from_unverified (types/transaction.rs:441-460). *)
Definition sender_of (t : utx) (s : sigc) : outcome (bytes * bytes) :=
  if is_eth_sig s then
    match recover (signature_hash t) (sig_bytes s) with
    | Some p => Ok (public_to_address p, p)
    | None => Err
    end
  else
    match interop_sender s with
    | Ok a => Ok (a, repeat 0 64)
    | Err => Err
    | Panic => Panic
    end.

(** SignedTransaction::from_unverified (types/transaction.rs:433-461). *)
Definition from_unverified (t : utx) : outcome stx :=
  match u_sig t with
  | None => Err
  | Some s =>
      match sender_of t s with
      | Ok (a, p) => Ok (Stx (calc_hash t) a (Some p))
      | Err => Err
      | Panic => Panic
      end
  end.

(** impl Encodable for SignedTransaction (codec/transaction.rs:329-333). *)
Definition enc_stx (t : stx) : bytes := enc_str (enc_utx (s_tx t)).

(** impl Decodable for SignedTransaction (335-364). *)
Definition dec_stx (b : bytes) : outcome stx :=
  match data_ b with
  | None => Err
  | Some raw =>
      match dec_utx raw with
      | Ok t =>
          match u_sig t with
          | None => Err
          | Some s =>
              match sender_of t s with
              | Ok (a, p) => Ok (Stx t a (Some p))
              | Err => Err
              | Panic => Panic
              end
          end
      | Err => Err
      | Panic => Panic
      end
  end.

(** BatchSignedTxs (types/batch.rs:3-35): rlp list of signed transactions.
    [as_list] decodes the items in order and stops at the first error or panic. *)
Fixpoint map_outcome {A B} (f : A -> outcome B) (l : list A) : outcome (list B) :=
  match l with
  | [] => Ok []
  | x :: r =>
      match f x with
      | Ok y => match map_outcome f r with Ok ys => Ok (y :: ys) | Err => Err | Panic => Panic end
      | Err => Err
      | Panic => Panic
      end
  end.
Definition enc_batch (l : list stx) : bytes := enc_list (map enc_stx l).
Definition dec_batch (b : bytes) : outcome (list stx) := map_outcome dec_stx (view_items b).

End Hash.
