(** Model of the [rlp] crate, version 0.5.2 (Cargo.lock:6080), as used by the
    codecs of /repo/protocol/src/codec/*.rs.  The crate's source is not part of /repo; the
    definitions follow its published source: [RlpStream] / [BasicEncoder]
    (rlp/src/stream.rs), [Rlp], [PayloadInfo], [BasicDecoder] (rlp/src/rlpin.rs)
    and the integer/byte impls (rlp/src/impls.rs, impl-rlp).

    Simplifications: decoder errors are all identified ([None]); the Rust [usize] length
    arithmetic is done in unbounded [N] (a declared length above the buffer
    length is rejected either way). *)
From Verif Require Import Bytes.

(* ------------------------------------------------------------------ *)
(** * Encoder *)

(** Length header: rlp [BasicEncoder::insert_size]/[encode_value]; [base] is 0x80 or 0xc0. *)
Definition enc_header (base : N) (l : N) : bytes :=
  if l <? 56 then [base + l] else (base + 55 + N.of_nat (nbytes l)) :: be_min l.

(** [BasicEncoder::encode_value]: byte string. *)
Definition enc_str (b : bytes) : bytes :=
  match b with
  | [x] => if x <? 128 then [x] else enc_header 128 (len b) ++ b
  | _ => enc_header 128 (len b) ++ b
  end.

(** [begin_list(n)] followed by the already encoded items. *)
Definition enc_list (items : list bytes) : bytes :=
  let p := concat items in enc_header 192 (len p) ++ p.

(** Unsigned integers ([u8]..[u64], [U64], [U256]): minimal big-endian string. *)
Definition enc_uint (n : N) : bytes := enc_str (be_min n).

(** [bool] is encoded as the integer 0/1. *)
Definition enc_bool (b : bool) : bytes := enc_uint (if b then 1 else 0).

(** Fixed-size hashes H160/H256/Bloom: the raw bytes as a string. *)
Definition enc_hash (h : bytes) : bytes := enc_str h.

(** [Option<T>]: empty list or one-element list. *)
Definition enc_option (o : option bytes) : bytes :=
  match o with None => enc_list [] | Some x => enc_list [x] end.

(* ------------------------------------------------------------------ *)
(** * Reader *)

(** [decode_usize] followed by the checks of [calculate_payload_info]:
    the first length byte must not be zero, all length bytes must be present and the
    length must exceed 55. *)
Definition long_len (lol : nat) (tl : bytes) : option N :=
  match tl with
  | [] => None
  | x :: _ =>
      if x =? 0 then None
      else if (length tl <? lol)%nat then None
      else let v := be_val (firstn lol tl) in if v <=? 55 then None else Some v
  end.

(** [PayloadInfo::from]: header length and value length announced by the first bytes. *)
Definition payload_hdr (b : bytes) : option (nat * N) :=
  match b with
  | [] => None
  | l :: tl =>
      if l <=? 127 then Some (0%nat, 1)
      else if l <=? 183 then Some (1%nat, l - 128)
      else if l <=? 191 then
        let lol := N.to_nat (l - 183) in
        match long_len lol tl with Some v => Some (S lol, v) | None => None end
      else if l <=? 247 then Some (1%nat, l - 192)
      else
        let lol := N.to_nat (l - 247) in
        match long_len lol tl with Some v => Some (S lol, v) | None => None end
  end.

(** [BasicDecoder::payload_info]: additionally the whole item must be present. *)
Definition payload_info (b : bytes) : option (nat * nat) :=
  match payload_hdr b with
  | Some (h, v) =>
      if N.of_nat h + v <=? len b then Some (h, N.to_nat v) else None
  | None => None
  end.

(** First item of a buffer and what follows it. *)
Definition next_item (b : bytes) : option (bytes * bytes) :=
  match payload_info b with
  | Some (h, v) => Some (firstn (h + v) b, skipn (h + v) b)
  | None => None
  end.

(** Items read one after the other until the first failure ([RlpIterator]
    stops at the first [Err]).  Fuel: every item has at least one byte. *)
Fixpoint parse_items (fuel : nat) (b : bytes) : list bytes :=
  match fuel with
  | O => []
  | S f =>
      match next_item b with
      | Some (i, r) => i :: parse_items f r
      | None => []
      end
  end.

(** [Rlp::is_list], [Rlp::is_data]. *)
Definition is_list (b : bytes) : bool :=
  match b with [] => false | x :: _ => 192 <=? x end.
Definition is_data (b : bytes) : bool := negb (is_list b).

(** [Rlp::is_empty]. *)
Definition is_empty_item (b : bytes) : bool :=
  match b with [] => false | x :: _ => (x =? 192) || (x =? 128) end.

(** Items reached by reading indexes 0, 1, 2, ... in ascending order through the offset cache of [Rlp::at]:
    item 0 is looked up inside the list payload, the following ones are taken
    from the *whole* underlying buffer behind the previous item. *)
Definition view_items (b : bytes) : list bytes :=
  if is_list b then
    match payload_info b with
    | None => []
    | Some (h, v) =>
        match next_item (firstn v (skipn h b)) with
        | None => []
        | Some (i0, _) =>
            let r := skipn (h + length i0) b in
            i0 :: parse_items (length r) r
        end
    end
  else [].

(** Items reached when [Rlp::at] restarts from the beginning of the list (index lower than
    the cached one): confined to the list payload. *)
Definition inner_items (b : bytes) : list bytes :=
  if is_list b then
    match payload_info b with
    | None => []
    | Some (h, v) =>
        let p := firstn v (skipn h b) in parse_items (length p) p
    end
  else [].

(** [Rlp::at(i)] in an ascending scan / after a restart. *)
Definition at_ (b : bytes) (i : nat) : option bytes := nth_error (view_items b) i.
Definition at_restart (b : bytes) (i : nat) : option bytes := nth_error (inner_items b) i.

(** [Rlp::item_count]: error on data. *)
Definition item_count (b : bytes) : option nat :=
  if is_list b then Some (length (view_items b)) else None.

(** [Rlp::size]: payload length of a data item, 0 for a list or a broken item. *)
Definition size_ (b : bytes) : nat :=
  if is_data b then match payload_info b with Some (_, v) => v | None => 0%nat end else 0%nat.

(** [Rlp::data]: payload of an item. *)
Definition data_ (b : bytes) : option bytes :=
  match payload_info b with
  | Some (h, v) => Some (firstn v (skipn h b))
  | None => None
  end.

(** [BasicDecoder::decode_value]: byte-string payload. *)
Definition dec_value (b : bytes) : option bytes :=
  match b with
  | [] => None
  | l :: tl =>
      if l <=? 127 then Some [l]
      else if l <=? 183 then
        let n := N.to_nat (l - 128) in
        if (length tl <? n)%nat then None
        else
          let d := firstn n tl in
          match d with
          | [x] => if x <? 128 then None else Some d
          | _ => Some d
          end
      else if l <=? 191 then
        let lol := N.to_nat (l - 183) in
        if (length tl <? lol)%nat then None
        else
          match tl with
          | 0 :: _ => None                    (* decode_usize: leading zero *)
          | _ =>
              let n := be_val (firstn lol tl) in
              if len tl <? N.of_nat lol + n then None
              else Some (firstn (N.to_nat n) (skipn lol tl))
          end
      else None
  end.

(** Unsigned integer of [w] bytes: no leading zero, at most [w] bytes. *)
Definition dec_uint (w : nat) (b : bytes) : option N :=
  match dec_value b with
  | Some d =>
      match d with
      | 0 :: _ => None
      | _ => if (length d <=? w)%nat then Some (be_val d) else None
      end
  | None => None
  end.

(** Fixed-size hash of [k] bytes. *)
Definition dec_hash (k : nat) (b : bytes) : option bytes :=
  match dec_value b with
  | Some d => if (length d =? k)%nat then Some d else None
  | None => None
  end.

(** [bool]: an integer that must be 0 or 1. *)
Definition dec_bool (b : bytes) : option bool :=
  match dec_uint 1 b with
  | Some 0 => Some false
  | Some 1 => Some true
  | _ => None
  end.

(** [collect::<Result<Vec<_>,_>>]. *)
Fixpoint map_opt {A B} (f : A -> option B) (l : list A) : option (list B) :=
  match l with
  | [] => Some []
  | x :: r =>
      match f x with
      | Some y => match map_opt f r with Some ys => Some (y :: ys) | None => None end
      | None => None
      end
  end.

(** [Rlp::as_list]: decode every item the iterator yields (a data item yields none). *)
Definition dec_list {A} (f : bytes -> option A) (b : bytes) : option (list A) :=
  map_opt f (view_items b).

(** [Option<T>]. *)
Definition dec_option {A} (f : bytes -> option A) (b : bytes) : option (option A) :=
  match item_count b with
  | Some 0%nat => Some None
  | Some 1%nat =>
      match at_restart b 0 with
      | Some i => match f i with Some x => Some (Some x) | None => None end
      | None => None
      end
  | _ => None
  end.

(** Monadic notation for [?] on [Result] with errors identified. *)
Definition obind {A B} (o : option A) (f : A -> option B) : option B :=
  match o with Some x => f x | None => None end.
Notation "'let?' x := e1 'in' e2" := (obind e1 (fun x => e2))
  (at level 200, x pattern, e1 at level 100, e2 at level 200, right associativity).

(** [rlp.val_at(i)?] in an ascending scan. *)
Definition val_at {A} (f : bytes -> option A) (b : bytes) (i : nat) : option A :=
  let? x := at_ b i in f x.
