(** The text forms of bytes, numbers, block identifiers and addresses.
    Models /repo/protocol/src/types/primitive.rs 91-175 (Hex), 196-290, 650-690 (Address), /repo/protocol/src/codec/mod.rs 71-133,
    154-186, /repo/core/api/src/jsonrpc/web3_types.rs 326-456 (BlockId), /repo/devtools/axon-tools/src/types.rs 583-696 and hex.rs.
    A text is the list of its bytes.  Simplifications: JSON quoting is left out, errors carry no message; letter case is that of ASCII
    (to_lowercase and to_uppercase of Rust also change other letters), so the functions on addresses are those of ASCII texts. *)
From Verif Require Import Bytes TxModel NetModel Web3Model.
From Coq Require Import NArith List.
Import ListNotations.
Local Open Scope N_scope.

Definition text := list N.
(** "0x", "0X" *)
Definition P0x : text := [48; 120].
Definition P0X : text := [48; 88].
(** starts_with *)
Fixpoint starts (p t : text) : bool :=
  match p, t with
  | [], _ => true
  | x :: p', y :: t' => (x =? y) && starts p' t'
  | _, [] => false
  end.

(* ---------------- bytes ---------------- *)
(** faster_hex::hex_string: two lower case digits per byte. *)
Definition hex_digit (d : N) : N := if d <? 10 then 48 + d else 87 + d.
Definition hex_encode (b : bytes) : text := flat_map (fun x => [hex_digit (x / 16); hex_digit (x mod 16)]) b.
(** faster_hex::hex_decode: an even number of digits of either case. *)
Fixpoint hex_pairs (t : text) : option bytes :=
  match t with
  | [] => Some []
  | [_] => None
  | h :: l :: r =>
      match digit_val 16 h, digit_val 16 l, hex_pairs r with
      | Some a, Some b, Some q => Some (a * 16 + b :: q)
      | _, _, _ => None
      end
  end.
(** hex_decode (codec/mod.rs 75-92): one prefix is dropped. *)
Definition hex_decode (t : text) : option bytes := hex_pairs (if starts P0x t then skipn 2 t else t).
(** Hex::as_string (113-115), the same as its serialisation (153-160); Hex::from_str (135-146). *)
Definition hex_text (b : bytes) : text := P0x ++ hex_encode b.
Definition hex_from_str (t : text) : option bytes := if starts P0x t then hex_decode (skipn 2 t) else None.
(** decode_256bits_key (112-133). *)
Definition decode_256bits_key (t : text) : option bytes :=
  if starts P0x t || starts P0X t then if (length t =? 66)%nat then hex_pairs (skipn 2 t) else None else None.

(* ---------------- numbers ---------------- *)
(** to_hex_raw (154-186) of a non-empty byte string, with the leading zero skipped. *)
Definition to_hex_raw (b : bytes) : text :=
  match b with
  | [] => P0x
  | x :: r => P0x ++ (if x / 16 =? 0 then [] else [hex_digit (x / 16)]) ++ [hex_digit (x mod 16)] ++ hex_encode r
  end.
Fixpoint drop_zeros (b : bytes) : bytes :=
  match b with 0 :: r => drop_zeros r | _ => b end.
(** serialize_uint (94-110). *)
Definition serialize_uint (n : N) : text :=
  match drop_zeros (be_fixed 32 n) with [] => P0x ++ [48] | b => to_hex_raw b end.

(* ---------------- block identifiers ---------------- *)
Definition LATEST : text := [108; 97; 116; 101; 115; 116].
Definition EARLIEST : text := [101; 97; 114; 108; 105; 101; 115; 116].
Definition PENDING : text := [112; 101; 110; 100; 105; 110; 103].
(** visit_str (441-456); "latest", "earliest", "pending" do not start with "0x". *)
Definition bid_of_str (t : text) : option bid :=
  if beqb t LATEST then Some BLatest
  else if beqb t EARLIEST then Some BEarliest
  else if beqb t PENDING then Some BPending
  else if starts P0x t then option_map BNum (parse_u64 16 (skipn 2 t))
  else None.
(** visit_map (384-439): the first key decides; serde_json then asks for the end of the object (Deserializer::end_map), so a second member is an
    error.  A value that is no string fails. *)
Inductive bid_key := KNumber | KHash | KOther.
Definition bid_of_map (l : list (bid_key * option text)) : option bid :=
  match l with
  | [(KNumber, Some v)] => if starts P0x v then option_map BNum (parse_u64 16 (skipn 2 v)) else None
  | [(KHash, Some v)] =>
      match hex_from_str v with
      | Some b => if (length b =? 32)%nat then Some (BHash b) else None
      | None => None
      end
  | _ => None
  end.
(** LowerHex of U64, as [format!("{:x}")] writes it: no prefix, no leading zero. *)
Fixpoint hex_aux (fuel : nat) (n : N) (acc : text) : text :=
  match fuel with
  | O => acc
  | S f => let acc' := hex_digit (n mod 16) :: acc in if n / 16 =? 0 then acc' else hex_aux f (n / 16) acc'
  end.
Definition lower_hex (n : N) : text := hex_aux 16 n [].
(** Serialize for BlockId (355-367). *)
Definition bid_text (i : bid) : text :=
  match i with
  | BNum n => lower_hex n
  | BHash h => hex_encode h
  | BLatest => LATEST | BEarliest => EARLIEST | BPending => PENDING
  end.

(* ---------------- addresses ---------------- *)
Definition lower (c : N) : N := if (65 <=? c) && (c <=? 90) then c + 32 else c.
Definition upper (c : N) : N := if (97 <=? c) && (c <=? 122) then c - 32 else c.
(** trim_start_matches("0x") *)
Fixpoint trim_0x (fuel : nat) (t : text) : text :=
  match fuel with
  | O => t
  | S f => if starts P0x t then trim_0x f (skipn 2 t) else t
  end.
Section Checksum.
  Variable keccak : bytes -> bytes.
  (** The fold of checksum (673-686): the slice of the 64 digits of the hash panics beyond them. *)
  Fixpoint case_by (digits : text) (t : text) : outcome text :=
    match t with
    | [] => Ok []
    | c :: r =>
        match digits with
        | [] => Panic
        | d :: ds =>
            match case_by ds r with
            | Ok q => Ok ((if 7 <? match digit_val 16 d with Some n => n | None => 0 end then upper c else c) :: q)
            | Err => Err | Panic => Panic
            end
        end
    end.
  (** checksum (668-687) *)
  Definition checksum (t : text) : outcome text :=
    let a := map lower (trim_0x (length t) t) in
    match case_by (hex_encode (keccak a)) a with Ok q => Ok (P0x ++ q) | Err => Err | Panic => Panic end.
  (** Display for Address (284-290); eip55, and Serialize, are the same. *)
  Definition address_text (a : bytes) : outcome text := checksum (hex_encode a).
  (** clean_0x (659-665), from_bytes (243-246), from_hex (252-256) *)
  Definition address_from_hex (t : text) : option bytes :=
    if starts P0x t || starts P0X t then
      match hex_decode (skipn 2 t) with
      | Some b => if (length b =? 20)%nat then Some b else None
      | None => None
      end
    else None.
  (** FromStr for Address (263-273) *)
  Definition address_from_str (t : text) : outcome bytes :=
    match checksum t with
    | Ok c => if beqb c t then of_option (address_from_hex (map lower t)) else Err
    | Err => Err | Panic => Panic
    end.
End Checksum.

(* ---------------- the readers of the light client ---------------- *)
(** A slice of a str must begin and end at a character: not before a continuation byte. *)
Definition boundary (t : text) (i : nat) : bool :=
  match nth_error t i with Some c => negb ((128 <=? c) && (c <? 192)) | None => true end.
(** u8::from_str_radix(_, 16) *)
Definition parse_u8 (t : text) : option N :=
  match t with
  | [] => None
  | c :: r =>
      let ds := if (c =? 43) then r else t in
      match ds with
      | [] => None
      | _ => match parse_digits 16 0 ds with Some n => if n <? 256 then Some n else None | None => None end
      end
  end.
(** from_hex (638-657): a lone first digit, then pairs. *)
Fixpoint tools_pairs (fuel : nat) (t : text) : outcome bytes :=
  match fuel with
  | O => Ok []
  | S f =>
      match t with
      | [] => Ok []
      | _ =>
          if negb (boundary t 2) then Panic
          else match parse_u8 (firstn 2 t) with
               | None => Err
               | Some x => match tools_pairs f (skipn 2 t) with Ok q => Ok (x :: q) | Err => Err | Panic => Panic end
               end
      end
  end.
Definition tools_from_hex (t : text) : outcome bytes :=
  if Nat.odd (length t) then
    if negb (boundary t 1) then Panic
    else match parse_u8 (firstn 1 t) with
         | None => Err
         | Some x => match tools_pairs (length t) (skipn 1 t) with Ok q => Ok (x :: q) | Err => Err | Panic => Panic end
         end
  else tools_pairs (length t) t.
(** deserialize_hex_u64, deserialize_hex_u32 (659-696); U256::from_big_endian panics beyond 32 bytes, low_u64 and low_u32 cut. *)
Definition tools_uint (bits : N) (t : text) : outcome N :=
  if beqb t (P0x ++ [48]) then Ok 0
  else if (2 <=? length t)%nat then
    if negb (boundary t 2) then Panic
    else if starts P0x t then
      match tools_from_hex (skipn 2 t) with
      | Ok b => if (32 <? length b)%nat then Panic else Ok (be_val b mod 2 ^ bits)
      | Err => Err | Panic => Panic
      end
    else Err
  else Err.
