(** The command line tool for the metadata cell: validators to cell data and back.
    Models /repo/devtools/metadata-cli/src/main.rs 16-215, serde_helpers.rs and /repo/protocol/src/types/primitive.rs 211-232, with the
    encoding of the molecule library.

    The widths of the fields are those of data.example.hex beside the tool (the schema is in the crate axon-types, which is not in /repo);
    the order of the two weights and the count, which that file does not show, is assumed to be
    propose_weight, vote_weight, propose_count.
    Simplifications: JSON and TOML are read and written by arguments (from text to a tree and back); white space is that of ASCII; a
    structure written as an array of its fields, which serde takes too, is refused; secp256k1 is an argument; writes that begin are finished;
    messages are left out. *)
From Verif Require Import Bytes Rlp TxModel NetModel Web3Model HexModel.
From Coq Require Import NArith ZArith List.
Import ListNotations.
Local Open Scope N_scope.

(* ---------------- molecule ---------------- *)
(** pack_number, unpack_number: 32 bits, little endian; [as u32] drops what does not fit. *)
Definition number (n : N) : bytes := le_fixed 4 n.
Definition read_number (b : bytes) : N := le_val (firstn 4 b).
(** Builders of tables and vectors of items of any size: total size, offset of each item, the items. *)
Fixpoint offsets (o : N) (fs : list bytes) : list N :=
  match fs with [] => [] | f :: q => o :: offsets (o + len f) q end.
Definition dyn_enc (fs : list bytes) : bytes :=
  let h := 4 * (1 + N.of_nat (length fs)) in
  number (h + len (concat fs)) ++ concat (map number (offsets h fs)) ++ concat fs.

(** Readers: [verify] with its checks in order, then the slices between the offsets. *)
Fixpoint numbers (k : nat) (b : bytes) : list N :=
  match k with O => [] | S k' => read_number b :: numbers k' (skipn 4 b) end.
Fixpoint ordered (l : list N) : bool :=
  match l with a :: ((b :: _) as q) => (a <=? b) && ordered q | _ => true end.
Fixpoint slices (b : bytes) (l : list N) : list bytes :=
  match l with
  | o :: ((o' :: _) as q) => firstn (N.to_nat (o' - o)) (skipn (N.to_nat o) b) :: slices b q
  | _ => []
  end.
Definition dyn_dec (b : bytes) : option (list bytes) :=
  if len b <? 4 then None
  else
    let total := read_number b in
    if negb (len b =? total) then None
    else if len b =? 4 then Some []
    else if len b <? 8 then None
    else
      let first := read_number (skipn 4 b) in
      if negb (first mod 4 =? 0) || (first <? 8) || (len b <? first) then None
      else
        let offs := numbers (N.to_nat (first / 4 - 1)) (skipn 4 b) ++ [total] in
        if ordered offs then Some (slices b offs) else None.
(** A table: as many fields as the schema has, not more ([from_slice] is not [from_compatible_slice]). *)
Definition table_dec (n : nat) (b : bytes) : option (list bytes) :=
  let? fs := dyn_dec b in if (length fs =? n)%nat then Some fs else None.
(** Fields of fixed width. *)
Fixpoint widths (ws : list N) (fs : list bytes) : bool :=
  match ws, fs with
  | [], [] => true
  | w :: ws', f :: fs' => (len f =? w) && widths ws' fs'
  | _, _ => false
  end.

(* ---------------- the schema ---------------- *)
(** Validator (main.rs 16-37) *)
Record validator := Validator { v_bls : bytes; v_pub : bytes; v_count : N; v_propose : N; v_vote : N }.

(** axon_types::metadata::{Validator, ValidatorList, Metadata, MetadataList, TypeIds, MetadataCellData}: widths of the fields. *)
Definition W_validator : list N := [48; 33; 20; 4; 4; 8].
Definition W_meta_before : list N := [4; 4; 2; 8; 8; 4].
Definition W_meta_after : list N := [4; 4; 4; 4; 4; 4; 8].
Definition W_type_ids : list N := repeat 32 17.
Definition W_cell : list N := [1; 8; 16; 8; 1; 1; 32].

Definition validator_ok (b : bytes) : bool :=
  match table_dec 6 b with Some fs => widths W_validator fs | None => false end.
(** The items of a vector, all of which pass. *)
Definition vec_dec (ok : bytes -> bool) (b : bytes) : option (list bytes) :=
  let? fs := dyn_dec b in if forallb ok fs then Some fs else None.
Definition metadata_ok (b : bytes) : bool :=
  match table_dec 14 b with
  | Some fs => widths W_meta_before (firstn 6 fs) && match vec_dec validator_ok (nth 6 fs []) with Some _ => true | None => false end &&
      widths W_meta_after (skipn 7 fs)
  | None => false
  end.
Definition type_ids_ok (b : bytes) : bool :=
  match table_dec 17 b with Some fs => widths W_type_ids fs | None => false end.
(** MetadataCellDataReader::from_slice with metadata (188-189): the list of metadata of data that passes all checks. *)
Definition cell_dec (b : bytes) : option (list bytes) :=
  let? fs := table_dec 9 b in
  if widths W_cell (firstn 7 fs) && type_ids_ok (nth 7 fs []) then vec_dec metadata_ok (nth 8 fs []) else None.

(** Default values: zeros, and empty lists. *)
Definition zeros (ws : list N) : list bytes := map (fun w => repeat 0 (N.to_nat w)) ws.
(** metadata_cell_data_with_validators (69-77), of the encoded validators *)
Definition cell_enc (vs : list bytes) : bytes :=
  dyn_enc (zeros W_cell ++ [dyn_enc (zeros W_type_ids); dyn_enc [dyn_enc (zeros W_meta_before ++ [dyn_enc vs] ++ zeros W_meta_after)]]).

(* ---------------- trees of JSON and TOML ---------------- *)
Inductive value := VInt (z : Z) | VStr (s : text) | VArr (l : list value) | VObj (l : list (text * value)) | VOther.

(** The names of the fields. *)
Definition K_bls : text := [98; 108; 115; 95; 112; 117; 98; 95; 107; 101; 121].
Definition K_pub : text := [112; 117; 98; 95; 107; 101; 121].
Definition K_count : text := [112; 114; 111; 112; 111; 115; 101; 95; 99; 111; 117; 110; 116].
Definition K_propose : text := [112; 114; 111; 112; 111; 115; 101; 95; 119; 101; 105; 103; 104; 116].
Definition K_vote : text := [118; 111; 116; 101; 95; 119; 101; 105; 103; 104; 116].
Definition K_validators : text := [118; 97; 108; 105; 100; 97; 116; 111; 114; 115].
Definition K_verifier_list : text := [118; 101; 114; 105; 102; 105; 101; 114; 95; 108; 105; 115; 116].
Definition K_params : text := [112; 97; 114; 97; 109; 115].

(** A field under one of its names: absent, once, or an error (serde refuses a field that comes twice, under whatever name). *)
Definition field (names : list text) (l : list (text * value)) : option (option value) :=
  match filter (fun e => existsb (beqb (fst e)) names) l with
  | [] => Some None
  | [e] => Some (Some (snd e))
  | _ => None
  end.
(** HexBytes (serde_helpers.rs 24-40) *)
Definition read_bytes (w : N) (v : value) : option bytes :=
  match v with
  | VStr s => let? b := hex_decode s in if len b =? w then Some b else None
  | _ => None
  end.
(** PickFirst<(_, HexU64)>, PickFirst<(_, HexU32)> (serde_helpers.rs 42-71) *)
Definition read_num (bits : N) (v : value) : option N :=
  match v with
  | VInt z => if (0 <=? z)%Z && (Z.to_N z <? 2 ^ bits) then Some (Z.to_N z) else None
  | VStr s => if starts P0x s then let? n := parse_u64 16 (skipn 2 s) in if n <? 2 ^ bits then Some n else None else None
  | _ => None
  end.
(** #[serde(default)] *)
Definition opt_num (bits : N) (o : option value) : option N := match o with Some v => read_num bits v | None => Some 0 end.

Definition read_validator (v : value) : option validator :=
  match v with
  | VObj l =>
      let? b := field [K_bls] l in let? b := b in let? bls := read_bytes 48 b in
      let? p := field [K_pub] l in let? p := p in let? pub := read_bytes 33 p in
      let? c := field [K_count] l in let? count := opt_num 64 c in
      let? w := field [K_propose] l in let? propose := opt_num 32 w in
      let? x := field [K_vote] l in let? vote := opt_num 32 x in
      Some (Validator bls pub count propose vote)
  | _ => None
  end.
Fixpoint all {A B} (f : A -> option B) (l : list A) : option (list B) :=
  match l with [] => Some [] | x :: q => let? y := f x in let? r := all f q in Some (y :: r) end.
(** Input (79-83) *)
Definition read_input (v : value) : option (list validator) :=
  match v with
  | VObj l => let? f := field [K_validators; K_verifier_list] l in let? x := f in
      match x with VArr vs => all read_validator vs | _ => None end
  | _ => None
  end.
(** The input of a TOML file (134-141): the table params of a chain specification if there is one. *)
Definition read_toml_input (v : value) : option (list validator) :=
  match v with
  | VObj l => match field [K_params] l with Some (Some (VObj p)) => read_input (VObj p) | _ => read_input v end
  | _ => None
  end.

(** Serialisation of Input: [None] for a number that TOML has no place for (64 bits with sign). *)
Definition show_validator (v : validator) : option value :=
  if v_count v <? 2 ^ 63 then
    Some (VObj [(K_bls, VStr (hex_text (v_bls v))); (K_pub, VStr (hex_text (v_pub v))); (K_count, VInt (Z.of_N (v_count v)));
      (K_propose, VInt (Z.of_N (v_propose v))); (K_vote, VInt (Z.of_N (v_vote v)))])
  else None.
Definition show_input (vs : list validator) : option value :=
  let? l := all show_validator vs in Some (VObj [(K_validators, VArr l)]).

(* ---------------- the commands ---------------- *)
Definition is_space (c : N) : bool := ((9 <=? c) && (c <=? 13)) || (c =? 32).
Fixpoint trim_start (t : text) : text :=
  match t with c :: q => if is_space c then trim_start q else t | [] => [] end.
Definition trim (t : text) : text := rev (trim_start (rev (trim_start t))).

(** Files by path. *)
Definition files := bytes -> option bytes.
Definition put (fs : files) (p b : bytes) : files := fun q => if beqb q p then Some b else fs q.

Section cli.
  Variable keccak : bytes -> bytes.
  (** Secp256k1PublicKey::try_from with to_uncompressed_bytes *)
  Variable uncompress : bytes -> option bytes.
  Variable utf8 : bytes -> bool.
  Variable read_json read_toml : text -> option value.
  Variable write_toml : value -> text.

  (** Address::from_pubkey_bytes (primitive.rs 211-232) of a key of 33 bytes *)
  Definition address_of (p : bytes) : option bytes := let? u := uncompress p in Some (skipn 12 (keccak (skipn 1 u))).
  (** From<Validator> (38-51): the unwrap of the address panics when the key is no point. *)
  Definition enc_validator (v : validator) : option bytes :=
    let? a := address_of (v_pub v) in
    Some (dyn_enc [v_bls v; v_pub v; a; le_fixed 4 (v_propose v); le_fixed 4 (v_vote v); le_fixed 8 (v_count v)]).
  (** From<&ValidatorReader> (53-67): the address is left out. *)
  Definition dec_validator (b : bytes) : validator :=
    match dyn_dec b with
    | Some [bls; pub; _; w; x; c] => Validator bls pub (le_val c) (le_val w) (le_val x)
    | _ => Validator [] [] 0 0 0
    end.

  (** GetData::run (122-153) and ParseData::run (165-208): the files afterwards, what is printed, and how the process ends.  The output is
      opened, which empties it, after the input is read and before anything of it is understood; [opens] says whether that succeeds. *)
  Record result := Result { r_files : files; r_printed : text; r_end : outcome unit }.
  Definition emit (fs : files) (out : option bytes) (t : text) : result :=
    match out with Some o => Result (put fs o t) [] (Ok tt) | None => Result fs t (Ok tt) end.

  (** The input (132-142). *)
  Definition parse_input (t : text) : option (list validator) :=
    if starts [123] (trim_start t) then let? v := read_json t in read_input v
    else let? v := read_toml t in read_toml_input v.
  Definition get_data (fs : files) (input : bytes) (out : option bytes) (opens binary : bool) : result :=
    match fs input with
    | None => Result fs [] Err
    | Some t =>
        if negb (utf8 t) then Result fs [] Err
        else if match out with Some _ => negb opens | None => false end then Result fs [] Err
        else
          let fs1 := match out with Some o => put fs o [] | None => fs end in
          match parse_input t with
          | None => Result fs1 [] Err
          | Some vs =>
              match all enc_validator vs with
              | None => Result fs1 [] Panic
              | Some es => emit fs1 out (if binary then cell_enc es else hex_text (cell_enc es) ++ [10])
              end
          end
    end.

  (** The validators of the first metadata (188-199). *)
  Definition parse_cell (b : bytes) : option (list validator) :=
    let? ms := cell_dec b in
    match ms with
    | m :: _ => let? fs := dyn_dec m in let? vs := dyn_dec (nth 6 fs []) in Some (map dec_validator vs)
    | [] => None
    end.
  Definition parse_text (t : text) : option (list validator) := let? b := hex_decode (trim t) in parse_cell b.
  Definition parse_data (fs : files) (input : bytes) (out : option bytes) (opens : bool) : result :=
    match fs input with
    | None => Result fs [] Err
    | Some t =>
        if negb (utf8 t) then Result fs [] Err
        else if match out with Some _ => negb opens | None => false end then Result fs [] Err
        else
          let fs1 := match out with Some o => put fs o [] | None => fs end in
          match (let? vs := parse_text t in show_input vs) with
          | Some v => emit fs1 out (write_toml v)
          | None => Result fs1 [] Err
          end
    end.
End cli.
