(** Calls to the system contracts as calldata.
    Models the call enums of /repo/core/executor/src/system_contract/{metadata/abi/metadata_abi,image_cell/abi/image_cell_abi,
    ckb_light_client/abi/ckb_light_client_abi}.rs and the payload of /repo/core/executor/src/precompiles/call_ckb_vm.rs, with the decoder of
    crate ethabi 18 and the derived codecs of crate ethers (not part of /repo; modelled from their source and the ABI specification). *)
From Coq Require Import List NArith Ascii String.
From Verif Require Import Bytes Rlp Keccak.
Import ListNotations.
Local Open Scope N_scope.

(** ParamType, as far as the contracts use it. *)
Inductive ty := TUint (bits : N) | TAddress | TBool | TBytes32 | TBytes | TArray (t : ty) | TTuple (l : tys)
with tys := TNil | TCons (t : ty) (l : tys).
(** Token: numbers and booleans, byte strings (also addresses and bytes32), arrays and tuples *)
Inductive val := VNum (n : N) | VBytes (b : bytes) | VSeq (l : list val).

(** ParamType::is_dynamic *)
Fixpoint dyn (t : ty) : bool :=
  match t with
  | TBytes | TArray _ => true
  | TTuple l => dyns l
  | _ => false
  end
with dyns (l : tys) : bool := match l with TNil => false | TCons t r => dyn t || dyns r end.

(* ---------------------------------------------------------------------- *)
(** * ethabi::decode *)
(** peek_32_bytes *)
Definition peek (data : bytes) (off : N) : option bytes :=
  if off + 32 <=? len data then Some (firstn 32 (skipn (N.to_nat off) data)) else None.
Definition peek_num (data : bytes) (off : N) : option N := match peek data off with Some w => Some (be_val w) | None => None end.
(** as_usize: the upper 28 bytes must be zero *)
Definition peek_usize (data : bytes) (off : N) : option N :=
  match peek_num data off with Some n => if n <? 2 ^ 32 then Some n else None | None => None end.
(** take_bytes *)
Definition take (data : bytes) (off n : N) : option bytes :=
  if off + n <=? len data then Some (firstn (N.to_nat n) (skipn (N.to_nat off) data)) else None.

Section Decode.
  (** what from_token of a narrower integer makes of a word that does not fit: an error or some number *)
  Variable narrow : N -> N -> option N.

  (** decode_param, followed by the conversion of the token: the value, and where the next one stands.  Padding of addresses and byte strings
      is not looked at. *)
  Fixpoint dec (t : ty) (data : bytes) (off : N) {struct t} : option (val * N) :=
    match t with
    | TUint bits =>
        match peek_num data off with
        | Some n => if n <? 2 ^ bits then Some (VNum n, off + 32)
                    else match narrow bits n with Some m => Some (VNum m, off + 32) | None => None end
        | None => None
        end
    | TAddress => match peek data off with Some w => Some (VBytes (skipn 12 w), off + 32) | None => None end
    | TBool => match peek_num data off with Some n => if n <? 256 then Some (VNum (if n =? 1 then 1 else 0), off + 32) else None | None => None end
    | TBytes32 => match take data off 32 with Some w => Some (VBytes w, off + 32) | None => None end
    | TBytes =>
        match peek_usize data off with
        | Some p => match peek_usize data p with
                    | Some n => match take data (p + 32) n with Some b => Some (VBytes b, off + 32) | None => None end
                    | None => None
                    end
        | None => None
        end
    | TArray t' =>
        match peek_usize data off with
        | Some p =>
            match peek_usize data p with
            | Some n =>
                (* the offsets in an array count from after its length *)
                let tail := skipn (N.to_nat (p + 32)) data in
                match (fix items (k : nat) (o : N) : option (list val) :=
                         match k with
                         | O => Some []
                         | S k' => match dec t' tail o with
                                   | Some (v, o') => match items k' o' with Some r => Some (v :: r) | None => None end
                                   | None => None
                                   end
                         end) (N.to_nat n) 0 with
                | Some l => Some (VSeq l, off + 32)
                | None => None
                end
            | None => None
            end
        | None => None
        end
    | TTuple l =>
        if dyns l then
          match peek_usize data off with
          | Some p => if p <=? len data
                      then match decs l (skipn (N.to_nat p) data) 0 with Some (vs, _) => Some (VSeq vs, off + 32) | None => None end
                      else None
          | None => None
          end
        else match decs l data off with Some (vs, o) => Some (VSeq vs, o) | None => None end
    end
  with decs (l : tys) (data : bytes) (off : N) {struct l} : option (list val * N) :=
    match l with
    | TNil => Some ([], off)
    | TCons t r => match dec t data off with
                   | Some (v, o) => match decs r data o with Some (vs, o') => Some (v :: vs, o') | None => None end
                   | None => None
                   end
    end.

  (* ---------------------------------------------------------------------- *)
  (** * The contracts *)
  (** A function: its name and the types of its arguments (the attributes ethcall). *)
  Record fn := Fn { f_name : string; f_args : tys }.
  Definition bytes_of (s : string) : bytes := map N_of_ascii (list_ascii_of_string s).
  (** The decimal digits of a width. *)
  Definition digits (n : N) : string :=
    let d x := String (ascii_of_N (48 + x)) EmptyString in
    if n <? 10 then d n else if n <? 100 then d (n / 10) ++ d (n mod 10) else d (n / 100) ++ d (n / 10 mod 10) ++ d (n mod 10).
  Fixpoint ty_name (t : ty) : string :=
    match t with
    | TUint bits => "uint" ++ digits bits
    | TAddress => "address" | TBool => "bool" | TBytes32 => "bytes32" | TBytes => "bytes"
    | TArray t' => ty_name t' ++ "[]"
    | TTuple l => "(" ++ tys_name l ++ ")"
    end
  with tys_name (l : tys) : string :=
    match l with TNil => "" | TCons t TNil => ty_name t | TCons t r => ty_name t ++ "," ++ tys_name r end.
  Definition signature (f : fn) : string := f_name f ++ "(" ++ tys_name (f_args f) ++ ")".
  (** EthCall::selector *)
  Definition selector (f : fn) : bytes := firstn 4 (keccak256 (bytes_of (signature f))).
  (** decode of one call (derived by EthCall): the selector, then the arguments *)
  Definition dec_call (f : fn) (data : bytes) : option (list val) :=
    if (Nat.ltb (List.length data) 4) then None
    else if negb (beqb (firstn 4 data) (selector f)) then None
    else match decs (f_args f) (skipn 4 data) 0 with Some (vs, _) => Some vs | None => None end.
  (** decode of the enum of calls: the functions one after the other (metadata_abi.rs 168-192, image_cell_abi.rs 161-178, ckb_light_client_abi.rs 148-165) *)
  Fixpoint dec_calls (c : list fn) (data : bytes) : option (string * list val) :=
    match c with
    | [] => None
    | f :: r => match dec_call f data with Some vs => Some (f_name f, vs) | None => dec_calls r data end
    end.
End Decode.

Fixpoint tys_of (l : list ty) : tys := match l with [] => TNil | t :: r => TCons t (tys_of r) end.
Definition tuple (l : list ty) : ty := TTuple (tys_of l).
Definition u8 := TUint 8. Definition u32 := TUint 32. Definition u64 := TUint 64.
(** metadata_abi.rs 227-336 *)
Definition config_ty := tuple [u64; u64; u64; u64; u64; u64; u64; u64; u64].
Definition info_ty := tuple [TBytes32; TBytes32; TBytes32; TBytes32; TBytes32; TBytes32].
Definition validator_ty := tuple [TBytes; TBytes; TAddress; u32; u32].
Definition metadata_ty := tuple [tuple [u64; u64]; u64; TArray validator_ty; TArray (tuple [TAddress; u64]); config_ty].
Definition metadata_contract : list fn :=
  [Fn "appendMetadata" (tys_of [metadata_ty]); Fn "setCkbRelatedInfo" (tys_of [info_ty]); Fn "updateConsensusConfig" (tys_of [config_ty])].
(** image_cell_abi.rs 208-307 *)
Definition outpoint_ty := tuple [TBytes32; u32].
Definition script_ty := tuple [TBytes32; u8; TBytes].
Definition output_ty := tuple [u64; script_ty; TArray script_ty].
Definition cell_ty := tuple [outpoint_ty; output_ty; TBytes].
Definition update_ty := tuple [u64; TArray outpoint_ty; TArray cell_ty].
Definition image_cell_contract : list fn :=
  [Fn "rollback" (tys_of [TArray (tuple [TArray outpoint_ty; TArray outpoint_ty])]); Fn "setState" (tys_of [TBool]); Fn "update" (tys_of [TArray update_ty])].
(** ckb_light_client_abi.rs 196-225 *)
Definition header_ty := tuple [u32; u32; u64; u64; u64; TBytes32; TBytes32; TBytes32; TBytes32; TBytes32; TUint 128; TBytes; TBytes32].
Definition light_client_contract : list fn :=
  [Fn "rollback" (tys_of [TArray TBytes32]); Fn "setState" (tys_of [TBool]); Fn "update" (tys_of [TArray header_ty])].
(** call_ckb_vm.rs 56-79: the payload is decoded without a selector *)
Definition vm_payload : tys := tys_of [tuple [tuple [outpoint_ty; u8]; TArray TBytes]].
