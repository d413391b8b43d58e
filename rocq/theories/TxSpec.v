(** Specification vocabulary for the transaction codec properties (C01-C04):
    well-formedness of transactions and strict RLP trees.  Nothing here refers to
    the model's encoders or decoders except [enc_tree], which uses the
    RLP string/list encoding. *)
From Verif Require Import Bytes Rlp TxModel.

Definition u64_ok (n : N) : Prop := n < 2^64.
Definition u256_ok (n : N) : Prop := n < 2^256.
Definition fixed (k : nat) (b : bytes) : Prop := wf_bytes b /\ length b = k.

Definition wf_action (a : action) : Prop :=
  match a with Call t => fixed 20 t | Create => True end.
Definition wf_access_item (a : access_item) : Prop :=
  fixed 20 (ai_address a) /\ Forall (fixed 32) (ai_keys a).

(** Field widths of the Rust structs. *)
Definition wf_unsigned (u : unsigned) : Prop :=
  match u with
  | Legacy t =>
      u64_ok (l_nonce t) /\ u64_ok (l_gas_price t) /\ u64_ok (l_gas_limit t) /\
      wf_action (l_action t) /\ u256_ok (l_value t) /\ wf_bytes (l_data t)
  | Eip2930 t =>
      u64_ok (e_nonce t) /\ u64_ok (e_gas_price t) /\ u64_ok (e_gas_limit t) /\
      wf_action (e_action t) /\ u256_ok (e_value t) /\ wf_bytes (e_data t) /\
      Forall wf_access_item (e_access t)
  | Eip1559 t =>
      u64_ok (f_nonce t) /\ u64_ok (f_max_prio t) /\ u64_ok (f_gas_price t) /\
      u64_ok (f_gas_limit t) /\ wf_action (f_action t) /\ u256_ok (f_value t) /\
      wf_bytes (f_data t) /\ Forall wf_access_item (f_access t)
  end.

(** An Ethereum signature (two 32-byte words) or an interoperation signature
    (more than 64 bytes in total). *)
Definition wf_sig (s : sigc) : Prop :=
  wf_bytes (sg_r s) /\ wf_bytes (sg_s s) /\ sg_v s < 256 /\
  ((length (sg_r s) = 32 /\ length (sg_s s) = 32)%nat \/ (64 < length (sg_r s) + length (sg_s s))%nat).

(** Chain id and recovery value fit the wire form: legacy transactions carry
    both in one u64, typed transactions always carry a chain id. *)
Definition wf_chain_v (u : unsigned) (chain : option N) (v : N) : Prop :=
  match u with
  | Legacy _ =>
      v < 2 /\ match chain with Some c => c * 2 + 36 < 2^64 | None => True end
  | _ => match chain with Some c => u64_ok c | None => False end
  end.

Definition wf_signed_utx (t : utx) : Prop :=
  wf_unsigned (u_unsigned t) /\
  match u_sig t with
  | Some s => wf_sig s /\ wf_chain_v (u_unsigned t) (u_chain t) (sg_v s)
  | None => False
  end.

(** Strict RLP: a tree of strings and lists, each with its shortest header and
    nothing behind it. *)
Inductive tree := TStr (b : bytes) | TNode (l : list tree).
Fixpoint enc_tree (t : tree) : bytes :=
  match t with TStr b => enc_str b | TNode l => enc_list (map enc_tree l) end.
Fixpoint wf_tree (t : tree) : Prop :=
  match t with
  | TStr b => wf_bytes b
  | TNode l => (fix go (l : list tree) := match l with [] => True | x :: r => wf_tree x /\ go r end) l
  end.
Definition is_node (t : tree) : Prop := match t with TNode _ => True | TStr _ => False end.

(** Storage keys of an access-list entry are given as a list (not as a string). *)
Definition keys_are_list (t : tree) : Prop :=
  match t with TNode [_; ks] => is_node ks | _ => True end.
Definition access_strict (i : nat) (t : tree) : Prop :=
  match t with
  | TNode l => match nth_error l i with
               | Some (TNode es) => Forall keys_are_list es
               | _ => True
               end
  | _ => True
  end.

(** Strict raw transactions: exactly one strict tree, behind the type byte for typed transactions. *)
Inductive strict_raw : bytes -> Prop :=
| strict_legacy t : wf_tree t -> len (enc_tree t) < 2^64 -> strict_raw (enc_tree t)
| strict_2930 t : wf_tree t -> len (enc_tree t) < 2^64 -> access_strict 7 t ->
    strict_raw (1 :: enc_tree t)
| strict_1559 t : wf_tree t -> len (enc_tree t) < 2^64 -> access_strict 8 t ->
    strict_raw (2 :: enc_tree t).
