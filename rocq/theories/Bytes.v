(** Byte strings, big/little endian integers.  Bytes are [N] values below 256.
    Models the primitive conversions used all over /repo: [u64::to_be_bytes],
    [U256::to_big_endian], [U256::from_big_endian] (ethereum-types), and the
    minimal big-endian form produced by the [rlp] crate for integers. *)
From Coq Require Export List NArith ZArith Lia Bool Arith.
From Coq Require Export ZifyBool ZifyNat ZifyN.
Export ListNotations.
Global Open Scope N_scope.

Global Ltac Zify.zify_post_hook ::= Z.div_mod_to_equations.
Global Arguments N.add : simpl never.
Global Arguments N.sub : simpl never.
Global Arguments N.mul : simpl never.
Global Arguments N.div : simpl never.
Global Arguments N.modulo : simpl never.
Global Arguments N.pow : simpl never.
Global Arguments N.leb : simpl never.
Global Arguments N.ltb : simpl never.
Global Arguments N.eqb : simpl never.
Global Arguments N.of_nat : simpl never.
Global Arguments N.to_nat : simpl never.

Definition bytes := list N.

(** A well-formed byte string: every element is a byte. *)
Definition is_byte (b : N) : Prop := b < 256.
Definition wf_bytes (b : bytes) : Prop := Forall is_byte b.
Definition wf_bytesb (b : bytes) : bool := forallb (fun x => x <? 256) b.

(** Length as [N] (Rust [usize]). *)
Definition len (b : bytes) : N := N.of_nat (length b).

(** [k] little-endian base-256 digits of [n]. *)
Fixpoint le_fixed (k : nat) (n : N) : bytes :=
  match k with
  | O => []
  | S k' => (n mod 256) :: le_fixed k' (n / 256)
  end.

(** [k] big-endian digits: [to_be_bytes] / [to_big_endian] for a [8*k]-bit integer. *)
Definition be_fixed (k : nat) (n : N) : bytes := rev (le_fixed k n).

(** Value of a little/big endian digit string: [from_big_endian]. *)
Fixpoint le_val (b : bytes) : N :=
  match b with
  | [] => 0
  | x :: r => x + 256 * le_val r
  end.
Definition be_val (b : bytes) : N := le_val (rev b).

(** Number of significant base-256 digits of [n] (0 for 0). *)
Definition nbytes (n : N) : nat := N.to_nat ((N.size n + 7) / 8).

(** Minimal big-endian digits, empty for zero: what the rlp crate emits as the
    payload of an unsigned integer ([impl_encodable_for_u!], and
    [impl_uint_rlp!] of impl-rlp for U64/U256: leading zero bytes stripped). *)
Definition be_min (n : N) : bytes := be_fixed (nbytes n) n.

(** Byte-string equality. *)
Definition beqb (a b : bytes) : bool := if list_eq_dec N.eq_dec a b then true else false.
