(** What the EVM reads from the executor's backend.
    Models /repo/core/executor/src/adapter/backend/read_only.rs:72-191 over the state of ExecModel; the apply adapter
    delegates to the same functions (apply.rs:42-103).

    Simplifications: as in ExecModel, tries are maps and database errors are not modelled. *)
From Verif Require Import Bytes Rlp TxModel BlockModel MempoolModel CellModel MetaModel ExecModel.
From stdpp Require Import base gmap.
Local Open Scope N_scope.

(** exists (read_only.rs:111-115). *)
Definition be_exists (s : xstate) (a : bytes) : bool := match xs_acc s !! a with Some _ => true | None => false end.

(** basic (read_only.rs:117-133): nonce and balance. *)
Definition be_basic (s : xstate) (a : bytes) : N * N :=
  match xs_acc s !! a with Some x => (a_nonce x, a_balance x) | None => (0, 0) end.

(** code (read_only.rs:135-155): a missing code reads as empty (unwrap_or_default). *)
Definition be_code (s : xstate) (a : bytes) : bytes :=
  match xs_acc s !! a with
  | Some x => if beqb (a_code x) NIL_CODE then [] else match xs_code s !! a_code x with Some c => c | None => [] end
  | None => []
  end.

(** storage (read_only.rs:162-186); original_storage (188-191) is the same. *)
Definition be_storage (s : xstate) (a k : bytes) : N :=
  match xs_acc s !! a with Some x => default 0 (a_storage x !! k) | None => 0 end.

(** block_hash (read_only.rs:72-86); [get] is the hash of the stored block with a given number.  The number is cut to
    64 bits after the range check. *)
Definition be_block_hash (current : N) (get : N -> option bytes) (n : N) : bytes :=
  if current <=? n then repeat 0 32
  else if 256 <? current - n then repeat 0 32
  else default (repeat 0 32) (get (n mod 2^64)).
