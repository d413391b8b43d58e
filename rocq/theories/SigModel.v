(** Who may send a transaction: the signature check of the pool.
    Models /repo/core/mempool/src/adapter/mod.rs 293-321 (verify_signature), /repo/core/interoperation/src/lib.rs 43-66 (call_ckb_vm),
    /repo/core/executor/src/system_contract/mod.rs 257-264 (get_cell_data), /repo/protocol/src/types/transaction.rs 526-530 and the
    encoding of /repo/protocol/src/types/interoperation.rs 56-60, 87-92.
    It is the function that MempoolModel.v leaves open as [sig_ok].
    Simplifications: secp256k1 verification, the image cells of the latest state and the CKB-VM are arguments; errors of the database
    are not modelled; a program that never ends within its cycles is one that fails. *)
From Verif Require Import Bytes Rlp TxModel MempoolModel.
From Coq Require Import NArith List.
Import ListNotations.
Local Open Scope N_scope.

Section Sig.
  Variable keccak : bytes -> bytes.
  (** Secp256k1Recoverable::verify_signature: digest, 65-byte signature, 65-byte public key. *)
  Variable secp_verify : bytes -> bytes -> bytes -> bool.
  (** ImageCellReader::get_cell at the root of the latest state: the data of a cell by transaction hash and index. *)
  Variable cells : bytes -> N -> option bytes.
  (** The CKB-VM: program, arguments and cycle limit to exit code and cycles, or an error. *)
  Variable vm : bytes -> list bytes -> N -> option (N * N).

  (** call_ckb_vm (interoperation/src/lib.rs 43-66); the type of the dependency is not looked at. *)
  Definition call_ckb_vm (dep : bytes * N * N) (args : list bytes) (max_cycles : N) : outcome (N * N) :=
    let '(tx_hash, index, _) := dep in
    match cells tx_hash index with
    | None => Err
    | Some program => of_option (vm program args max_cycles)
    end.
  (** recover_intact_pub_key (types/transaction.rs 526-530). *)
  Definition intact (public : bytes) : bytes := firstn 65 (4 :: public).
  (** verify_signature (adapter/mod.rs 293-321). *)
  Definition verify_signature (t : stx) : outcome unit :=
    match u_sig (s_tx t) with
    | None => Panic
    | Some s =>
        if is_eth_sig s then
          match s_public t with
          | None => Panic
          | Some p => if secp_verify (signature_hash keccak (s_tx t)) (sig_bytes s) (intact p) then Ok tt else Err
          end
        else
          match sg_r s with
          | [] => Panic
          | _ :: r =>
              match dec_cell_dep_with_pub_key r with
              | None => Err
              | Some (dep, pub_key) =>
                  match call_ckb_vm dep [pub_key; sg_s s] (2 ^ 64 - 1) with
                  | Ok _ => Ok tt
                  | Err => Err
                  | Panic => Panic
                  end
              end
          end
    end.
  Definition sig_ok (t : stx) : bool := match verify_signature t with Ok _ => true | _ => false end.
End Sig.

(** The derived encoding of CellDepWithPubKey (interoperation.rs 56-60, 87-92), behind the type byte of the only mode. *)
Definition cell_dep_r (tx_hash : bytes) (index dep_type : N) (pub_key : bytes) : bytes :=
  0 :: enc_list [enc_list [enc_hash tx_hash; enc_uint index; enc_uint dep_type]; enc_str pub_key].
