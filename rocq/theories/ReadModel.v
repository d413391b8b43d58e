(** The precompiles that read the HeaderCell store: /repo/core/executor/src/precompiles/get_header.rs, get_cell.rs (the second one is defined
    but not registered), over the store of CellModel. *)
From stdpp Require Import gmap.
From Verif Require Import Bytes Rlp TxModel CellModel PrecompModel.

Section Readers.
  (** ABI codecs (crate ethers): the 32-byte argument, a header from the store, the output *)
  Context {hdr : Type} (hdec : bytes -> option hdr).
  Variable abi_key : bytes -> option bytes.
  Variable abi_out : hdr -> bytes.

  (** get_header.rs:18-53; [get_raw] (ckb_light_client/mod.rs:88-92) on the committed root.  The [unwrap] of line 44 is the panic.
      A failing database is left out. *)
  Definition get_header_exec (root : trie) (input : bytes) (limit : option N) : pres :=
    if over limit 42000 then POutOfGas
    else match abi_key input with
         | None => PFail
         | Some k => match root !! k with
                     | None => PFail
                     | Some raw => match hdec raw with
                                   | Some h => POk (abi_out h) 42000
                                   | None => PPanic
                                   end
                     end
         end.

  (** get_cell.rs:21-59, 66-71; the output is built from the cell by the ABI codec *)
  Variable abi_outpoint : bytes -> option cell_key.
  Variable abi_cell : cell -> bytes.
  Definition get_cell_exec (root : trie) (input : bytes) (limit : option N) : pres :=
    if over limit 42000 then POutOfGas
    else match abi_outpoint input with
         | None => PFail
         | Some k => match get_cell root k with
                     | Some (Some c) => POk (abi_cell c) 42000
                     | Some None | None => PFail
                     end
         end.
End Readers.
