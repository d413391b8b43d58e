(** Replays the repository's own transaction test vectors through the model
    (tests of the model against /repo, not theorems):
    /repo/protocol/src/codec/transaction.rs:375-560. *)
From Verif Require Import Bytes Rlp TxModel Keccak.
From Coq Require Import String Ascii.
Open Scope N_scope.

Definition hexval (c : ascii) : N :=
  let n := N_of_ascii c in if n <=? 57 then n - 48 else n - 87.
Fixpoint unhex (s : string) : bytes :=
  match s with
  | String a (String b r) => (hexval a * 16 + hexval b) :: unhex r
  | _ => []
  end.

(** test_legacy_decode_with_chain_id (419-438). *)
Definition v_legacy_chain := unhex "f86e058502540be40082520894f386573563c3a75dbbd269fce9782620826ddac2880de0b6b3a764000080820ff0a05a574c069ee62e1401ea2d5611cba8a83411532867a22cdd37a37ea1d081199ba04bc65430ec70993a1f376f13e1b17df9b0128565140053a5b1cab0fb8bc68a2f".
Example vec_legacy_chain :
  match dec_utx keccak256 v_legacy_chain with
  | Ok t => u_chain t = Some 2022 /\ nonce (u_unsigned t) = 5 /\ gas_limit (u_unsigned t) = 0x5208
            /\ gas_price (u_unsigned t) = 0x02540be400 /\ tx_value (u_unsigned t) = 0x0de0b6b3a7640000
            /\ tx_to (u_unsigned t) = Some (unhex "f386573563c3a75dbbd269fce9782620826ddac2")
            /\ enc_utx t = v_legacy_chain
  | _ => False
  end.
Proof. vm_compute. repeat split. Qed.

(** test_legacy_decode (375-396): chain id 0. *)
Definition v_legacy0 := unhex "f85f800182520894095e7baea6a6c7c4c2dfeb977efac326af552d870a8023a048b55bfa915ac795c431978d8a6a992b628d557da5ff759b307d495a36649353a0efffd310ac743f371de3b9f7f9cb56c0b28ad43601b4ab949f53faa07bd2c804".
Example vec_legacy0 :
  match dec_utx keccak256 v_legacy0 with
  | Ok t => u_chain t = Some 0 /\ check_hash keccak256 t = true /\ enc_utx t = v_legacy0
  | _ => False
  end.
Proof. vm_compute. repeat split. Qed.

(** test_legacy_decode_without_chain_id (398-417). *)
Definition v_legacy_nochain := unhex "f85f800182520894095e7baea6a6c7c4c2dfeb977efac326af552d870a801ba048b55bfa915ac795c431978d8a6a992b628d557da5ff759b307d495a36649353a0efffd310ac743f371de3b9f7f9cb56c0b28ad43601b4ab949f53faa07bd2c804".
Example vec_legacy_nochain :
  match dec_utx keccak256 v_legacy_nochain with
  | Ok t => u_chain t = None /\ enc_utx t = v_legacy_nochain
  | _ => False
  end.
Proof. vm_compute. repeat split. Qed.

(** test_calc_tx_hash (548-557): EIP-1559 transaction with its published hash. *)
Definition v_1559 := unhex "02f8690505030382520894a15da349978753d846eede580c7de8e590c1e5b8872386f26fc1000080c080a097d7a69ce423c2a5814daf71345b49698db5839e092f744e263983b56a992b87a02a5e12966dccbc8e3f6f21ffb528372c915c202381cfcbe3b8cf8ef8af273e99".
Example vec_1559_hash :
  match dec_utx keccak256 v_1559 with
  | Ok t => u_hash t = unhex "4c6d0ffa15709084a4b2b546f32503e4ccf2fb26b6c894df773b2d14b7c96e3f"
            /\ check_hash keccak256 t = true /\ enc_utx t = v_1559
  | _ => False
  end.
Proof. vm_compute. repeat split. Qed.

(** test_signed_tx_codec / test_decode_unverified_tx (461-469, 528-546): s has a short encoding. *)
Definition v_1559_short := unhex "02f8670582010582012c82012c825208945cf83df52a32165a7f392168ac009b168c9e89150180c001a0a68aeb0db4d84cf16da5a6918becefd254654854cfc23f0112ef78154ce84db89f4b0af1cbf12f5bfaec81c3d4d495717d720b574a05092f6b436c2ab255cd35".
Example vec_1559_short :
  match dec_utx keccak256 v_1559_short with
  | Ok t => check_hash keccak256 t = true /\ enc_utx t = v_1559_short
            /\ match u_sig t with Some s => is_eth_sig s = true /\ sg_r s <> sg_s s | None => False end
  | _ => False
  end.
Proof. vm_compute. repeat split; congruence. Qed.
