(** The keys a node checks votes with: OverlordCrypto, and when its key map is replaced.
    Models /repo/core/consensus/src/util.rs 33-190, engine.rs 440-480, 700-726, 759-762, 789-800,
    synchronization.rs 300-379, 500-528, consensus.rs 126-158, /repo/core/run/src/lib.rs 204-229, 377-394, and the transport of
    the consensus messages: /repo/core/consensus/src/message.rs 23-85, engine.rs 370-439.

    Simplifications: the BLS library is a record of functions (below); locks are not modelled, every operation is one
    step; the chain is the sequence of states of the metadata contract after each block. *)
From Verif Require Import Bytes Rlp TxModel MetaModel.
From stdpp Require Import base gmap list.
Local Open Scope N_scope.

(** BlsPublicKey, BlsSignature and BlsPrivateKey of common_crypto (a library outside /repo).  [kadd] and [sadd] are
    the additions inside BlsPublicKey::aggregate and BlsSignature::combine, [verify1] is BlsSignature::verify. *)
Record bls := Bls {
  K : Type; Sg : Type; Sk : Type;
  key_of : bytes -> option K;
  sig_of : bytes -> option Sg;
  sig_bytes : Sg -> bytes;
  kadd : K -> K -> K;
  sadd : Sg -> Sg -> Sg;
  verify1 : Sg -> bytes -> K -> bool;
  pub : Sk -> K;
  sign1 : Sk -> bytes -> Sg }.

Section crypto.
  Variable B : bls.
  Notation keymap := (gmap bytes (K B)).

  (** generate_new_crypto_map (engine.rs 789-800); init_crypto (run/lib.rs 377-394) builds its map in the same way. *)
  Fixpoint gen_map (acc : keymap) (l : list validator) : option keymap :=
    match l with
    | [] => Some acc
    | v :: r => let? k := key_of B (v_bls v) in gen_map (<[v_pub v := k]> acc) r
    end.
  Definition generate_new_crypto_map (l : list validator) : option keymap := gen_map ∅ l.

  (** sign (52-60): the hash must have 32 bytes. *)
  Definition sign (x : Sk B) (hash : bytes) : option bytes :=
    if len hash =? 32 then Some (sig_bytes B (sign1 B x hash)) else None.

  (** verify_signature (62-86): [true] for Ok. *)
  Definition verify_signature (m : keymap) (sig hash voter : bytes) : bool :=
    if negb (len hash =? 32) then false
    else match m !! voter with
         | None => false
         | Some k => match sig_of B sig with None => false | Some s => verify1 B s hash k end
         end.

  (** BlsPublicKey::aggregate and BlsSignature::combine refuse an empty list. *)
  Definition kagg (l : list (K B)) : option (K B) :=
    match l with [] => None | k :: r => Some (fold_left (kadd B) r k) end.
  Definition sagg (l : list (Sg B)) : option (Sg B) :=
    match l with [] => None | s :: r => Some (fold_left (sadd B) r s) end.

  (** aggregate_signatures (88-118). *)
  Fixpoint parse_sigs (m : keymap) (sigs voters : list bytes) : option (list (Sg B)) :=
    match sigs, voters with
    | s :: r, v :: q => let? x := sig_of B s in let? _ := m !! v in let? l := parse_sigs m r q in Some (x :: l)
    | _, _ => Some []
    end.
  Definition aggregate_signatures (m : keymap) (sigs voters : list bytes) : option bytes :=
    if negb (Nat.eqb (length sigs) (length voters)) then None
    else let? l := parse_sigs m sigs voters in let? s := sagg l in Some (sig_bytes B s).

  (** inner_verify_aggregated_signature (156-174). *)
  Definition inner_verify (hash : bytes) (keys : list (K B)) (sig : bytes) : bool :=
    match kagg keys with
    | None => false
    | Some k => match sig_of B sig with
                | None => false
                | Some s => if len hash =? 32 then verify1 B s hash k else false
                end
    end.
  (** verify_aggregated_signature (120-138). *)
  Fixpoint voter_keys (m : keymap) (voters : list bytes) : option (list (K B)) :=
    match voters with
    | [] => Some []
    | v :: r => let? k := m !! v in let? l := voter_keys m r in Some (k :: l)
    end.
  Definition verify_aggregated (m : keymap) (sig hash : bytes) (voters : list bytes) : bool :=
    match voter_keys m voters with None => false | Some l => inner_verify hash l sig end.
  (** OverlordConsensusAdapter::verify_proof_signature (adapter.rs 572-594): the keys come as bytes
      (convert_hex_to_bls_pubkeys, util.rs 190-195). *)
  Fixpoint parse_keys (l : list bytes) : option (list (K B)) :=
    match l with [] => Some [] | b :: r => let? k := key_of B b in let? q := parse_keys r in Some (k :: q) end.
  Definition verify_proof_signature (hash sig : bytes) (keys : list bytes) : bool :=
    match parse_keys keys with None => false | Some l => inner_verify hash l sig end.

  (* ---------------- which keys, which authorities ---------------- *)
  (** The latest block, the metadata contract after it, the key map of OverlordCrypto and the authority list
      handed to overlord for the next height. *)
  Record cnode := CNode { cn_number : N; cn_meta : meta; cn_keys : keymap; cn_auth : list validator }.

  (** Start-up (run/lib.rs 212-229; consensus.rs 126-158): keys and authorities of the latest block's own
      metadata; the authorities are sent again for block 1 when there is only the genesis block. *)
  Definition boot (m : meta) (number : N) : outcome cnode :=
    match metadata_by_block m number with
    | Ok md => match generate_new_crypto_map (mi_verifiers (md_inner md)) with
               | None => Err
               | Some k =>
                   match metadata_by_block m (number + 1) with
                   | Ok next => Ok (CNode number m k (if number =? 0 then mi_verifiers (md_inner next) else mi_verifiers (md_inner md)))
                   | _ => Panic
                   end
               end
    | Err => Err | Panic => Panic
    end.

  (** The end of update_status (engine.rs 707-726) and of commit (340-367) for block [number + 1], after which the
      contract holds [m']. *)
  Definition commit_keys (n : cnode) (m' : meta) : outcome cnode :=
    let b := cn_number n + 1 in
    match (if is_last_block_in_epoch (mt_segment m') b then
             match metadata_by_block m' (b + 1) with
             | Ok md => match generate_new_crypto_map (mi_verifiers (md_inner md)) with Some k => Ok k | None => Err end
             | Err => Err | Panic => Panic
             end
           else Ok (cn_keys n)) with
    | Ok k => match metadata_by_block m' (b + 1) with
              | Ok md => Ok (CNode b m' k (mi_verifiers (md_inner md)))
              | Err => Err | Panic => Panic
              end
    | Err => Err | Panic => Panic
    end.

  (** A synchronisation that adds [count] blocks, after which the contract holds [m'] (synchronization.rs 300-379,
      500-528): only the authorities are renewed. *)
  Definition sync_keys (n : cnode) (count : N) (m' : meta) : cnode :=
    let b := cn_number n + count in
    CNode b m' (cn_keys n)
      match metadata_by_block m' (b + 1) with Ok md => mi_verifiers (md_inner md) | _ => cn_auth n end.

  Inductive cevent :=
  | CCommit (m' : meta)
  | CSync (count : N) (m' : meta)
  | CRestart.
  Definition cstep (n : cnode) (e : cevent) : outcome cnode :=
    match e with
    | CCommit m' => commit_keys n m'
    | CSync c m' => Ok (sync_keys n c m')
    | CRestart => boot (cn_meta n) (cn_number n)
    end.
  (** oldest first *)
  Fixpoint crun (n : cnode) (l : list cevent) : outcome cnode :=
    match l with [] => Ok n | e :: r => match cstep n e with Ok n' => crun n' r | o => o end end.

  (** get_authority_list (engine.rs 444-477), without the final sort. *)
  Definition authority_list (m : meta) (next : N) : outcome (list validator) :=
    if next =? 0 then Ok []
    else match metadata_by_block m next with
         | Ok cur => if (mi_start (md_inner cur) <=? next - 1) && (next - 1 <=? mi_end (md_inner cur))
                     then Ok (mi_verifiers (md_inner cur))
                     else match metadata_by_block m (next - 1) with
                          | Ok old => Ok (mi_verifiers (md_inner old))
                          | Err => Err | Panic => Panic
                          end
         | Err => Err | Panic => Panic
         end.
End crypto.

(* ---------------- message transport ---------------- *)
(** broadcast_to_other, transmit_to_relayer (engine.rs 370-439): the RLP bytes of the overlord message are sent as
    a [Vec<u8>], whose wire form is an RLP string. *)
Definition wire_message (rlp_of_msg : bytes) : bytes := enc_str rlp_of_msg.
(** decode of Proposal, Vote, QC and Choke (message.rs 35-41): [rlp::decode::<Bytes>]. *)
Definition receive_message (b : bytes) : option bytes := dec_value b.
(** encode of the same types (message.rs 31-33): the bytes as they are. *)
Definition message_encode (rlp_of_msg : bytes) : bytes := rlp_of_msg.
