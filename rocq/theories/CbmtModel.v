(** The precompile that checks proofs of the complete binary Merkle tree of CKB.
    Models /repo/core/executor/src/precompiles/ckb_mbt_verify.rs (and the same function in /repo/devtools/axon-tools/src/precompile.rs 51-92)
    with MerkleProof of crate merkle-cbt 0.3 and merkle_root of crate ckb-types (neither is in /repo; modelled from their source and
    documentation).  Values are byte strings; [merge] is the hash of two of them (blake2b of CKB); [arrange] is the order in which the crate
    pairs leaves with indices, some permutation. *)
From Coq Require Import List NArith.
From Verif Require Import Bytes Rlp TxModel AbiModel.
Import ListNotations.
Local Open Scope N_scope.

(** Proof and VerifyProofPayload (14-31) *)
Record mproof := MProof { mp_indices : list N; mp_lemmas : list bytes; mp_leaves : list bytes }.
Record payload := Payload { pl_type : N; pl_txs : bytes; pl_wit : bytes; pl_raw : bytes; pl_proof : mproof }.

(** The node indices of merkle-cbt, u32: the root is 0.  Additions are checked. *)
Definition sibling (i : N) : outcome N :=
  if i =? 0 then Ok 0 else if i + 1 <? 2 ^ 32 then Ok (N.lxor (i + 1) 1 - 1) else Panic.
Definition parent (i : N) : N := if i =? 0 then 0 else (i - 1) / 2.
Definition is_left (i : N) : bool := N.odd i.

(** sort_by(|a, b| b.0.cmp(&a.0)): stable, the largest index first *)
Fixpoint insert_desc (x : N * bytes) (l : list (N * bytes)) : list (N * bytes) :=
  match l with [] => [x] | y :: r => if fst y <? fst x then x :: y :: r else y :: insert_desc x r end.
Definition sort_desc (l : list (N * bytes)) : list (N * bytes) := fold_left (fun acc x => insert_desc x acc) l [].

Section Cbmt.
  Variable merge : bytes -> bytes -> bytes.
  Variable arrange : list bytes -> list bytes.

  (** The loop of MerkleProof::root over the queue; a node whose sibling is missing is left out.  The number of turns is bounded by the
      levels of the queue's nodes ([turns]). *)
  Fixpoint climb (k : nat) (q : list (N * bytes)) (lemmas : list bytes) : outcome (option bytes) :=
    match k with
    | O => Ok None
    | S k' =>
        match q with
        | [] => Ok None
        | (i, v) :: q1 =>
            if i =? 0 then Ok (match lemmas, q1 with [], [] => Some v | _, _ => None end)
            else
              let from_lemmas :=
                match lemmas with
                | [] => climb k' q1 []
                | s :: ls => climb k' (q1 ++ [(parent i, if is_left i then merge v s else merge s v)]) ls
                end in
              match q1 with
              | [] => from_lemmas
              | (j, s) :: q2 =>
                  match sibling i with
                  | Ok x => if j =? x then climb k' (q2 ++ [(parent i, if is_left i then merge v s else merge s v)]) lemmas else from_lemmas
                  | Err => Err | Panic => Panic
                  end
              end
        end
    end.
  Fixpoint turns (q : list (N * bytes)) : nat := match q with [] => 1 | (i, _) :: r => 1 + N.size_nat i + turns r end.

  (** MerkleProof::root *)
  Definition proof_root (p : mproof) : outcome (option bytes) :=
    if negb (Nat.eqb (List.length (mp_leaves p)) (List.length (mp_indices p))) then Ok None
    else match mp_leaves p with
         | [] => Ok None
         | _ => let q := sort_desc (combine (mp_indices p) (arrange (mp_leaves p))) in climb (turns q) q (mp_lemmas p)
         end.

  (** inner_verify_proof (75-113) *)
  Definition verify (p : payload) : outcome unit :=
    if beqb (merge (pl_raw p) (pl_wit p)) (pl_txs p) then
      match proof_root (pl_proof p) with
      | Ok (Some r) => if beqb r (if pl_type p =? 0 then pl_raw p else pl_wit p) then Ok tt else Err
      | Ok None => Err | Err => Err | Panic => Panic
      end
    else Err.

  (** parse_input (69-73) *)
  Definition payload_ty : tys := tys_of [tuple [u8; TBytes32; TBytes32; TBytes32; tuple [TArray u32; TArray TBytes32; TArray TBytes32]]].
  Fixpoint nums (l : list val) : option (list N) :=
    match l with [] => Some [] | VNum n :: r => match nums r with Some l' => Some (n :: l') | None => None end | _ => None end.
  Fixpoint strs (l : list val) : option (list bytes) :=
    match l with [] => Some [] | VBytes b :: r => match strs r with Some l' => Some (b :: l') | None => None end | _ => None end.
  Definition parse_input (narrow : N -> N -> option N) (input : bytes) : option payload :=
    match decs narrow payload_ty input 0 with
    | Some ([VSeq [VNum t; VBytes x; VBytes w; VBytes r; VSeq [VSeq is; VSeq ls; VSeq vs]]], _) =>
        match nums is, strs ls, strs vs with Some is', Some ls', Some vs' => Some (Payload t x w r (MProof is' ls' vs')) | _, _, _ => None end
    | _ => None
    end.
  (** exec_fn (40-62): the output and the gas *)
  Definition mbt_exec (narrow : N -> N -> option N) (input : bytes) (limit : option N) : outcome (bytes * N) :=
    if match limit with Some l => l <? 56000 | None => false end then Err
    else match parse_input narrow input with
         | Some p => match verify p with Ok _ => Ok ([1], 56000) | Err => Err | Panic => Panic end
         | None => Err
         end.
End Cbmt.
