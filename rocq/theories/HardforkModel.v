(** How a hardfork is announced, proposed, approved, adopted and reported.
    Models /repo/common/config-parser/src/types/spec.rs 226-283 (names and flags), /repo/core/run/src/lib.rs 240-252, 530-617 (start,
    the hardfork command), /repo/core/consensus/src/engine.rs 89-111 (get_block), 168-197 (check_block), 684-708 (update_status),
    /repo/core/consensus/src/synchronization.rs (a synchronised block does not touch the register),
    /repo/core/storage/src/lib.rs 477-479, 561-573 (the stored announcement) and /repo/core/api/src/jsonrpc/impl/axon.rs 110-210.
    The list of adopted hardforks is that of the metadata contract (MetaModel: hf_push, hf_at, meta_after_block).
    Simplifications: only the parts of a block that matter here are kept, its number and its extra data; database errors are not
    modelled; the three reads of the RPC handler see the same state. *)
From Verif Require Import Bytes Rlp TxModel MetaModel.
From Coq Require Import NArith List Bool.
Import ListNotations.
Local Open Scope N_scope.

(* ---------------- names and flags ---------------- *)
(** HardforkName (spec.rs 266-283). *)
Inductive hf_name := HNone | HAndromeda.
Definition name_val (h : hf_name) : N := match h with HNone => 0 | HAndromeda => 1 end.
Definition hf_names : list hf_name := [HNone; HAndromeda].
Definition all_names : N := fold_left (fun acc h => N.lor acc (name_val h)) hf_names 0.
(** H256::from_low_u64_be(r.to_be()) as a number: to_be turns the bytes of a u64 around on the little endian targets. *)
Definition be_flag (r : N) : N := be_val (rev (be_fixed 8 r)).
(** From<HardforkInput> (239-264). *)
Definition input_flags (l : list hf_name) : N :=
  match l with
  | [] => be_flag all_names
  | [HNone] => 0
  | _ => be_flag (fold_left (fun acc h => N.lor acc (name_val h)) l 0)
  end.

(** HardforkInfoInner: block number and flags; its derived encoding (primitive.rs 644-648). *)
Notation hfi := (N * N)%type (only parsing).
Definition enc_hardfork (v : hfi) : bytes := enc_list [enc_uint (fst v); enc_hash (be_fixed 32 (snd v))].
Definition hfi_eqb (v w : hfi) : bool := (fst v =? fst w) && (snd v =? snd w).
(** data.flags & v.flags == v.flags *)
Definition covers (f g : N) : bool := N.land f g =? g.
Definition last_flags (l : list hfi) : option N := option_map snd (List.head (List.rev l)).

(* ---------------- a node ---------------- *)
Record node := Node_ {
  hn_stored : option hfi;               (* HAEDFORK_PROPOSAL in the database *)
  hn_mem : option (option hfi);         (* NodeInfo::hardfork_proposals; None when the node does not run *)
  hn_list : list hfi;                   (* HARDFORK_KEY in the state after the latest block *)
  hn_number : N }.                      (* the latest block *)

(** After `axon init`: init_metadata_and_hardfork (system_contract/mod.rs 181-201) sets the flags of the chain spec at block 0. *)
Definition init_node (hardforks : list hf_name) : node := Node_ None None [(0, input_flags hardforks)] 0.

(** `axon hardfork` (run/src/lib.rs 530-617); the database cannot be opened while the node runs. *)
Definition cli_set (n : node) (i : option hfi) : outcome node :=
  match hn_mem n with
  | Some _ => Err
  | None =>
      match i with
      | None => Ok n
      | Some v =>
          if fst v <=? hn_number n then Err
          else if snd v =? 0 then Ok n
          else match last_flags (hn_list n) with
               | Some f => if covers f (snd v) then Ok n else Ok (Node_ (Some v) None (hn_list n) (hn_number n))
               | None => Ok (Node_ (Some v) None (hn_list n) (hn_number n))
               end
      end
  end.

(** start (run/src/lib.rs 240-252). *)
Definition start (n : node) : node := Node_ (hn_stored n) (Some (hn_stored n)) (hn_list n) (hn_number n).
(** Any stop of the process. *)
Definition halt (n : node) : node := Node_ (hn_stored n) None (hn_list n) (hn_number n).

(** get_block (engine.rs 89-111): the extra data of the own proposal. *)
Definition propose (n : node) : option (list bytes * node) :=
  match hn_mem n with
  | None => None
  | Some None => Some ([], n)
  | Some (Some v) =>
      if fst v <=? hn_number n + 1 then Some ([], Node_ None (Some None) (hn_list n) (hn_number n))
      else Some ([enc_hardfork v], n)
  end.

(** check_block (168-197), on the extra data of somebody's proposal. *)
Definition approve (n : node) (extra : list bytes) : bool :=
  match extra with
  | [] => true
  | t :: _ =>
      match dec_hardfork t, hn_mem n with
      | Some d, Some (Some v) => hfi_eqb d v
      | _, _ => false
      end
  end.

(** The list of hardforks after a block (metadata/mod.rs 109-137). *)
Definition adopt (l : list hfi) (extra : list bytes) : list hfi :=
  match extra with
  | t :: _ => match dec_hardfork t with Some (b, f) => hf_push l b f | None => l end
  | [] => l
  end.
(** Commit of the next block by consensus, update_status (684-708). *)
Definition commit (n : node) (extra : list bytes) : node :=
  let l := adopt (hn_list n) extra in
  match hn_mem n, last_flags l with
  | Some (Some v), Some f =>
      if covers f (snd v) then Node_ None (Some None) l (hn_number n + 1)
      else Node_ (hn_stored n) (hn_mem n) l (hn_number n + 1)
  | _, _ => Node_ (hn_stored n) (hn_mem n) l (hn_number n + 1)
  end.
(** The next block comes by synchronisation (synchronization.rs 219-398). *)
Definition sync (n : node) (extra : list bytes) : node :=
  Node_ (hn_stored n) (hn_mem n) (adopt (hn_list n) extra) (hn_number n + 1).

(** A stop between the removal from the register and the removal from the database (engine.rs 95-110, 702-707). *)
Definition lose_removal (before after : node) : node :=
  Node_ (hn_stored before) None (hn_list after) (hn_number after).

(** The command line gives a block number and names (spec.rs 226-237, cli/src/args/hardfork.rs). *)
Definition input (i : option (N * list hf_name)) : option hfi :=
  match i with Some (b, l) => Some (b, input_flags l) | None => None end.
Inductive op := OCli (i : option (N * list hf_name)) | OStart | OHalt | OPropose | OCommit (extra : list bytes) | OSync (extra : list bytes)
  | OProposeCrash | OCommitCrash (extra : list bytes).
Definition step (n : node) (o : op) : node :=
  match o with
  | OCli i => match cli_set n (input i) with Ok n' => n' | _ => n end
  | OStart => match hn_mem n with None => start n | Some _ => n end
  | OHalt => halt n
  | OPropose => match propose n with Some (_, n') => n' | None => n end
  | OCommit e => match hn_mem n with Some _ => commit n e | None => n end
  | OSync e => match hn_mem n with Some _ => sync n e | None => n end
  | OProposeCrash => match propose n with Some (_, n') => lose_removal n n' | None => n end
  | OCommitCrash e => match hn_mem n with Some _ => lose_removal n (commit n e) | None => n end
  end.
Definition run (n : node) (l : list op) : node := fold_left step l n.

(* ---------------- axon_getHardforkInfo ---------------- *)
(** enabled_and_determined (axon.rs 161-208); the loop runs from the newest entry to the first that is in force. *)
Fixpoint scan (current : N) (newest_first : list hfi) (det : option N) : option N * option N :=
  match newest_first with
  | [] => (det, None)
  | (b, f) :: r =>
      if current <? b then scan current r (match det with None => Some f | Some _ => det end)
      else (det, Some f)
  end.
Definition enabled_and_determined (l : list hfi) (current : N) : N * N :=
  if (length l <? 2)%nat then
    match List.rev l with
    | (b, f) :: _ => if current <? b then (0, f) else (f, 0)
    | [] => (0, 0)
    end
  else
    let (det, en) := scan current (List.rev l) None in
    let d := match det with Some f => f | None => 0 end in
    let e := match en with Some f => f | None => 0 end in
    (e, if d =? 0 then d else N.lxor d e).

(** HardforkStatus and hardfork_infos (110-158): a later insertion replaces an earlier one. *)
Inductive hf_status := SProposed | SDetermined | SEnabled.
Definition hf_report (n : node) (h : hf_name) : option hf_status :=
  let flag := be_flag (name_val h) in
  let (en, det) := enabled_and_determined (hn_list n) (hn_number n) in
  let s := match hn_stored n with
           | Some p => if N.land (snd p) flag =? 0 then None else Some SProposed
           | None => None
           end in
  let s := if N.land det flag =? 0 then s else Some SDetermined in
  if N.land en flag =? 0 then s else Some SEnabled.
