(** The metadata contract's store: epochs, validators, consensus configuration, hardforks.
    Models /repo/core/executor/src/system_contract/metadata/{segment.rs,store.rs,handle.rs} and
    the metadata types of /repo/protocol/src/types/primitive.rs.

    Simplifications: the Metadata trie (store.rs:19-42) is a record with one field per
    kind of key (its keys are three different digests and the 8-byte epochs); entries are values, not their RLP bytes
    (the epoch segment's bytes are modelled separately).  The root held in [CURRENT_METADATA_ROOT] is
    the committed content; database errors are not modelled.  The type ids of [CkbRelatedInfo] are opaque bytes. *)
From Verif Require Import Bytes Rlp TxModel.
From stdpp Require Import base gmap.
Local Open Scope N_scope.

Definition U64_MAX : N := 2^64 - 1.

(* ---------------- segment.rs ---------------- *)
(** EpochSegment::new (13-15). *)
Definition segment0 : list N := [0].
Definition seg_last (s : list N) : N := List.last s 0.

(** append_endpoint (18-25). *)
Definition append_endpoint (s : list N) (e : N) : option (list N) :=
  if e <=? seg_last s then None else Some (s ++ [e]).

(** get_epoch_number (28-36): first window (s0, s1] containing the number. *)
Fixpoint epoch_scan (s : list N) (idx n : N) : option N :=
  match s with
  | [] => None
  | s0 :: r =>
      match r with
      | [] => None
      | s1 :: _ => if (s0 <? n) && (n <=? s1) then Some idx else epoch_scan r (idx + 1) n
      end
  end.
Definition get_epoch_number (s : list N) (n : N) : option N := epoch_scan s 0 n.

(** get_latest_epoch_number (38-40), is_empty (42-44), is_last_block_in_epoch (50-52). *)
Definition latest_epoch (s : list N) : N := N.of_nat (length s - 2).
Definition seg_empty (s : list N) : bool := (length s =? 1)%nat.
Definition is_last_block_in_epoch (s : list N) (n : N) : bool := existsb (N.eqb n) s.

(** as_bytes (54-56), from_raw (58-85): only the first byte of the first endpoint is checked. *)
Definition seg_bytes (s : list N) : bytes := concat (map (be_fixed 8) s).
Fixpoint chunks8 (fuel : nat) (b : bytes) : list N :=
  match fuel, b with
  | S f, _ :: _ => be_val (firstn 8 b) :: chunks8 f (skipn 8 b)
  | _, _ => []
  end.
Definition seg_from_raw (b : bytes) : option (list N) :=
  match b with
  | 0 :: _ => if (length b mod 8 =? 0)%nat then Some (chunks8 (length b) b) else None
  | _ => None
  end.

(* ---------------- types (primitive.rs:381-656) ---------------- *)
(** ValidatorExtend (534-542). *)
Record validator := Val_ {
  v_bls : bytes; v_pub : bytes; v_address : bytes; v_propose : N; v_weight : N }.
(** ConsensusConfigV0 (384-401) and ConsensusConfig (422-442). *)
Record config0 := Config0_ {
  cf_gas_limit : N; cf_interval : N; cf_propose : N; cf_prevote : N; cf_precommit : N;
  cf_brake : N; cf_tx_num : N; cf_max_tx_size : N }.
Record config := Config_ { cf_base : config0; cf_max_contract : N }.
Definition default_max_contract_limit : N := 0x6000.
(** MetadataInner (374-379), Metadata (319-335). *)
Record meta_inner := Inner_ {
  mi_start : N; mi_end : N; mi_epoch : N; mi_verifiers : list validator; mi_counter : list (bytes * N) }.
Record metadata := Metadata_ { md_inner : meta_inner; md_config : config }.

(** What the store holds under CONSENSUS_CONFIG: a 2-byte version flag and the
    configuration (store.rs:271-328). *)
Inductive stored_config := CfgV0 (c : config0) | CfgV1 (c : config).

(** The store. *)
Record meta := Meta_ {
  mt_segment : list N;
  mt_inner : gmap N meta_inner;
  mt_config : option stored_config;
  mt_ckb : option bytes;
  mt_hardfork : option (list (N * N)) }.

(** MetadataStore::new with the default root (store.rs:57-63). *)
Definition meta0 : meta := Meta_ segment0 ∅ None None None.

(* ---------------- hardforks ---------------- *)
(** HardforkName::Andromeda = 1 (config-parser spec.rs:272), made big endian and put in the low 8 bytes of an H256. *)
Definition ANDROMEDA : N := 2^56.
(** enable_hardfork (executor lib.rs:502-505), ConsensusConfigFlag::new (store.rs:287-298). *)
Definition enabled (flag info : N) : bool := N.land flag info =? flag.

(** HardforkInfo::push (primitive.rs:626-642); entries are (block number, flags), oldest first. *)
Definition hf_push (l : list (N * N)) (b f : N) : list (N * N) :=
  match List.rev l with
  | [] => [(b, f)]
  | (lb, lf) :: older =>
      let f' := N.lor f lf in
      if (f' =? lf) || (b <? lb) then l
      else if lb =? b then List.rev older ++ [(lb, f')]
      else l ++ [(b, f')]
  end.

(** set_hardfork_info (store.rs:216-244). *)
Definition set_hardfork_info (m : meta) (b f : N) : meta :=
  Meta_ (mt_segment m) (mt_inner m) (mt_config m) (mt_ckb m)
    (Some (match mt_hardfork m with Some l => hf_push l b f | None => [(b, f)] end)).

(** hardfork_info (store.rs:246-261): newest entry not above the target. *)
Definition hf_at (l : list (N * N)) (n : N) : N :=
  match List.find (fun e => negb (n <? fst e)) (List.rev l) with Some (_, f) => f | None => 0 end.
Definition hardfork_info (m : meta) (n : N) : N :=
  match mt_hardfork m with Some l => hf_at l n | None => 0 end.

(* ---------------- consensus configuration ---------------- *)
(** encode_consensus_config (store.rs:315-328) / decode_consensus_config (300-313). *)
Definition encode_config (hf : N) (c : config) : stored_config :=
  if enabled ANDROMEDA hf then CfgV1 c else CfgV0 (cf_base c).
Definition decode_config (s : stored_config) : config :=
  match s with CfgV0 c => Config_ c default_max_contract_limit | CfgV1 c => c end.

(* ---------------- store.rs ---------------- *)
(** Keys of a BTreeMap built from a list: sorted, without repetitions. *)
Fixpoint bytes_cmp (a b : bytes) : comparison :=
  match a, b with
  | [], [] => Eq
  | [], _ => Lt
  | _, [] => Gt
  | x :: a', y :: b' => match N.compare x y with Eq => bytes_cmp a' b' | c => c end
  end.
Fixpoint bt_insert (k : bytes) (l : list bytes) : list bytes :=
  match l with
  | [] => [k]
  | x :: r => match bytes_cmp k x with Lt => k :: l | Eq => l | Gt => x :: bt_insert k r end
  end.
Definition btree_keys (l : list bytes) : list bytes := fold_left (fun acc k => bt_insert k acc) l [].

(** append_metadata (84-133); [hf] is the global HARDFORK_INFO.  [last_block_number() + 1]
    is evaluated whatever the epoch and panics on overflow. *)
Definition append_metadata (hf : N) (m : meta) (md : metadata) : outcome meta :=
  let i := md_inner md in
  let seg := mt_segment m in
  if (seg_empty seg && negb (mi_epoch i =? 0))
     || (negb (seg_empty seg) && negb (mi_epoch i =? latest_epoch seg + 1)) then Err
  else if seg_last seg =? U64_MAX then Panic
  else if negb (mi_start i =? seg_last seg + 1) && negb (mi_epoch i =? 0) then Err
  else
    let counter := map (fun a => (a, 0)) (btree_keys (map v_address (mi_verifiers i))) in
    match append_endpoint seg (mi_end i) with
    | None => Err
    | Some seg' =>
        Ok (Meta_ seg'
              (<[mi_epoch i := Inner_ (mi_start i) (mi_end i) (mi_epoch i) (mi_verifiers i) counter]> (mt_inner m))
              (Some (encode_config hf (md_config md))) (mt_ckb m) (mt_hardfork m))
    end.

(** get_metadata_inner (171-177), get_consensus_config (179-186; panics when there is none), get_metadata (165-169). *)
Definition get_metadata_inner (m : meta) (e : N) : option meta_inner := mt_inner m !! e.
Definition get_consensus_config (m : meta) : outcome config :=
  match mt_config m with Some s => Ok (decode_config s) | None => Panic end.
Definition get_metadata (m : meta) (e : N) : outcome metadata :=
  match get_metadata_inner m e with
  | None => Err
  | Some i => match get_consensus_config m with Ok c => Ok (Metadata_ i c) | _ => Panic end
  end.

(** ProposeCount::increase (primitive.rs:481-483) on the first matching entry. *)
Fixpoint bump (l : list (bytes * N)) (a : bytes) : outcome (list (bytes * N)) :=
  match l with
  | [] => Ok []
  | (x, n) :: r =>
      if beqb x a then if n =? U64_MAX then Panic else Ok ((x, n + 1) :: r)
      else match bump r a with Ok r' => Ok ((x, n) :: r') | Err => Err | Panic => Panic end
  end.

(** update_propose_count (135-158): the entry is written back under its own epoch field. *)
Definition update_propose_count (m : meta) (n : N) (a : bytes) : outcome meta :=
  match get_epoch_number (mt_segment m) n with
  | None => Err
  | Some e =>
      match get_metadata_inner m e with
      | None => Err
      | Some i =>
          match bump (mi_counter i) a with
          | Ok c => Ok (Meta_ (mt_segment m)
                          (<[mi_epoch i := Inner_ (mi_start i) (mi_end i) (mi_epoch i) (mi_verifiers i) c]> (mt_inner m))
                          (mt_config m) (mt_ckb m) (mt_hardfork m))
          | Err => Err
          | Panic => Panic
          end
      end
  end.

(** update_consensus_config (201-210), set_ckb_related_info (74-82). *)
Definition update_consensus_config (hf : N) (m : meta) (c : config) : meta :=
  Meta_ (mt_segment m) (mt_inner m) (Some (encode_config hf c)) (mt_ckb m) (mt_hardfork m).
Definition set_ckb_related_info (m : meta) (i : bytes) : meta :=
  Meta_ (mt_segment m) (mt_inner m) (mt_config m) (Some i) (mt_hardfork m).

(* ---------------- handle.rs ---------------- *)
(** get_metadata_by_block_number (20-31): the genesis block answers with epoch 0. *)
Definition metadata_by_block (m : meta) (n : N) : outcome metadata :=
  if n =? 0 then get_metadata m 0
  else match get_epoch_number (mt_segment m) n with Some e => get_metadata m e | None => Err end.

(** is_validator (44-47). *)
Definition is_validator (m : meta) (n : N) (a : bytes) : outcome bool :=
  match metadata_by_block m n with
  | Ok md => Ok (existsb (fun v => beqb (v_address v) a) (mi_verifiers (md_inner md)))
  | Err => Err
  | Panic => Panic
  end.

(** HardforkInfoInner (primitive.rs:644-648, derived codec), decoded in after_block_hook. *)
Definition dec_hardfork (b : bytes) : option (N * N) :=
  let? n := val_at (dec_uint 8) b 0 in
  let? f := val_at (dec_hash 32) b 1 in
  Some (n, be_val f).

(** MetadataContract::after_block_hook (metadata/mod.rs:109-137) on the store: new store and
    new HARDFORK_INFO. *)
Definition meta_after_block (m : meta) (hf number : N) (origin : bytes) (extra : list bytes) : outcome (meta * N) :=
  if number =? 0 then Ok (m, hf)
  else
    let m1 := match extra with
              | t :: _ => match dec_hardfork t with Some (b, f) => set_hardfork_info m b f | None => m end
              | [] => m end in
    match update_propose_count m1 number origin with
    | Ok m2 => Ok (m2, hardfork_info m1 number)
    | _ => Panic
    end.
