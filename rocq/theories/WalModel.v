(** The two write-ahead logs of the consensus service.
    Models /repo/core/consensus/src/wal.rs.  A directory is a map from file names to contents.
    Simplifications: file-system calls do not fail; the directories hold only what the node writes (other
    names are errors, 228-229, or panics, 72); a process crash keeps every byte already written, [torn] models a crash in
    the middle of a write; the order of directory listings is that of [map_to_list]. *)
From Verif Require Import Bytes TxModel.
From stdpp Require Import base gmap list sorting.

(* ---------------------------------------------------------------------- *)
(** * ConsensusWal (149-314) *)
Section Consensus.
  Variable digest : bytes -> bytes.

  (** name (milliseconds) to content *)
  Notation cdir := (gmap N bytes).

  (** checksum followed by the payload (174-178) *)
  Definition wal_content (info : bytes) : bytes := digest info ++ info.

  (** update_overlord_wal (166-237) runs in stages: pick a free name (180-196; the clock loop ends at a time
      [ts] whose file does not exist), create the file (198-212), write it (214-216), remove the older files one by one (219-234).
      The functions give the directory when the process stops within the respective stage. *)
  (** [k] bytes of the new file are written *)
  Definition update_torn (d : cdir) (ts : N) (info : bytes) (k : nat) : cdir :=
    <[ts := take k (wal_content info)]> d.
  (** the file is complete and the files [gone], where older, are already removed *)
  Definition update_cleaning (d : cdir) (ts : N) (info : bytes) (gone : list N) : cdir :=
    filter (fun p => ~ (p.1 < ts /\ p.1 ∈ gone)%N) (<[ts := wal_content info]> d).
  (** the whole call *)
  Definition update_wal (d : cdir) (ts : N) (info : bytes) : cdir :=
    filter (fun p => ~ (p.1 < ts)%N) (<[ts := wal_content info]> d).
  Definition free_name (d : cdir) (ts : N) : bool := bool_decide (d !! ts = None).

  (** load_overlord_wal (240-299): names newest first (250-262), then the loop (265-296), one iteration per unit of fuel;
      [None] means the loop is still running.  A file shorter than a hash repeats the iteration with the same index (285-287). *)
  Definition sorted_names (d : cdir) : list N := reverse (merge_sort N.le (elements (dom d))).
  Fixpoint load_loop (fuel : nat) (d : cdir) (names : list N) (index : nat) : option (outcome bytes) :=
    match fuel with
    | O => None
    | S f =>
        match names !! index with
        | None => Some Err
        | Some t =>
            match d !! t with
            | None => Some Err
            | Some buf =>
                if (length buf <? 32)%nat then load_loop f d names index
                else if beqb (take 32 buf) (digest (drop 32 buf)) then Some (Ok (drop 32 buf))
                else load_loop f d names (S index)
            end
        end
    end.
  Definition load_wal (fuel : nat) (d : cdir) : option (outcome bytes) := load_loop fuel d (sorted_names d) 0.
  (** clear (301-313) *)
  Definition clear_wal (d : cdir) : cdir := ∅.
End Consensus.

(* ---------------------------------------------------------------------- *)
(** * SignedTxsWAL (12-147) *)
Section Txs.
  Variable tx : Type.
  (** BatchSignedTxs::encode_msg and decode_msg *)
  Variable enc : list tx -> bytes.
  Variable dec : bytes -> outcome (list tx).

  (** height directory to file name to content *)
  Notation tdir := (gmap N (gmap bytes bytes)).

  (** File name of a root (40-41, 92-93): Display of H256 prints the first two and the last two bytes with an ellipsis between,
      so the name is determined by these four bytes (the hex digits, the ellipsis and ".txt" carry no information). *)
  Definition file_name (root : bytes) : bytes := take 2 root ++ drop (length root - 2) root.
  (** the content after writing [new] from the start of an existing file, which is not truncated (43-47) *)
  Definition overwrite (old new : bytes) : bytes := new ++ drop (length new) old.

  Definition files (d : tdir) (n : N) : gmap bytes bytes := default ∅ (d !! n).
  (** save (28-63); [k] bytes are written when the process stops *)
  Definition save_torn (d : tdir) (n : N) (root : bytes) (txs : list tx) (k : nat) : tdir :=
    let f := files d n in
    <[n := <[file_name root := overwrite (default [] (f !! file_name root)) (take k (enc txs))]> f]> d.
  Definition save_txs (d : tdir) (n : N) (root : bytes) (txs : list tx) : tdir :=
    let f := files d n in
    <[n := <[file_name root := overwrite (default [] (f !! file_name root)) (enc txs)]> f]> d.
  (** available_number (65-76) *)
  Definition available (d : tdir) : list N := elements (dom d).
  (** load (85-96), recover_stxs (138-146) *)
  Definition load_txs (d : tdir) (n : N) (root : bytes) : outcome (list tx) :=
    match files d n !! file_name root with Some b => dec b | None => Err end.
  (** load_by_number (98-114) *)
  Definition load_by_number (d : tdir) (n : N) : list tx :=
    concat (map (fun p => match dec p.2 with Ok l => l | _ => [] end) (map_to_list (files d n))).
  (** remove (116-136), remove_all (78-83) *)
  Definition remove_upto (d : tdir) (n : N) : tdir := filter (fun p => ~ (p.1 <= n)%N) d.
  Definition remove_all (d : tdir) : tdir := fold_left remove_upto (available d) d.
End Txs.
