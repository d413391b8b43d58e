(** The cached key-value store under the state tries.
    Models /repo/core/executor/src/adapter/trie/db.rs.  A RocksDB column is a map; statistics are
    left out.  The random generator is an arbitrary function, HashMap iteration order is the order
    of [map_to_list].  Read errors of RocksDB are not modelled, write errors are a flag. *)
From Verif Require Import Bytes TxModel.
From stdpp Require Import base gmap list.

(** RocksTrieDB (29-34): column contents and cache. *)
Record tdb := TDb { td_db : gmap bytes bytes; td_cache : gmap bytes bytes }.
Definition tdb0 : tdb := TDb ∅ ∅.

Section TrieDb.
  (** [rng n len] is the number drawn below [len] when [n] draws remain. *)
  Variable rng : nat -> nat -> nat.
  Variable cache_size : nat.

  (** loop of rand_remove_list (184-189); gen_range on an empty range panics. *)
  Fixpoint draw (num : nat) (idx : list nat) : outcome (list nat) :=
    match num with
    | O => Ok []
    | S n =>
        match idx with
        | [] => Panic
        | _ =>
            let j := (rng num (length idx)) mod (length idx) in
            match draw n (take j idx ++ drop (S j) idx) with
            | Ok r => Ok (default 0 (idx !! j) :: r)
            | o => o
            end
        end
    end.
  (** rand_remove_list (178-192): indices are drawn from [0..len-1), so the last key is never chosen. *)
  Definition rand_remove_list (keys : list bytes) (num : nat) : outcome (list bytes) :=
    match draw num (seq 0 (length keys - 1)) with
    | Ok is => Ok (map (fun i => default [] (keys !! i)) is)
    | Err => Err | Panic => Panic
    end.

  (** flush (125-144). *)
  Definition flush (s : tdb) : outcome tdb :=
    let len := size (td_cache s) in
    if (len <=? cache_size * 2) then Ok s
    else match rand_remove_list (map fst (map_to_list (td_cache s))) (len - cache_size) with
         | Ok ks => Ok (TDb (td_db s) (fold_left (fun c k => delete k c) ks (td_cache s)))
         | Err => Err | Panic => Panic
         end.

  (** get (37-56). *)
  Definition tget (s : tdb) (k : bytes) : outcome (tdb * option bytes) :=
    match td_cache s !! k with
    | Some v => Ok (s, Some v)
    | None =>
        match td_db s !! k with
        | Some v => match flush (TDb (td_db s) (<[k := v]> (td_cache s))) with
                    | Ok s' => Ok (s', Some v) | Err => Err | Panic => Panic end
        | None => Ok (s, None)
        end
    end.
  (** contains (58-69): caches without flushing. *)
  Definition tcontains (s : tdb) (k : bytes) : tdb * bool :=
    match td_cache s !! k with
    | Some _ => (s, true)
    | None => match td_db s !! k with
              | Some v => (TDb (td_db s) (<[k := v]> (td_cache s)), true)
              | None => (s, false)
              end
    end.
  (** insert (71-83). *)
  Definition tinsert (s : tdb) (k v : bytes) : outcome tdb :=
    flush (TDb (<[k := v]> (td_db s)) (<[k := v]> (td_cache s))).
  (** insert_batch (85-115): the cache is filled before the column is written; [ok] tells whether
      the write succeeds. *)
  Definition put_all (m : gmap bytes bytes) (l : list (bytes * bytes)) : gmap bytes bytes :=
    fold_left (fun m kv => <[kv.1 := kv.2]> m) l m.
  Definition tbatch (s : tdb) (keys vals : list bytes) (ok : bool) : tdb * outcome unit :=
    if negb (Nat.eqb (length keys) (length vals)) then (s, Err)
    else
      let s1 := TDb (td_db s) (put_all (td_cache s) (zip keys vals)) in
      if ok then
        match flush (TDb (put_all (td_db s1) (zip keys vals)) (td_cache s1)) with
        | Ok s' => (s', Ok tt) | Err => (s1, Err) | Panic => (s1, Panic) end
      else (s1, Err).
  (** remove, remove_batch (117-123) do nothing. *)
  Definition tremove (s : tdb) (_ : bytes) : tdb := s.
End TrieDb.

(* ---------------- concurrent use ---------------- *)
(** Between two lock or database operations another thread may run.  [cc_fill] holds the cache writes
      that gets, contains (after reading the column, 46 and 63) and inserts (after writing it, 75) still have to make,
      [cc_batch] the column writes of batches whose entries are already cached (103-110). *)
Record cstate := CState { cc_db : gmap bytes bytes; cc_cache : gmap bytes bytes;
  cc_fill : list (bytes * bytes); cc_batch : list (list (bytes * bytes)) }.

Inductive cevent :=
| CHit (k : bytes)                              (* a read finds the key in the cache *)
| CMiss (k : bytes)                             (* a read, after a miss, reads the column *)
| CFill (i : nat)                               (* one of the outstanding cache writes happens *)
| CPut (k v : bytes)                            (* insert writes the column *)
| CBatchCache (l : list (bytes * bytes))        (* insert_batch fills the cache *)
| CBatchDb (i : nat)                            (* ... and writes the column *)
| CEvict (k : bytes).                           (* flush removes a key *)

(** The step and, for reads, the value returned. *)
Definition cstep (s : cstate) (e : cevent) : option (cstate * option (option bytes)) :=
  match e with
  | CHit k => match cc_cache s !! k with Some v => Some (s, Some (Some v)) | None => None end
  | CMiss k => Some (CState (cc_db s) (cc_cache s)
                 (match cc_db s !! k with Some v => (k, v) :: cc_fill s | None => cc_fill s end) (cc_batch s),
                 Some (cc_db s !! k))
  | CFill i => match cc_fill s !! i with
               | Some (k, v) => Some (CState (cc_db s) (<[k := v]> (cc_cache s)) (take i (cc_fill s) ++ drop (S i) (cc_fill s)) (cc_batch s), None)
               | None => None end
  | CPut k v => Some (CState (<[k := v]> (cc_db s)) (cc_cache s) ((k, v) :: cc_fill s) (cc_batch s), None)
  | CBatchCache l => Some (CState (cc_db s) (put_all (cc_cache s) l) (cc_fill s) (l :: cc_batch s), None)
  | CBatchDb i => match cc_batch s !! i with
                  | Some l => Some (CState (put_all (cc_db s) l) (cc_cache s) (cc_fill s) (take i (cc_batch s) ++ drop (S i) (cc_batch s)), None)
                  | None => None end
  | CEvict k => Some (CState (cc_db s) (delete k (cc_cache s)) (cc_fill s) (cc_batch s), None)
  end.
