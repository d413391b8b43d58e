(** The transaction pool: /repo/core/mempool/src/pool.rs and tx_wrapper.rs.

    Simplifications.
    - Hashes, addresses and nonces are numbers (their big-endian values; the order of
      the code's [BTreeMap]s on 32-byte hashes is the numeric order).
    - Only the parts of a transaction the pool looks at are kept.
    - Every public method runs atomically: interleavings of several threads inside one
      method are not modelled here.  The background task of [PriorityPool::new] (pool.rs:64-89) is the separate
      operation [refresh]; it runs the same loop as [flush_to_pending_queue].
    - [Arc<TxWrapper>] is an immutable transaction plus an identity [pt_id]; the two
      bits of its [AtomicU8] state live in the sets [f_pkg] and [f_drop].
    - The iteration order of a [DashMap] is unspecified; it only influences the order of
      the system-transaction hashes at the head of a package. *)
From stdpp Require Export gmap list fin_maps fin_map_dom sets.
From Coq Require Export NArith Lia.
From Verif Require Import TxModel.
Global Open Scope N_scope.

(** [stx.transaction.hash], [stx.sender], nonce, gas price, gas limit, data. *)
Record ptx := Ptx {
  t_hash : N; t_sender : N; t_nonce : N; t_price : N; t_gas : N; t_data : list N }.
Global Instance ptx_eq_dec : EqDecision ptx.
Proof. solve_decision. Defined.

(** tx_wrapper.rs:8-26. *)
Record ptr := Ptr { pt_id : N; pt_tx : ptx }.
Global Instance ptr_eq_dec : EqDecision ptr.
Proof. solve_decision. Defined.
Record flags := Flags { f_drop : gset N; f_pkg : gset N }.

Definition phash (p : ptr) : N := t_hash (pt_tx p).
Definition pnonce (p : ptr) : N := t_nonce (pt_tx p).
Definition psender (p : ptr) : N := t_sender (pt_tx p).
Definition pprice (p : ptr) : N := t_price (pt_tx p).

(** tx_wrapper.rs:73-87. *)
Definition is_dropped (f : flags) (p : ptr) : bool := bool_decide (pt_id p ∈ f_drop f).
Definition set_dropped (f : flags) (p : ptr) : flags := Flags ({[pt_id p]} ∪ f_drop f) (f_pkg f).
Definition is_package (f : flags) (p : ptr) : bool := bool_decide (pt_id p ∈ f_pkg f).
Definition set_package (f : flags) (p : ptr) : flags := Flags (f_drop f) ({[pt_id p]} ∪ f_pkg f).

Definition U64_MAX : N := 2^64 - 1.

(** PendingQueue, tx_wrapper.rs:90-97. *)
Record pq := PQ { q_map : gmap N ptr; q_pop : N; q_cur : N; q_rm : bool }.
Definition pq_default : pq := PQ ∅ 0 0 false.

(** PendingQueue::insert, tx_wrapper.rs:100-132.  [U64] subtraction panics on underflow. *)
Definition pq_insert (f : flags) (q : pq) (tx : ptr) (nonce_diff : N) : outcome (flags * pq * bool) :=
  let nonce := pnonce tx in
  if nonce <? nonce_diff then Panic else
  let current_tip := nonce - nonce_diff in
  if nonce <? q_cur q then Ok (set_dropped f tx, q, false) else
  let q := if q_cur q <? current_tip
           then PQ (q_map q) current_tip current_tip (q_rm q) else q in
  match q_map q !! nonce with
  | Some old =>
      if pprice old <? pprice tx then
        let q := PQ (<[nonce := tx]> (q_map q)) (q_pop q) (q_cur q) (q_rm q) in
        let f := set_dropped f old in
        if is_package f old then Ok (set_package f tx, q, true) else Ok (f, q, false)
      else Ok (set_dropped f tx, q, false)
  | None => Ok (f, PQ (<[nonce := tx]> (q_map q)) (q_pop q) (q_cur q) (q_rm q), false)
  end.

(** PendingQueue::try_search_package_list, tx_wrapper.rs:134-149.  The code walks the
    ordered entries from [pop_tip_nonce] on and stops at the first gap, which is
    looking up successive nonces; [fuel] = number of entries + 1.  [U64] addition panics on overflow. *)
Fixpoint pq_search (fuel : nat) (f : flags) (m : gmap N ptr) (current : N) (out : list ptr)
    : outcome (flags * N * list ptr) :=
  match fuel with
  | O => Ok (f, current, out)
  | S k =>
      match m !! current with
      | None => Ok (f, current, out)
      | Some v =>
          if current =? U64_MAX then Panic
          else if is_package f v then pq_search k f m (current + 1) out
          else pq_search k (set_package f v) m (current + 1) (out ++ [v])
      end
  end.
Definition pq_try_search (f : flags) (q : pq) (out : list ptr) : outcome (flags * pq * list ptr) :=
  match pq_search (S (size (q_map q))) f (q_map q) (q_pop q) out with
  | Ok (f', c, l) => Ok (f', PQ (q_map q) c (q_cur q) (q_rm q), l)
  | Err => Err
  | Panic => Panic
  end.

(** PendingQueue::clear_droped, tx_wrapper.rs:151-156. *)
Definition pq_clear (f : flags) (q : pq) : pq :=
  PQ (filter (λ kv, is_dropped f kv.2 = false) (q_map q)) (q_pop q) (q_cur q)
     (if bool_decide (q_map q = ∅) then true else q_rm q).

(** PendingQueue::count, tx_wrapper.rs:166-171. *)
Definition pq_count (f : flags) (q : pq) : nat :=
  size (filter (λ kv : N * ptr, is_dropped f kv.2 = false) (q_map q)).

(** PriorityPool, pool.rs:21-42. *)
Record pool := Pool {
  p_next : N;                                (* next pointer identity *)
  p_flags : flags;
  p_hash_data : gmap N (list N);             (* sys_tx_bucket.hash_data_map *)
  p_buckets : gmap (list N) (gmap N ptx);    (* sys_tx_bucket.tx_buckets *)
  p_pending : gmap N pq;
  p_co : list (ptr * N);
  p_real : list ptr;
  p_txmap : gmap N ptr;
  p_stock : N;
  p_gap : gmap N (gset N) }.

Definition pool_new : pool :=
  Pool 0 (Flags ∅ ∅) ∅ ∅ ∅ [] [] ∅ 0 ∅.

(** pool.rs:190-204, one round of the drain loop: [or_default], the per-account limit,
    insertion and search for packageable transactions. *)
Definition drain_one (st : outcome (flags * gmap N pq * list ptr)) (e : ptr * N)
    : outcome (flags * gmap N pq * list ptr) :=
  match st with
  | Ok (f, pend, real) =>
      let tx := e.1 in
      let s := psender tx in
      let q := default pq_default (pend !! s) in
      if (64 <? size (q_map q))%nat then Ok (set_dropped f tx, <[s := q]> pend, real)
      else
        match pq_insert f q tx e.2 with
        | Ok (f1, q1, push) =>
            let real1 := if push then real ++ [tx] else real in
            match pq_try_search f1 q1 real1 with
            | Ok (f2, q2, real2) => Ok (f2, <[s := q2]> pend, real2)
            | Err => Err
            | Panic => Panic
            end
        | Err => Err
        | Panic => Panic
        end
  | o => o
  end.

(** flush_to_pending_queue, pool.rs:186-205 (and the body of the background task). *)
Definition flush_to_pending (s : pool) : outcome pool :=
  match fold_left drain_one (p_co s) (Ok (p_flags s, p_pending s, p_real s)) with
  | Ok (f, pend, real) =>
      Ok (Pool (p_next s) f (p_hash_data s) (p_buckets s) pend [] real (p_txmap s) (p_stock s) (p_gap s))
  | Err => Err
  | Panic => Panic
  end.

Section Pool.
(** [co_queue.capacity()] and [timeout_config]. *)
Variables (capacity timeout_config : N).

(** [co_queue.push], result ignored by the caller: a full queue rejects. *)
Definition co_push (co : list (ptr * N)) (e : ptr * N) : list (ptr * N) :=
  if N.of_nat (length co) <? capacity then co ++ [e] else co.

(** PriorityPool::insert, pool.rs:111-153.  The counter is a [usize]; its overflow is not modelled
    (it would need 2^64 insertions). *)
Definition pool_insert (s : pool) (stx : ptx) (check_limit : bool) (check_nonce : N) : outcome pool :=
  if (capacity <=? p_stock s) && check_limit then Err else
  let s1 := Pool (p_next s) (p_flags s) (p_hash_data s) (p_buckets s) (p_pending s) (p_co s)
                 (p_real s) (p_txmap s) (p_stock s + 1) (p_gap s) in
  let o := if negb check_limit && (capacity <=? N.of_nat (length (p_co s1)))
           then flush_to_pending s1 else Ok s1 in
  match o with
  | Ok s2 =>
      let p := Ptr (p_next s2) stx in
      match p_txmap s2 !! t_hash stx with
      | Some _ =>
          Ok (Pool (p_next s2 + 1) (p_flags s2) (p_hash_data s2) (p_buckets s2) (p_pending s2)
                (p_co s2) (p_real s2) (p_txmap s2) (p_stock s2 - 1) (p_gap s2))
      | None =>
          Ok (Pool (p_next s2 + 1) (p_flags s2) (p_hash_data s2) (p_buckets s2) (p_pending s2)
                (co_push (p_co s2) (p, check_nonce)) (p_real s2)
                (<[t_hash stx := p]> (p_txmap s2)) (p_stock s2) (p_gap s2))
      end
  | o => o
  end.

(** BuiltInContractTxBucket::insert, pool.rs:330-339, and insert_system_script_tx, pool.rs:103-109. *)
Definition pool_insert_sys (s : pool) (stx : ptx) : pool :=
  let d := t_data stx in
  let b := default ∅ (p_buckets s !! d) in
  let is_none := match b !! t_hash stx with None => true | Some _ => false end in
  Pool (p_next s) (p_flags s) (<[t_hash stx := d]> (p_hash_data s))
    (<[d := <[t_hash stx := stx]> b]> (p_buckets s)) (p_pending s) (p_co s) (p_real s) (p_txmap s)
    (if is_none then p_stock s + 1 else p_stock s) (p_gap s).

(** BuiltInContractTxBucket::package, pool.rs:341-353: the least hash of each bucket; an
    empty bucket makes the [unwrap] panic (then the list has no element here for it and
    [sys_package_ok] is false). *)
Definition least_hash (b : gmap N ptx) : option N :=
  match (map_to_list b).*1 with
  | [] => None
  | h :: t => Some (fold_left N.min t h)
  end.
Definition sys_package (s : pool) : list N :=
  omap (λ kv : list N * gmap N ptx, least_hash kv.2) (map_to_list (p_buckets s)).
Definition sys_package_ok (s : pool) : bool :=
  forallb (λ kv : list N * gmap N ptx, bool_decide (kv.2 ≠ ∅)) (map_to_list (p_buckets s)).

(** impl Ord for TxWrapper, tx_wrapper.rs:29-36. *)
Definition tx_cmp (a b : ptr) : comparison :=
  if psender a =? psender b then pnonce a ?= pnonce b else pprice a ?= pprice b.

(** [sort_unstable] with that order, abstract: the order is not transitive, so
    all the standard library guarantees is a permutation. *)
Variable sort : list ptr -> list ptr.

(** PriorityPool::package, pool.rs:155-184.  The gas limit argument is not used by the code.
    Returns the new state, the hashes and the number of system transactions. *)
Definition pool_package (s : pool) (gas_limit : N) (limit : nat) : outcome (pool * (list N * N)) :=
  if sys_package_ok s then
    let hashes := sys_package s in
    let count := N.of_nat (length hashes) mod 2^32 in
    let o := if bool_decide (p_co s = []) then Ok s else flush_to_pending s in
    match o with
    | Ok s1 =>
        let q := sort (p_real s1) in
        let out := take limit (phash <$> filter (λ p, is_dropped (p_flags s1) p = false) q) in
        Ok (Pool (p_next s1) (p_flags s1) (p_hash_data s1) (p_buckets s1) (p_pending s1) (p_co s1) q
              (p_txmap s1) (p_stock s1) (p_gap s1), (hashes ++ out, count))
    | Err => Err
    | Panic => Panic
    end
  else Panic.

(** pool.rs:254-270: take the hashes out of the map, remember the highest nonce per sender. *)
Definition remove_one (st : gmap N ptr * gmap N N * N) (h : N) : gmap N ptr * gmap N N * N :=
  let '(m, tips, reduce) := st in
  match m !! h with
  | Some p =>
      (delete h m,
       <[psender p := match tips !! psender p with
                      | Some v => if v <? pnonce p then pnonce p else v
                      | None => pnonce p
                      end]> tips,
       reduce + 1)
  | None => st
  end.

(** PendingQueue::set_drop_by_nonce_tip, tx_wrapper.rs:158-164, for every sender with a tip (pool.rs:272-276):
    the pointers that get dropped and the new queues. *)
Definition tip_dropped (pend : gmap N pq) (tips : gmap N N) : gset N :=
  list_to_set
    (map_to_list pend ≫= λ kv : N * pq,
       match tips !! kv.1 with
       | Some v => (λ np : N * ptr, pt_id np.2) <$> filter (λ np : N * ptr, np.1 <= v) (map_to_list (q_map kv.2))
       | None => []
       end).
Definition tip_queues (pend : gmap N pq) (tips : gmap N N) : gmap N pq :=
  map_imap (λ (s : N) (q : pq), Some match tips !! s with
                  | Some v => PQ (q_map q) (v + 1) (v + 1) (q_rm q)
                  | None => q
                  end) pend.
Definition tip_panics (pend : gmap N pq) (tips : gmap N N) : bool :=
  existsb (λ kv : N * N, (U64_MAX <=? kv.2) && match pend !! kv.1 with Some _ => true | None => false end)
    (map_to_list tips).

(** flush_inner, pool.rs:250-305, on a state whose queue has been drained.  Returns the state and the
    number of removed transactions. *)
Definition flush_inner (s : pool) (hashes : list N) (number : N) : outcome (pool * N) :=
  let '(m, tips, reduce) := fold_left remove_one hashes (p_txmap s, ∅, 0) in
  if tip_panics (p_pending s) tips then Panic else
  let f1 := Flags (tip_dropped (p_pending s) tips ∪ f_drop (p_flags s)) (f_pkg (p_flags s)) in
  let pend1 := tip_queues (p_pending s) tips in
  let timed_out : gset N :=
    if timeout_config <=? number then default ∅ (p_gap s !! (number - timeout_config)) else ∅ in
  let gap1 := if timeout_config <=? number then delete (number - timeout_config) (p_gap s) else p_gap s in
  let keep := λ p : ptr, negb (is_dropped f1 p) && negb (bool_decide (phash p ∈ timed_out)) in
  let m1 := filter (λ kv, keep kv.2 = true) m in
  let gone := filter (λ kv, keep kv.2 = false) m in
  let f2 := Flags (list_to_set ((λ kv : N * ptr, pt_id kv.2) <$> map_to_list gone) ∪ f_drop f1) (f_pkg f1) in
  let gap2 := <[number := default ∅ (gap1 !! number) ∪ dom m1]> gap1 in
  let real := filter (λ p, is_dropped f2 p = false) (p_real s) in
  let pend2 := filter (λ kv, q_rm kv.2 = false) (pq_clear f2 <$> pend1) in
  Ok (Pool (p_next s) f2 (p_hash_data s) (p_buckets s) pend2 (p_co s) real m1 (p_stock s) gap2,
      reduce + N.of_nat (size gone)).

(** BuiltInContractTxBucket::flush, pool.rs:365-373. *)
Definition sys_flush_one (st : gmap N (list N) * gmap (list N) (gmap N ptx) * N) (h : N) :=
  let '(hd, b, reduce) := st in
  match hd !! h with
  | Some d =>
      (delete h hd, delete d b, if b !! d then reduce + 1 else reduce)
  | None => st
  end.

(** [AtomicUsize::fetch_sub] wraps. *)
Definition wrapping_sub (a b : N) : N := if b <=? a then a - b else a + 2^64 - b.

(** PriorityPool::flush, pool.rs:238-248. *)
Definition pool_flush (s : pool) (hashes : list N) (number : N) : outcome pool :=
  match flush_to_pending s with
  | Ok s1 =>
      match flush_inner s1 hashes number with
      | Ok (s2, reduce) =>
          let '(hd, b, reduce2) := fold_left sys_flush_one hashes (p_hash_data s2, p_buckets s2, reduce) in
          Ok (Pool (p_next s2) (p_flags s2) hd b (p_pending s2) (p_co s2) (p_real s2) (p_txmap s2)
                (wrapping_sub (p_stock s2) reduce2) (p_gap s2))
      | Err => Err
      | Panic => Panic
      end
  | o => o
  end.

(** pool.rs:207-227. *)
Definition pool_len (s : pool) : N := p_stock s.
Definition sys_contains (s : pool) (h : N) : bool :=
  match p_hash_data s !! h with
  | Some d => match p_buckets s !! d with
              | Some b => match b !! h with Some _ => true | None => false end
              | None => false
              end
  | None => false
  end.
Definition pool_contains (s : pool) (h : N) : bool :=
  match p_txmap s !! h with Some _ => true | None => sys_contains s h end.
Definition reach_limit (s : pool) : bool := capacity <? pool_len s.

(** get_by_hash, pool.rs:229-236, with BuiltInContractTxBucket::get_tx_by_hash, pool.rs:355-363. *)
Definition sys_get (s : pool) (h : N) : option ptx :=
  match p_hash_data s !! h with
  | Some d => match p_buckets s !! d with Some b => b !! h | None => None end
  | None => None
  end.
Definition pool_get (s : pool) (h : N) : option ptx :=
  match p_txmap s !! h with Some p => Some (pt_tx p) | None => sys_get s h end.

(** get_tx_count_by_address, pool.rs:94-101 (count only). *)
Definition pool_count (s : pool) (a : N) : nat :=
  match p_pending s !! a with Some q => pq_count (p_flags s) q | None => 0%nat end.

(** Operations of the pool and their effect; [Err] leaves the state unchanged, [Panic] ends the run. *)
Inductive op :=
| OInsert (tx : ptx) (check_limit : bool) (check_nonce : N)
| OInsertSys (tx : ptx)
| OPackage (gas_limit : N) (limit : nat)
| OFlush (hashes : list N) (number : N)
| ORefresh.

Definition step (s : pool) (o : op) : outcome pool :=
  match o with
  | OInsert tx l n =>
      match pool_insert s tx l n with Ok s' => Ok s' | Err => Ok s | Panic => Panic end
  | OInsertSys tx => Ok (pool_insert_sys s tx)
  | OPackage g l => match pool_package s g l with Ok (s', _) => Ok s' | Err => Ok s | Panic => Panic end
  | OFlush h n => pool_flush s h n
  | ORefresh => flush_to_pending s
  end.
Fixpoint run (s : pool) (ops : list op) : outcome pool :=
  match ops with
  | [] => Ok s
  | o :: r => match step s o with Ok s' => run s' r | Err => Err | Panic => Panic end
  end.
End Pool.

(** [sort_unstable] of the Rust 1.72 standard library (core::slice::sort, the version pinned by
    /repo/rust-toolchain) on at most 20 elements: [insertion_sort_shift_left], here with the sorted
    prefix held in reverse.  Longer slices use pattern-defeating quicksort, which is not modelled. *)
Definition tx_lt (a b : ptr) : bool := match tx_cmp a b with Lt => true | _ => false end.
Fixpoint ins_rev (x : ptr) (rev_prefix : list ptr) : list ptr :=
  match rev_prefix with
  | [] => [x]
  | y :: r => if tx_lt x y then y :: ins_rev x r else x :: y :: r
  end.
Definition isort (l : list ptr) : list ptr := rev (fold_left (λ acc x, ins_rev x acc) l []).
