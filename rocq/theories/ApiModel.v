(** Queries over the chain: eth_getLogs, block and log filters, subscriptions and eth_feeHistory.  Models
    /repo/core/api/src/jsonrpc/impl/{web3,filter}.rs and jsonrpc/ws_subscription.rs.  Hashes, addresses and log data are numbers;
    JSON is not modelled.  The storage appears as the chain of blocks and a function returning the receipts of a block; storage
    errors are left out (C32-C34 are about the storage). *)
From Verif Require Import Bytes TxModel.
From stdpp Require Import base gmap list.
From Coq.Floats Require Import SpecFloat.
#[local] Open Scope N_scope.

(* ---------------------------------------------------------------------- *)
(** * Chain data *)

Record alog := ALog { al_addr : N; al_topics : list N; al_data : N }.
(** protocol/src/types/receipt.rs, the fields read here *)
Record areceipt := AReceipt { ar_tx : N; ar_number : N; ar_bhash : N; ar_gas : N; ar_logs : list alog }.
Record ablock := ABlock { ab_number : N; ab_hash : N; ab_txs : list N; ab_gas_used : N; ab_gas_limit : N; ab_base_fee : N }.
(** What the adapter sees.  The chain is never empty (genesis). *)
Record chain := Chain { ch_blocks : list ablock; ch_receipts : N -> list N -> list (option areceipt) }.

(** adapter.rs:84-93: a block by number, or the latest one; 95-97: by hash *)
Definition block_at (c : chain) (n : N) : option ablock := ch_blocks c !! N.to_nat n.
Definition latest_block (c : chain) : option ablock := last (ch_blocks c).
Definition block_by_hash (c : chain) (h : N) : option ablock := List.find (fun b => ab_hash b =? h) (ch_blocks c).
Definition receipts_of (c : chain) (b : ablock) : list (option areceipt) := ch_receipts c (ab_number b) (ab_txs b).

(** web3_types.rs:326-333 *)
Inductive bid := BNum (n : N) | BHash (h : N) | BLatest | BEarliest | BPending.

(* ---------------------------------------------------------------------- *)
(** * Log matching (web3.rs:1131-1173) *)

Record wlog := WLog {
  wl_addr : N; wl_topics : list N; wl_data : N; wl_bhash : N; wl_number : N; wl_tx : N; wl_txidx : N; wl_logidx : N }.
(** Vec<Option<Vec<Option<Hash>>>> *)
Definition tfilter := list (option (list (option N))).

(** one position of the macro: [$topics[$offset].as_ref().map(|i| i.contains(&None) || i.contains(&Some(..))).unwrap_or(true)];
    both indexings are in range because of the length tests before *)
Definition topic_at (ts : tfilter) (lt : list N) (off : nat) : bool :=
  match nth off ts None with
  | Some alts =>
      existsb (fun a => match a with None => true | Some _ => false end) alts ||
      existsb (fun a => match a with Some x => x =? nth off lt 0 | None => false end) alts
  | None => true
  end.
Definition topic_case (ts : tfilter) (lt : list N) (k : nat) : bool :=
  Nat.eqb (length ts) k && Nat.leb k (length lt) && forallb (topic_at ts lt) (seq 0 k).
(** contains_topic! (1138-1156) *)
Definition contains_topic (ts : tfilter) (lt : list N) : bool :=
  match ts with [] => true | _ => false end || topic_case ts lt 1 || topic_case ts lt 2 || topic_case ts lt 3 || topic_case ts lt 4.

(** from_receipt_to_web3_log (1131-1173): what is pushed for one receipt *)
Definition addr_ok (addrs : list N) (a : N) : bool := match addrs with [] => true | _ => existsb (N.eqb a) addrs end.
Fixpoint receipt_logs (ts : tfilter) (addrs : list N) (index : N) (r : areceipt) (k : N) (logs : list alog) : list wlog :=
  match logs with
  | [] => []
  | l :: rest =>
      (if addr_ok addrs (al_addr l) && contains_topic ts (al_topics l)
       then [WLog (al_addr l) (al_topics l) (al_data l) (ar_bhash r) (ar_number r) (ar_tx r) index k] else [])
      ++ receipt_logs ts addrs index r (k + 1) rest
  end.
Definition from_receipt (ts : tfilter) (addrs : list N) (index : N) (r : areceipt) : list wlog :=
  receipt_logs ts addrs index r 0 (ar_logs r).

(** iter().flatten() *)
Definition flatten {A} (l : list (option A)) : list A := omap id l.

(* ---------------------------------------------------------------------- *)
(** * eth_getLogs (web3.rs:569-758) *)

Definition MAX_LOG_NUM : N := 10000.
Record wfilter := WFilter { wf_from : option bid; wf_to : option bid; wf_hash : option N; wf_addr : option (list N); wf_topics : option tfilter }.

(** extend_logs (590-612): the logs so far and whether the limit was passed *)
Fixpoint extend_logs (ts : tfilter) (addrs : list N) (index : N) (rs : list areceipt) (logs : list wlog) : list wlog * bool :=
  match rs with
  | [] => (logs, false)
  | r :: rest =>
      let logs' := logs ++ from_receipt ts addrs index r in
      if MAX_LOG_NUM <? N.of_nat (length logs') then (logs', true) else extend_logs ts addrs (index + 1) rest logs'
  end.
Definition block_logs (c : chain) (ts : tfilter) (addrs : list N) (b : ablock) (logs : list wlog) : list wlog * bool :=
  extend_logs ts addrs 0 (flatten (receipts_of c b)) logs.

(** convert (695-701) *)
Definition convert (latest : N) (i : bid) : N := match i with BNum n => n | BEarliest => 0 | _ => latest end.

(** the loop over start..=end (725-746), [left] numbers from [n]; the flag tells whether the last block was visited *)
Fixpoint logs_loop (left : nat) (n latest : N) (c : chain) (ts : tfilter) (addrs : list N) (logs : list wlog) (seen : bool)
  : outcome (list wlog * bool * bool) :=
  match left with
  | O => Ok (logs, seen, false)
  | S left' =>
      if n =? latest then logs_loop left' (n + 1) latest c ts addrs logs true
      else match block_at c n with
           | None => Panic                                       (* unwrap, 643 *)
           | Some b =>
               let '(logs', stop) := block_logs c ts addrs b logs in
               if stop then Ok (logs', seen, true) else logs_loop left' (n + 1) latest c ts addrs logs' seen
           end
  end.
(** the number of steps of start..=end *)
Definition span (start stop : N) : nat := N.to_nat (stop + 1 - start).

Definition get_logs (c : chain) (max_range : N) (f : wfilter) : outcome (list wlog) :=
  let ts := take 4 (default [] (wf_topics f)) in
  let addrs := default [] (wf_addr f) in
  match wf_hash f with
  | Some h => match block_by_hash c h with Some b => Ok (block_logs c ts addrs b []).1 | None => Err end
  | None =>
      match latest_block c with
      | None => Panic                                            (* unwrap, 691 *)
      | Some lb =>
          let latest := ab_number lb in
          let start := default latest (convert latest <$> wf_from f) in
          let stop := N.min (default latest (convert latest <$> wf_to f)) latest in
          if latest <? start then Err
          else if max_range <? stop - start then Err
          else match logs_loop (span start stop) start latest c ts addrs [] false with
               | Ok (logs, seen, early) =>
                   if early then Ok logs
                   else if seen then Ok (block_logs c ts addrs lb logs).1 else Ok logs
               | Err => Err
               | Panic => Panic
               end
      end
  end.

(* ---------------------------------------------------------------------- *)
(** * Filters (filter.rs) *)

(** LoggerFilter (31-37), after From<RawLoggerFilter> (39-54) has kept four topic positions *)
Record lfilter := LFilter { lf_from : option bid; lf_to : option bid; lf_addr : option (list N); lf_topics : tfilter }.
Definition lfilter_of (from to : option bid) (addr : option (list N)) (topics : option tfilter) : lfilter :=
  LFilter from to addr (take 4 (default [] topics)).

(** FilterHub (134-140).  [fh_alive]: the task that owns the hub is running; an unwrap inside it ends it. *)
Record hub := Hub { fh_logs : gmap N (lfilter * N); fh_blocks : gmap N (N * N); fh_alive : bool }.
Definition hub_empty : hub := Hub ∅ ∅ true.

(** check_hubs (184-190), times in milliseconds *)
Definition EXPIRE : N := 40000.
Definition check_hubs (now : N) (h : hub) : hub :=
  Hub (filter (fun kv => now - kv.2.2 < EXPIRE) (fh_logs h)) (filter (fun kv => now - kv.2.2 < EXPIRE) (fh_blocks h)) (fh_alive h).

(** Command::NewLogs (194-216) for a random id *)
Definition new_logs (c : chain) (now id : N) (f : lfilter) (h : hub) : outcome hub :=
  match latest_block c with
  | None => Panic
  | Some hd =>
      let f' := match default BLatest (lf_from f) with
                | BNum n => if n <? ab_number hd then LFilter (Some (BNum (ab_number hd + 1))) (lf_to f) (lf_addr f) (lf_topics f) else f
                | _ => LFilter (Some (BNum (ab_number hd + 1))) (lf_to f) (lf_addr f) (lf_topics f)
                end in
      Ok (Hub (<[id := (f', now)]> (fh_logs h)) (fh_blocks h) (fh_alive h))
  end.
(** Command::NewBlocks (217-227) *)
Definition new_blocks (c : chain) (now id : N) (h : hub) : outcome hub :=
  match latest_block c with
  | None => Panic
  | Some hd => Ok (Hub (fh_logs h) (<[id := (ab_number hd, now)]> (fh_blocks h)) (fh_alive h))
  end.

(** filter_block (254-285): hashes of start+1..latest *)
Fixpoint hashes_loop (left : nat) (n : N) (c : chain) : outcome (list N) :=
  match left with
  | O => Ok []
  | S left' =>
      match block_at c n with
      | None => Panic
      | Some b => match hashes_loop left' (n + 1) c with Ok l => Ok (ab_hash b :: l) | Err => Err | Panic => Panic end
      end
  end.
Definition filter_block (c : chain) (now id start time : N) (h : hub) : outcome (hub * list N) :=
  match latest_block c with
  | None => Panic
  | Some lb =>
      if ab_number lb <=? start then Ok (h, [])
      else match hashes_loop (N.to_nat (ab_number lb - (start + 1))) (start + 1) c with
           | Ok l => Ok (Hub (fh_logs h) (<[id := (ab_number lb, now)]> (fh_blocks h)) (fh_alive h), l ++ [ab_hash lb])
           | Err => Err
           | Panic => Panic
           end
  end.

(** extend_logs (336-346), without a limit *)
Fixpoint all_logs (ts : tfilter) (addrs : list N) (index : N) (rs : list areceipt) : list wlog :=
  match rs with
  | [] => []
  | r :: rest => from_receipt ts addrs index r ++ all_logs ts addrs (index + 1) rest
  end.
Definition block_all_logs (c : chain) (ts : tfilter) (addrs : list N) (b : ablock) : list wlog :=
  all_logs ts addrs 0 (flatten (receipts_of c b)).
Fixpoint filter_loop (left : nat) (n latest : N) (c : chain) (ts : tfilter) (addrs : list N) (seen : bool) : outcome (list wlog * bool) :=
  match left with
  | O => Ok ([], seen)
  | S left' =>
      if n =? latest then filter_loop left' (n + 1) latest c ts addrs true
      else match block_at c n with
           | None => Panic
           | Some b => match filter_loop left' (n + 1) latest c ts addrs seen with
                       | Ok (l, s) => Ok (block_all_logs c ts addrs b ++ l, s)
                       | Err => Err
                       | Panic => Panic
                       end
           end
  end.
(** filter_logs (287-389): the new filter (if it changes) and the logs; [Err] for a range that is too long *)
Definition filter_logs (c : chain) (max_range : N) (f : lfilter) : outcome (option lfilter * list wlog) :=
  match latest_block c with
  | None => Panic
  | Some lb =>
      let latest := ab_number lb in
      let start := default latest (convert latest <$> lf_from f) in
      let stop := N.min (default latest (convert latest <$> lf_to f)) latest in
      let addrs := default [] (lf_addr f) in
      if latest <? start then Ok (None, [])
      else if max_range <? stop - start then Err
      else match filter_loop (span start stop) start latest c (lf_topics f) addrs false with
           | Ok (l, seen) =>
               let f' := match lf_from f with
                         | Some (BNum _) => LFilter (Some (BNum (stop + 1))) (lf_to f) (lf_addr f) (lf_topics f)
                         | _ => f
                         end in
               Ok (Some f', l ++ (if seen then block_all_logs c (lf_topics f) addrs lb else []))
           | Err => Err
           | Panic => Panic
           end
  end.

(** What a client gets back. *)
Inductive answer := AId (id : N) | ABlocks (l : list N) | ALogs (l : list wlog) | AError | ABool (b : bool).

(** impl_filter (237-252) *)
Definition poll (c : chain) (max_range now id : N) (h : hub) : outcome (hub * answer) :=
  match fh_blocks h !! id with
  | Some (start, time) =>
      match filter_block c now id start time h with Ok (h', l) => Ok (h', ABlocks l) | Err => Err | Panic => Panic end
  | None =>
      match fh_logs h !! id with
      | Some (f, time) =>
          match filter_logs c max_range f with
          | Ok (Some f', l) => Ok (Hub (<[id := (f', now)]> (fh_logs h)) (fh_blocks h) (fh_alive h), ALogs l)
          | Ok (None, l) => Ok (h, ALogs l)
          | Err => Ok (Hub (delete id (fh_logs h)) (fh_blocks h) (fh_alive h), AError)
          | Panic => Panic
          end
      | None => Ok (h, AError)
      end
  end.
(** Command::Uninstall (229-233); [||] does not look into the log hub when a block filter was removed *)
Definition uninstall (id : N) (h : hub) : hub * bool :=
  match fh_blocks h !! id with
  | Some _ => (Hub (fh_logs h) (delete id (fh_blocks h)) (fh_alive h), true)
  | None => (Hub (delete id (fh_logs h)) (fh_blocks h) (fh_alive h), match fh_logs h !! id with Some _ => true | None => false end)
  end.

(** An execution: requests, the 20 s timer, time passing, blocks being appended.  [gone]: the client no longer waits for the answer,
    so that [sender.send(..).unwrap()] panics.  new_filter (62-80) rejects some requests before they reach the hub. *)
Inductive fev :=
| FNewBlocks (id : N) (gone : bool)
| FNewLogs (id : N) (f : lfilter) (gone : bool)
| FPoll (id : N) (gone : bool)
| FUninstall (id : N) (gone : bool)
| FTimer
| FTime (dt : N)
| FGrow (b : ablock).

Record fstate := FS { fs_chain : chain; fs_hub : hub; fs_now : N }.
Definition bad_range (f : lfilter) : bool :=
  match lf_from f with Some BPending => true | _ => false end ||
  match lf_to f with Some BEarliest => true | Some (BNum n) => n =? 0 | _ => false end.
Definition dead (h : hub) : hub := Hub (fh_logs h) (fh_blocks h) false.
(** the answer reaches the client, or the hub's task panics because there is no client *)
Definition reply (s : fstate) (gone : bool) (r : outcome (hub * answer)) : fstate * option answer :=
  match r with
  | Ok (h, a) => if gone then (FS (fs_chain s) (dead h) (fs_now s), None) else (FS (fs_chain s) h (fs_now s), Some a)
  | _ => (FS (fs_chain s) (dead (fs_hub s)) (fs_now s), Some AError)
  end.
Definition fstep (max_range : N) (s : fstate) (e : fev) : fstate * option answer :=
  let h := fs_hub s in
  match e with
  | FTime dt => (FS (fs_chain s) h (fs_now s + dt), None)
  | FGrow b => (FS (Chain (ch_blocks (fs_chain s) ++ [b]) (ch_receipts (fs_chain s))) h (fs_now s), None)
  | FTimer => if fh_alive h then (FS (fs_chain s) (check_hubs (fs_now s) h) (fs_now s), None) else (s, None)
  | FNewBlocks id gone =>
      if fh_alive h then reply s gone (match new_blocks (fs_chain s) (fs_now s) id h with Ok h' => Ok (h', AId id) | Err => Err | Panic => Panic end)
      else (s, Some AError)
  | FNewLogs id f gone =>
      if bad_range f then (s, Some AError)
      else if fh_alive h then reply s gone (match new_logs (fs_chain s) (fs_now s) id f h with Ok h' => Ok (h', AId id) | Err => Err | Panic => Panic end)
      else (s, Some AError)
  | FPoll id gone => if fh_alive h then reply s gone (poll (fs_chain s) max_range (fs_now s) id h) else (s, Some AError)
  | FUninstall id gone =>
      if fh_alive h then let '(h', b) := uninstall id h in reply s gone (Ok (h', ABool b)) else (s, Some AError)
  end.
(** a run, oldest event first, with its answers *)
Fixpoint frun (max_range : N) (s : fstate) (es : list fev) : fstate * list (fev * option answer) :=
  match es with
  | [] => (s, [])
  | e :: rest => let '(s1, a) := fstep max_range s e in let '(s2, t) := frun max_range s1 rest in (s2, (e, a) :: t)
  end.

(* ---------------------------------------------------------------------- *)
(** * Subscriptions (ws_subscription.rs) *)

(** Subscription (70-77) without the syncing hubs; a hub is the subscriber's number. *)
Record subs := Subs { sb_logs : list (N * (list N * tfilter)); sb_heads : list N; sb_current : N }.
Inductive smsg := SHead (hash : N) | SLog (l : wlog).

(** logs of one block for every log hub (176-201): [index] starts at 0 and grows by the number of logs of each receipt *)
Fixpoint sub_receipts (hubs : list (N * (list N * tfilter))) (index : N) (rs : list areceipt) : list (N * smsg) :=
  match rs with
  | [] => []
  | r :: rest =>
      flat_map (fun hb => map (fun l => (hb.1, SLog l)) (from_receipt hb.2.2 hb.2.1 index r)) hubs
      ++ sub_receipts hubs (index + N.of_nat (length (ar_logs r))) rest
  end.
Fixpoint blocks_loop (left : nat) (n : N) (c : chain) : outcome (list ablock) :=
  match left with
  | O => Ok []
  | S left' =>
      match block_at c n with
      | None => Panic
      | Some b => match blocks_loop left' (n + 1) c with Ok l => Ok (b :: l) | Err => Err | Panic => Panic end
      end
  end.
(** notify (102-207), after closed sinks were removed: the messages handed to SubscriptionSink::send, in order *)
Definition notify (c : chain) (s : subs) : outcome (subs * list (N * smsg)) :=
  match latest_block c with
  | None => Panic
  | Some lb =>
      if sb_current s =? ab_number lb then Ok (s, [])
      else
        let between := blocks_loop (N.to_nat (ab_number lb - (sb_current s + 1))) (sb_current s + 1) c in
        let need := match sb_heads s, sb_logs s with [], [] => false | _, _ => true end in
        match (if need then between else Ok []) with
        | Ok bs =>
            let heads := flat_map (fun b => map (fun hb => (hb, SHead (ab_hash b))) (sb_heads s)) (bs ++ [lb]) in
            let logs := match sb_logs s with
                        | [] => []
                        | hubs => flat_map (fun b => sub_receipts hubs 0 (flatten (receipts_of c b))) (bs ++ [lb])
                        end in
            Ok (Subs (sb_logs s) (sb_heads s) (ab_number lb), heads ++ logs)
        | Err => Err
        | Panic => Panic
        end
  end.
(** run (212-240): subscriptions arrive over the channel, the 3 s timer calls notify.  A closed sink (retain, 103-105) leaves its hub;
    here it leaves when it is closed.  [SGrow] is the rest of the node appending a block. *)
Record sstate := SS { ss_chain : chain; ss_subs : subs }.
Inductive sev := SHeads (id : N) | SLogs (id : N) (addrs : list N) (ts : tfilter) | SClose (id : N) | STick | SGrow (b : ablock).
Definition sstep (s : sstate) (e : sev) : outcome (sstate * list (N * smsg)) :=
  let u := ss_subs s in
  match e with
  | SHeads id => Ok (SS (ss_chain s) (Subs (sb_logs u) (sb_heads u ++ [id]) (sb_current u)), [])
  | SLogs id addrs ts => Ok (SS (ss_chain s) (Subs (sb_logs u ++ [(id, (addrs, take 4 ts))]) (sb_heads u) (sb_current u)), [])
  | SClose id => Ok (SS (ss_chain s) (Subs (filter (fun h => h.1 <> id) (sb_logs u)) (filter (fun h => h <> id) (sb_heads u)) (sb_current u)), [])
  | STick => match notify (ss_chain s) u with Ok (u', l) => Ok (SS (ss_chain s) u', l) | Err => Err | Panic => Panic end
  | SGrow b => Ok (SS (Chain (ch_blocks (ss_chain s) ++ [b]) (ch_receipts (ss_chain s))) u, [])
  end.
(** oldest event first *)
Fixpoint srun (s : sstate) (es : list sev) : outcome (sstate * list (N * smsg)) :=
  match es with
  | [] => Ok (s, [])
  | e :: rest =>
      match sstep s e with
      | Ok (s1, l1) => match srun s1 rest with Ok (s2, l2) => Ok (s2, l1 ++ l2) | Err => Err | Panic => Panic end
      | Err => Err
      | Panic => Panic
      end
  end.
(** new (85-100) *)
Definition subs_new (c : chain) : outcome subs := match latest_block c with Some b => Ok (Subs [] [] (ab_number b)) | None => Panic end.

(** [hub.sink.send(msg)] builds a future that is bound to [_ignore] and dropped (139, 147, 158, 197).  [eager] says whether calling
    [send] already sends; in jsonrpsee 0.20.3, the locked version, it is an async fn and does not. *)
Definition delivered (eager : bool) (l : list (N * smsg)) : list (N * smsg) := if eager then l else [].

(* ---------------------------------------------------------------------- *)
(** * eth_feeHistory (web3.rs) *)

(** f64 as the standard library's specification floats *)
Definition f64 := spec_float.
Definition prec64 : Z := 53.
Definition emax64 : Z := 1024.
Definition f_of_N (n : N) : f64 := binary_normalize prec64 emax64 (Z.of_N n) 0 false.
Definition f_mul := SFmul prec64 emax64.
Definition f_div := SFdiv prec64 emax64.
(** a >= b, a < b, a > b; all false when one is NaN *)
Definition f_ge (a b : f64) : bool := match SFcompare a b with Some (Gt | Eq) => true | _ => false end.
Definition f_lt (a b : f64) : bool := match SFcompare a b with Some Lt => true | _ => false end.
Definition f_gt (a b : f64) : bool := match SFcompare a b with Some Gt => true | _ => false end.
Definition f0 : f64 := S754_zero false.
Definition f100 : f64 := f_of_N 100.
(** x.floor() as usize: the cast saturates, NaN gives 0 *)
Definition floor_usize (x : f64) : N :=
  match x with
  | S754_zero _ | S754_nan => 0
  | S754_infinity s => if s then 0 else 2 ^ 64 - 1
  | S754_finite true _ _ => 0
  | S754_finite false m e => N.min (Z.to_N (Z.shiftl (Zpos m) e)) (2 ^ 64 - 1)
  end.

(** check_reward_percentiles (1059-1071): the first bad window of two *)
Fixpoint windows_ok (l : list f64) : bool :=
  match l with
  | a :: ((b :: _) as rest) => negb (f_ge a b || f_lt a f0 || f_gt a f100) && windows_ok rest
  | _ => true
  end.
Definition check_percentiles (p : option (list f64)) : bool := match p with Some l => windows_ok l | None => true end.

(** calculate_gas_used_ratio (1074-1080) *)
Definition gas_ratio (b : ablock) : f64 :=
  if ab_gas_limit b =? 0 then f0 else f_mul (f_div (f_of_N (ab_gas_used b)) (f_of_N (ab_gas_limit b))) f100.
(** calculate_effective_priority_fees_index (1084-1090) *)
Definition fee_index (p : f64) (len : N) : N := floor_usize (f_div (f_mul p (f_of_N len)) f100) - 1.
(** calculate_rewards (92-133): one row *)
Definition reward_row (c : chain) (b : ablock) (ps : list f64) : list N :=
  let fees := map (fun r => match r with Some r => ar_gas r - ab_base_fee b | None => 0 end) (receipts_of c b) in
  map (fun p => nth (N.to_nat (fee_index p (N.of_nat (length fees)))) fees 0) ps.

Definition MAX_FEE_HISTORY : N := 1024.
Definition BASE_FEE_PER_GAS : N := 1337.
Record feehist := FeeHist { fh_oldest : N; fh_base : list N; fh_ratio : list f64; fh_reward : list (list N) }.

(** the loop over oldest..=latest (157-181); missing blocks are skipped *)
Fixpoint fee_loop (left : nat) (n : N) (c : chain) (ps : option (list f64)) : list N * list f64 * list (list N) :=
  match left with
  | O => ([], [], [])
  | S left' =>
      let '(bs, rs, ws) := fee_loop left' (n + 1) c ps in
      match block_at c n with
      | None => (bs, rs, ws)
      | Some b => (ab_base_fee b :: BASE_FEE_PER_GAS :: bs, gas_ratio b :: rs,
                   match ps with Some l => reward_row c b l :: ws | None => ws end)
      end
  end.
(** inner_fee_history (135-191) *)
Definition inner_fee_history (c : chain) (height : option N) (count : N) (ps : option (list f64)) : outcome feehist :=
  match (match height with Some n => block_at c n | None => latest_block c end) with
  | None => Err
  | Some lb =>
      let latest := ab_number lb in
      let oldest := latest - count + 1 in
      let '(bs, rs, ws) := fee_loop (span oldest latest) oldest c ps in
      Ok (FeeHist oldest bs rs ws)
  end.
(** fee_history (761-888): [None] for the reward list of the answers without rewards; the answer for zero blocks is [FeeHist 0] *)
Inductive feeans := FeeZero | FeePlain (f : feehist) | FeeReward (f : feehist).
Definition fee_history (c : chain) (count : N) (newest : bid) (ps : option (list f64)) : outcome feeans :=
  if negb (check_percentiles ps) then Err
  else
    let count := N.min count MAX_FEE_HISTORY in
    if count =? 0 then Ok FeeZero
    else
      let wrap (f : feehist) := match ps with None | Some [] => FeePlain f | Some _ => FeeReward f end in
      match newest with
      | BNum n => match inner_fee_history c (Some n) count ps with Ok f => Ok (wrap f) | Err => Err | Panic => Panic end
      | BLatest | BPending => match inner_fee_history c None count ps with Ok f => Ok (wrap f) | Err => Err | Panic => Panic end
      | BEarliest =>
          match block_at c 0 with
          | None => Panic
          | Some b => Ok (wrap (FeeHist (ab_number b) [ab_base_fee b; BASE_FEE_PER_GAS] [gas_ratio b]
                                  (match ps with Some (_ :: _ as l) => [reward_row c b l] | _ => [] end)))
          end
      | BHash _ => Err
      end.
