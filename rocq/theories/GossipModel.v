(** How an accepted transaction spreads: admission, the interval broadcaster, gossip and delivery, for a network of nodes.
    Models /repo/core/mempool/src/adapter/mod.rs 42-115 and 366-384, adapter/message.rs 30-78, the parts of core/mempool/src/lib.rs that
    decide whether a transaction is passed on (95-133), and core/network/src/outbound/gossip.rs 150-177 through [gossip_targets].
    Simplified: a transaction is its hash, a node has one session per peer and the session is named by the peer, the peers do not change,
    and a transaction that a node has accepted stays known to it (in the pool or, after its commit, in the database). *)
From Verif Require Import NetModel.
From stdpp Require Import base gmap list.
#[local] Open Scope N_scope.

(* ---------------------------------------------------------------------- *)
(** * The broadcaster (adapter/mod.rs 42-115) *)

(** txs_cache (55): transactions grouped by the session they came from, [None] for the node's own users *)
Notation bcache := (gmap (option N) (list N)).

(** txs_cache.entry(origin).or_default().push(stx) (63) *)
Definition bpush (c : bcache) (e : option N * N) : bcache := <[fst e := default [] (c !! fst e) ++ [snd e]]> c.

(** txs_cache.values().map(|v| v.len()).sum() (65-67) *)
Definition ball (c : bcache) : list N := concat (map snd (map_to_list c)).
Definition blen (c : bcache) : N := N.of_nat (length (ball c)).

(** One turn of [do_broadcast]'s loop over [txs_cache.drain()] (100-113): the group that comes next, the random start of
    RandomGossip and the order in which tentacle asks its sessions. *)
Record pick := Pick { pk_origin : option N; pk_start : N; pk_sessions : list N }.

(** what the random choices can be: every group once, a start below three (gossip.rs:211), each session once *)
Definition picks_ok (peers : list N) (c : bcache) (ps : list pick) : bool :=
  bool_decide (map pk_origin ps ≡ₚ map fst (map_to_list c)) &&
  forallb (fun p => (pk_start p <? 3) && bool_decide (pk_sessions p ≡ₚ peers)) ps.

(** do_broadcast (82-114): the groups sent, and to whom *)
Definition casts (c : bcache) (ps : list pick) : list (option N * list N) :=
  map (fun p => (pk_origin p, default [] (c !! pk_origin p))) ps.
Definition posts (n : N) (c : bcache) (ps : list pick) : list (N * N * list N) :=
  concat (map (fun p => map (fun d => (n, d, default [] (c !! pk_origin p))) (gossip_targets (pk_start p) (pk_origin p) (pk_sessions p))) ps).

(* ---------------------------------------------------------------------- *)
(** * A node and the network *)

(** [b_adm]: the calls of insert_tx that found the transaction unknown (lib.rs:106) and have not finished; [b_queue]: the channel to the
    broadcaster (adapter/mod.rs:153); [b_casts]: what do_broadcast was called for so far, only looked at by the theorems *)
Record bnode := BNode {
  b_known : gset N;
  b_adm : list (option N * N);
  b_queue : list (option N * N);
  b_cache : bcache;
  b_casts : list (option N * list N) }.
Definition bnode_new : bnode := BNode ∅ [] [] ∅ [].

Record net := Net {
  n_nodes : N -> bnode;
  n_flight : list (N * N * list N) }.
Definition net_new : net := Net (fun _ => bnode_new) [].

Definition upd (f : N -> bnode) (n : N) (x : bnode) : N -> bnode := fun m => if m =? n then x else f m.
Fixpoint drop_nth {A} (i : nat) (l : list A) : list A :=
  match l, i with [] , _ => [] | _ :: l', O => l' | x :: l', S i' => x :: drop_nth i' l' end.

Inductive event :=
  | Submit (n t : N)                      (* eth_sendRawTransaction at node n *)
  | Finish (n : N) (i : nat) (ok : bool)  (* the i-th running insert_tx ends; ok: what the checks say *)
  | Take (n : N) (ps : list pick)         (* the broadcaster receives from its channel *)
  | Tick (n : N) (ps : list pick)         (* its interval elapses *)
  | Deliver (i : nat)                     (* the i-th message under way arrives *)
  | Lose (i : nat).                       (* or is lost with its session *)

Section Net.
  (** the sessions of each node, broadcast_txs_size of the configuration, and whether a batch passes the transport (C44) *)
  Variable peers : N -> list N.
  Variable size : N.
  Variable fits : list N -> bool.

  (** the first half of insert_tx (lib.rs:101-107): a known transaction is answered Ok and not looked at again *)
  Definition begin (b : bnode) (o : option N) (t : N) : bnode :=
    if bool_decide (t ∈ b_known b) then b
    else BNode (b_known b) (b_adm b ++ [(o, t)]) (b_queue b) (b_cache b) (b_casts b).

  (** the second half (109-130): checks, insertion, and broadcast_tx into the channel (adapter/mod.rs:366-384).  An insertion of a
      transaction that meanwhile became known succeeds too (pool.rs:142-150). *)
  Definition finish (b : bnode) (i : nat) (ok : bool) : option bnode :=
    match b_adm b !! i with
    | None => None
    | Some (o, t) =>
        Some (if ok then BNode ({[t]} ∪ b_known b) (drop_nth i (b_adm b)) (b_queue b ++ [(o, t)]) (b_cache b) (b_casts b)
              else BNode (b_known b) (drop_nth i (b_adm b)) (b_queue b) (b_cache b) (b_casts b))
    end.

  (** do_broadcast for node [n] *)
  Definition flush (n : N) (b : bnode) (ps : list pick) : option (bnode * list (N * N * list N)) :=
    if picks_ok (peers n) (b_cache b) ps
    then Some (BNode (b_known b) (b_adm b) (b_queue b) ∅ (b_casts b ++ casts (b_cache b) ps), posts n (b_cache b) ps)
    else None.

  (** the first branch of the loop (60-73): note [==], not [>=] *)
  Definition take_next (n : N) (b : bnode) (ps : list pick) : option (bnode * list (N * N * list N)) :=
    match b_queue b with
    | [] => None
    | e :: q =>
        let b' := BNode (b_known b) (b_adm b) q (bpush (b_cache b) e) (b_casts b) in
        if blen (b_cache b') =? size then flush n b' ps else Some (b', [])
    end.

  (** NewTxsHandler::process (message.rs:37-77): every transaction of the batch is inserted by a task of its own *)
  Definition receive (b : bnode) (src : N) (ts : list N) : bnode := fold_left (fun b t => begin b (Some src) t) ts b.

  Definition step (st : net) (e : event) : option net :=
    match e with
    | Submit n t => Some (Net (upd (n_nodes st) n (begin (n_nodes st n) None t)) (n_flight st))
    | Finish n i ok => match finish (n_nodes st n) i ok with Some b => Some (Net (upd (n_nodes st) n b) (n_flight st)) | None => None end
    | Take n ps => match take_next n (n_nodes st n) ps with Some (b, ms) => Some (Net (upd (n_nodes st) n b) (n_flight st ++ ms)) | None => None end
    | Tick n ps => match flush n (n_nodes st n) ps with Some (b, ms) => Some (Net (upd (n_nodes st) n b) (n_flight st ++ ms)) | None => None end
    | Deliver i =>
        match n_flight st !! i with
        | Some (src, dst, ts) =>
            Some (Net (if fits ts then upd (n_nodes st) dst (receive (n_nodes st dst) src ts) else n_nodes st) (drop_nth i (n_flight st)))
        | None => None
        end
    | Lose i => match n_flight st !! i with Some _ => Some (Net (n_nodes st) (drop_nth i (n_flight st))) | None => None end
    end.

  Fixpoint run (st : net) (es : list event) : option net :=
    match es with [] => Some st | e :: es' => match step st e with Some st' => run st' es' | None => None end end.
End Net.

(* ---------------------------------------------------------------------- *)
(** * The transport (protocols/mod.rs 64-102) *)

(** max_frame_length of the transmitter (69): a longer frame is refused by the codec *)
Definition MAX_FRAME : N := 4 * 1024 * 1024.

(** an encoded message passes before_send (compress), the frame codec and before_receive (decompress) *)
Definition carried (sn : snappy) (data : Bytes.bytes) : bool :=
  (Bytes.len (compress sn data) <=? MAX_FRAME) &&
  match decompress sn (compress sn data) with TxModel.Ok _ => true | _ => false end.
