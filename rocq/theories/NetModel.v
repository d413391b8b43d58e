(** Message framing, endpoints, the RPC call table and gossip targets.
    Models /repo/core/network/src/{compress,endpoint,rpc}.rs, reactor/{mod,router,rpc_map}.rs, outbound/{rpc,gossip}.rs
    and message/mod.rs.  Strings are byte lists; the protobuf codec is in ProtoModel; the transport (tentacle) is not modelled. *)
From Verif Require Import Bytes TxModel.
From stdpp Require Import base gmap list.
#[local] Open Scope N_scope.

(* ---------------------------------------------------------------------- *)
(** * Compression (compress.rs) *)

(** compress.rs:8-11 *)
Definition COMPRESSION_SIZE_THRESHOLD : N := 1024.
Definition UNCOMPRESS_FLAG : N := 0.
Definition COMPRESS_FLAG : N := 128.
Definition MAX_UNCOMPRESSED_LEN : N := 8388608.

(** What the [snap] crate does, as three functions: the raw encoder (fails on inputs of 4 GiB and more), the length in
    the header, and the decoder filling a buffer of the given length. *)
Record snappy := Snappy {
  sn_compress : bytes -> option bytes;
  sn_len : bytes -> option N;
  sn_decode : bytes -> N -> option bytes }.

Section Compress.
  Variable sn : snappy.

  (** Message::from_raw (36-41) *)
  Definition from_raw (data : bytes) : bytes := UNCOMPRESS_FLAG :: data.

  (** Message::compress (49-64); [set_compress_flag] (101-103) overwrites the flag byte *)
  Definition msg_compress (inner : bytes) : bytes :=
    if COMPRESSION_SIZE_THRESHOLD <? len inner then
      match sn_compress sn (drop 1 inner) with
      | Some res => COMPRESS_FLAG :: res
      | None => inner
      end
    else inner.

  (** compress_flag (105-107) *)
  Definition compress_flag (inner : bytes) : bool :=
    match inner with f :: _ => negb (N.land f COMPRESS_FLAG =? 0) | [] => false end.

  (** Message::decompress (67-99) *)
  Definition msg_decompress (inner : bytes) : outcome bytes :=
    match inner with
    | [] => Err
    | _ :: rest =>
        if compress_flag inner then
          match sn_len sn rest with
          | Some n =>
              if MAX_UNCOMPRESSED_LEN <? n then Err
              else match sn_decode sn rest n with Some buf => Ok buf | None => Err end
          | None => Err
          end
        else Ok rest
    end.

  (** compress and decompress (111-118) *)
  Definition compress (src : bytes) : bytes := msg_compress (from_raw src).
  Definition decompress (src : bytes) : outcome bytes := msg_decompress src.

  (** The receiving side of a protocol (protocols/mod.rs:85-103): the length-delimited codec refuses frames above the limit
      of the protocol before [decompress] sees them; the sending side refuses them as well. *)
  Definition receive_frame (limit : N) (frame : bytes) : outcome bytes :=
    if limit <? len frame then Err else decompress frame.
  Definition send_frame (limit : N) (data : bytes) : outcome bytes :=
    if limit <? len (compress data) then Err else Ok (compress data).
End Compress.

(** protocols/mod.rs:64-72: ping, identify, discovery, transmitter, feeler *)
Definition frame_limits : list N := [1024; 2048; 524288; 4194304; 1024].

(* ---------------------------------------------------------------------- *)
(** * Endpoints (endpoint.rs) *)

Definition SLASH : N := 47.
(** endpoint.rs:12-14: "/gossip", "/rpc_call", "/rpc_resp" *)
Definition GOSSIP_SCHEME : bytes := [47; 103; 111; 115; 115; 105; 112].
Definition RPC_CALL_SCHEME : bytes := [47; 114; 112; 99; 95; 99; 97; 108; 108].
Definition RPC_RESPONSE_SCHEME : bytes := [47; 114; 112; 99; 95; 114; 101; 115; 112].
Definition MAX_ENDPOINT_LENGTH : N := 120.

Inductive scheme := Gossip | RpcCall | RpcResponse.

(** str::starts_with *)
Fixpoint starts_with (pat s : bytes) : bool :=
  match pat, s with
  | [], _ => true
  | p :: pat', c :: s' => (p =? c) && starts_with pat' s'
  | _ :: _, [] => false
  end.

(** str::split('/') *)
Fixpoint split_slash (s : bytes) : list bytes :=
  match s with
  | [] => [[]]
  | c :: r =>
      if c =? SLASH then [] :: split_slash r
      else match split_slash r with [] => [[c]] | h :: t => (c :: h) :: t end
  end.
Definition nonempty (b : bytes) : bool := match b with [] => false | _ => true end.
(** the components (62-65, 111-114) *)
Definition comps (s : bytes) : list bytes := List.filter nonempty (split_slash s).

(** Endpoint::from_str (98-123) *)
Definition ep_parse (s : bytes) : outcome bytes :=
  if (len s =? 0) || (MAX_ENDPOINT_LENGTH <? len s) then Err
  else if negb (starts_with GOSSIP_SCHEME s) && negb (starts_with RPC_CALL_SCHEME s)
          && negb (starts_with RPC_RESPONSE_SCHEME s) then Err
  else let n := length (comps s) in
       if (Nat.ltb n 3 || Nat.ltb 4 n) then Err else Ok s.

(** scheme (46-56); [unreachable!] is a panic *)
Definition ep_scheme (s : bytes) : outcome scheme :=
  if starts_with GOSSIP_SCHEME s then Ok Gossip
  else if starts_with RPC_CALL_SCHEME s then Ok RpcCall
  else if starts_with RPC_RESPONSE_SCHEME s then Ok RpcResponse
  else Panic.

(** root (59-68); indexing past the end panics *)
Definition ep_root (s : bytes) : outcome bytes :=
  match comps s with
  | a :: b :: c :: _ => Ok (SLASH :: a ++ SLASH :: b ++ SLASH :: c)
  | _ => Panic
  end.

Fixpoint trim_slashes (s : bytes) : bytes :=
  match s with c :: r => if c =? SLASH then trim_slashes r else s | [] => [] end.
(** extend (74-78) *)
Definition ep_extend (s comp : bytes) : outcome bytes :=
  ep_parse (s ++ SLASH :: trim_slashes comp).

(** u64::to_string: at most 20 digits *)
Fixpoint dec_aux (fuel : nat) (n : N) (acc : bytes) : bytes :=
  match fuel with
  | O => acc
  | S f => let acc' := (48 + n mod 10) :: acc in
           if n / 10 =? 0 then acc' else dec_aux f (n / 10) acc'
  end.
Definition dec_string (n : N) : bytes := dec_aux 20 n [].

(** str::parse::<u64> (and from_str_radix): an optional plus sign, at least one digit, no overflow *)
Definition digit_val (radix c : N) : option N :=
  let v := if (48 <=? c) && (c <=? 57) then Some (c - 48)
           else if (97 <=? c) && (c <=? 122) then Some (c - 97 + 10)
           else if (65 <=? c) && (c <=? 90) then Some (c - 65 + 10)
           else None in
  match v with Some d => if d <? radix then Some d else None | None => None end.
Fixpoint parse_digits (radix acc : N) (s : bytes) : option N :=
  match s with
  | [] => Some acc
  | c :: r =>
      match digit_val radix c with
      | Some d => if 2 ^ 64 <=? acc * radix + d then None else parse_digits radix (acc * radix + d) r
      | None => None
      end
  end.
Definition parse_u64 (radix : N) (s : bytes) : option N :=
  match s with
  | [] => None
  | c :: r =>
      if c =? 43 then match r with [] => None | _ => parse_digits radix 0 r end
      else parse_digits radix 0 s
  end.

(** the part after the last '/' *)
Fixpoint after_last_slash (s : bytes) : option bytes :=
  match s with
  | [] => None
  | c :: r =>
      match after_last_slash r with
      | Some t => Some t
      | None => if c =? SLASH then Some r else None
      end
  end.
(** RpcEndpoint::extract_rpc_id_from (152-169) *)
Definition ep_rpc_id (s : bytes) : outcome N :=
  match after_last_slash s with
  | None => Err
  | Some [] => Err
  | Some r => match parse_u64 10 r with Some n => Ok n | None => Err end
  end.

(* ---------------------------------------------------------------------- *)
(** * Receiving a message up to the handler (router.rs:104-137, reactor/mod.rs:44-118, message/mod.rs) *)

Record net_msg := NetMsg { nm_trace : option bytes; nm_span : option bytes; nm_url : bytes; nm_content : bytes }.

(** AxonTracer::str_to_trace (common/apm/src/tracing.rs:82-102); the split halves must be UTF-8 of hex digits, so a
    byte outside the digits is an error in either way *)
Definition str_to_trace (s : bytes) : option (N * N) :=
  if len s <=? 16 then match parse_u64 16 s with Some low => Some (0, low) | None => None end
  else if len s <=? 32 then
    match parse_u64 16 (take (length s - 16) s), parse_u64 16 (drop (length s - 16) s) with
    | Some h, Some l => Some (h, l)
    | _, _ => None
    end
  else None.

Section Route.
  (** String::from_utf8 succeeds *)
  Variable utf8 : bytes -> bool.
  (** the registered reactors by root (router.rs:86-102) *)
  Variable registered : bytes -> bool.

  (** trace_id (message/mod.rs:52-58): the [unwrap] panics *)
  Definition trace_id (m : net_msg) : outcome (option (N * N)) :=
    match nm_trace m with
    | Some id =>
        if utf8 id then match str_to_trace id with Some t => Ok (Some t) | None => Panic end
        else Ok None
    | None => Ok None
    end.
  (** span_id (60-66): slicing a shorter header panics *)
  Definition span_id (m : net_msg) : outcome (option N) :=
    match nm_span m with
    | Some id => if len id <? 8 then Panic else Ok (Some (be_val (take 8 id)))
    | None => Ok None
    end.

  (** RpcResponse as sent (rpc.rs:12-27) and as read (reactor/mod.rs:78-90; the lossy UTF-8 conversion of an error text
      and the text for an empty message are left out) *)
  Inductive rpc_response := RSuccess (b : bytes) | RError (e : bytes).
  Definition rpc_encode (r : rpc_response) : bytes :=
    match r with RSuccess b => 0 :: b | RError e => 1 :: e end.
  Definition rpc_read (content : bytes) : rpc_response :=
    match content with
    | f :: raw => if f =? 0 then RSuccess raw else RError raw
    | [] => RError []
    end.

  (** what a message asks for, after all checks *)
  Inductive action :=
  | AGossip (root content : bytes)
  | ACall (root content : bytes) (rid : N)
  | AResponse (rid : N) (r : rpc_response).

  (** route_message and the head of react; the content is decoded by the handler's codec afterwards *)
  Definition route (m : net_msg) : outcome action :=
    match ep_parse (nm_url m) with
    | Err => Err | Panic => Panic
    | Ok e =>
        match ep_root e with
        | Err => Err | Panic => Panic
        | Ok root =>
            if negb (registered root) then Err
            else match trace_id m with
                 | Err => Err | Panic => Panic
                 | Ok _ =>
                     match span_id m with
                     | Err => Err | Panic => Panic
                     | Ok _ =>
                         match ep_scheme e with
                         | Err => Err | Panic => Panic
                         | Ok Gossip => Ok (AGossip root (nm_content m))
                         | Ok RpcCall =>
                             match ep_rpc_id e with
                             | Ok rid => Ok (ACall root (nm_content m) rid)
                             | Err => Err | Panic => Panic
                             end
                         | Ok RpcResponse =>
                             match ep_rpc_id e with
                             | Ok rid => Ok (AResponse rid (rpc_read (nm_content m)))
                             | Err => Err | Panic => Panic
                             end
                         end
                     end
                 end
        end
    end.
End Route.

(* ---------------------------------------------------------------------- *)
(** * The RPC call table (reactor/rpc_map.rs, outbound/rpc.rs:66-149, reactor/mod.rs:91-112)
    Calls and responses are tasks; every access to the map is one step.  A [oneshot] sender is the index of the call
    that created it.  [run] histories are newest first. *)

(** how a call's [done_rx] ended *)
Inductive cres := Got (r : nat) | Dropped | TimedOut.
Inductive cpc := PNew | PWait | PGuard | PRemove | PEnd.
Record call := Call { c_sid : N; c_rid : N; c_res : option cres; c_pc : cpc }.

Inductive rpc := RArrived | RChecked | RTaking | RFinished.
Record resp := Resp { r_sid : N; r_rid : N; r_body : rpc_response; r_pc : rpc }.

Record rstate := RState {
  rs_next : N;
  rs_map : gmap (N * N) nat;
  rs_calls : list call;
  rs_resps : list resp }.
(** RpcMap::new (30-35) *)
Definition rinit : rstate := RState 0 ∅ [] [].

Definition set_res (x : cres) (c : call) : call :=
  match c_res c with None => Call (c_sid c) (c_rid c) (Some x) (c_pc c) | Some _ => c end.
Definition set_cpc (p : cpc) (c : call) : call := Call (c_sid c) (c_rid c) (c_res c) p.
Definition set_rpc (p : rpc) (r : resp) : resp := Resp (r_sid r) (r_rid r) (r_body r) p.

(** dropping the sender of call [c]: its receiver, if still waiting, sees an error *)
Definition drop_sender (o : option nat) (calls : list call) : list call :=
  match o with Some c => alter (set_res Dropped) c calls | None => calls end.

Inductive revent :=
| ECall (sid : N)                          (* next_rpc_id (37-39), rpc.rs:77-80 *)
| EInsert (c : nat)                        (* insert (41-50), rpc.rs:82 *)
| ETimeout (c : nat)                       (* the time-out (120) or an error before it ends the wait *)
| EReturn (c : nat)                        (* the receiver has an outcome, the call returns *)
| EGuard (c : nat)                         (* the guard's take (92-96), one map access per event *)
| ERecv (sid rid : N) (body : rpc_response)(* a response message reached react *)
| EResp (r : nat).                         (* the next map access of that response *)

Definition rstep (s : rstate) (e : revent) : rstate :=
  match e with
  | ECall sid =>
      (* fetch_add wraps *)
      RState ((rs_next s + 1) mod 2 ^ 64) (rs_map s)
             (rs_calls s ++ [Call sid (rs_next s) None PNew]) (rs_resps s)
  | EInsert c =>
      match rs_calls s !! c with
      | Some k =>
          match c_pc k with
          | PNew =>
              let key := (c_sid k, c_rid k) in
              RState (rs_next s) (<[key := c]> (rs_map s))
                     (alter (set_cpc PWait) c (drop_sender (rs_map s !! key) (rs_calls s))) (rs_resps s)
          | _ => s
          end
      | None => s
      end
  | ETimeout c =>
      match rs_calls s !! c with
      | Some k =>
          match c_pc k, c_res k with
          | PWait, None => RState (rs_next s) (rs_map s) (alter (fun k => set_cpc PGuard (set_res TimedOut k)) c (rs_calls s)) (rs_resps s)
          | _, _ => s
          end
      | None => s
      end
  | EReturn c =>
      match rs_calls s !! c with
      | Some k =>
          match c_pc k, c_res k with
          | PWait, Some _ => RState (rs_next s) (rs_map s) (alter (set_cpc PGuard) c (rs_calls s)) (rs_resps s)
          | _, _ => s
          end
      | None => s
      end
  | EGuard c =>
      match rs_calls s !! c with
      | Some k =>
          let key := (c_sid k, c_rid k) in
          match c_pc k with
          | PGuard =>
              (* contains_key (64-66) *)
              match rs_map s !! key with
              | Some _ => RState (rs_next s) (rs_map s) (alter (set_cpc PRemove) c (rs_calls s)) (rs_resps s)
              | None => RState (rs_next s) (rs_map s) (alter (set_cpc PEnd) c (rs_calls s)) (rs_resps s)
              end
          | PRemove =>
              (* remove (68-71); whatever sender was there is dropped *)
              RState (rs_next s) (delete key (rs_map s))
                     (alter (set_cpc PEnd) c (drop_sender (rs_map s !! key) (rs_calls s))) (rs_resps s)
          | _ => s
          end
      | None => s
      end
  | ERecv sid rid body =>
      RState (rs_next s) (rs_map s) (rs_calls s) (rs_resps s ++ [Resp sid rid body RArrived])
  | EResp r =>
      match rs_resps s !! r with
      | Some t =>
          let key := (r_sid t, r_rid t) in
          match r_pc t with
          | RArrived =>
              (* contains (reactor/mod.rs:94-103) *)
              match rs_map s !! key with
              | Some _ => RState (rs_next s) (rs_map s) (rs_calls s) (alter (set_rpc RChecked) r (rs_resps s))
              | None => RState (rs_next s) (rs_map s) (rs_calls s) (alter (set_rpc RFinished) r (rs_resps s))
              end
          | RChecked =>
              (* contains_key in take (64-66) *)
              match rs_map s !! key with
              | Some _ => RState (rs_next s) (rs_map s) (rs_calls s) (alter (set_rpc RTaking) r (rs_resps s))
              | None => RState (rs_next s) (rs_map s) (rs_calls s) (alter (set_rpc RFinished) r (rs_resps s))
              end
          | RTaking =>
              (* remove in take (68-71), then send (107-110) *)
              match rs_map s !! key with
              | Some c => RState (rs_next s) (delete key (rs_map s)) (alter (set_res (Got r)) c (rs_calls s))
                                 (alter (set_rpc RFinished) r (rs_resps s))
              | None => RState (rs_next s) (rs_map s) (rs_calls s) (alter (set_rpc RFinished) r (rs_resps s))
              end
          | RFinished => s
          end
      | None => s
      end
  end.

Fixpoint rrun (h : list revent) : rstate :=
  match h with [] => rinit | e :: h' => rstep (rrun h') e end.

(* ---------------------------------------------------------------------- *)
(** * Gossip targets (outbound/gossip.rs) *)

(** RandomGossip::next_inner (219-227); the random start (208-212) is the argument of [gossip_targets] *)
Definition next_inner (index : N) : N * bool :=
  if index <? 2 then (index + 1, true) else (0, false).

(** the filter of gossip (164-172) as tentacle applies it to the open sessions in its order *)
Fixpoint gossip_targets (index : N) (origin : option N) (sessions : list N) : list N :=
  match sessions with
  | [] => []
  | s :: rest =>
      match origin with
      | Some o => if o =? s then gossip_targets index origin rest
                  else let '(i, b) := next_inner index in
                       if b then s :: gossip_targets i origin rest else gossip_targets i origin rest
      | None => let '(i, b) := next_inner index in
                if b then s :: gossip_targets i origin rest else gossip_targets i origin rest
      end
  end.

(** broadcast (132-148): TargetSession::All *)
Definition broadcast_targets (sessions : list N) : list N := sessions.

(** multicast (178-201) and send_to_peers (87-127): the sessions of the connected peers among the given ids
    (peer_manager/mod.rs:58-83) *)
Definition multicast_targets (online : gmap N N) (ids : list N) : list N :=
  omap (fun id => online !! id) ids.
