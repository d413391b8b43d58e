(** The ping, identify and discovery protocols.  Models /repo/core/network/src/protocols/{ping.rs,identify/mod.rs,discovery/mod.rs,
    discovery/state.rs}.  Tentacle delivers the events (a protocol opened or closed on a session, bytes received, a timer); what a
    handler does to the outside (messages, disconnects, calls of the peer manager) is returned as a list of effects, oldest first.

    Times are nanoseconds since some origin.  Histories and traces are newest first. *)
From Verif Require Import Bytes TxModel PeerModel ProtoModel.
From stdpp Require Import base gmap list.
#[local] Open Scope N_scope.

(** A session as the handlers see it (SessionContext): id, remote address, direction *)
Record sess := Sess { s_id : N; s_addr : maddr; s_out : bool }.

Section Run.
  Context {S E F : Type}.
  Variable step : S -> E -> outcome (S * list F).
  Variable init : S.
  (** the state after a history, with the effects of every event *)
  Fixpoint p2p_run (h : list E) : outcome (S * list (E * list F)) :=
    match h with
    | [] => Ok (init, [])
    | e :: h' =>
        match p2p_run h' with
        | Ok (s, tr) =>
            match step s e with
            | Ok (s', fs) => Ok (s', (e, fs) :: tr)
            | Err => Err
            | Panic => Panic
            end
        | Err => Err
        | Panic => Panic
        end
    end.
End Run.

(** open_protocol/close_protocol need the peer id of the session's address: [extract_peer_id(..).unwrap()] *)
Definition with_peer {A} (s : sess) (x : outcome A) : outcome A :=
  match ma_peer (s_addr s) with Some _ => x | None => Panic end.

(* ---------------------------------------------------------------------- *)
(** * Ping (ping.rs) *)

(** PingStatus (96-103) *)
Record pstatus := PStatus { ps_busy : bool; ps_sent : N; ps_nonce : N }.

Inductive pevent :=
| PConnected (now : N) (s : sess)
| PDisconnected (s : sess)
| PReceived (s : sess) (data : bytes)
| PTick (now : N)      (** notify with SEND_PING_TOKEN *)
| PCheck (now : N).    (** notify with CHECK_TIMEOUT_TOKEN *)

Inductive peffect :=
| PSend (sid : N) (m : ping_msg)
| PClose (sid : N).

Section Ping.
  (** timeout (32) and start_time (34) of the handler *)
  Variable timeout start : N.

  (** nonce (91-93): whole seconds since the start, cut to 32 bits *)
  Definition nonce_at (now : N) : N := ((now - start) / 1000000000) mod 2 ^ 32.

  (** ping_peers (57-88): the sessions without a ping under way, in the order of the map *)
  Definition tick (now : N) (m : gmap N pstatus) : gmap N pstatus * list peffect :=
    ((fun st => if ps_busy st then st else PStatus true now (nonce_at now)) <$> m,
     map (fun '(sid, _) => PSend sid (Some (Ping (nonce_at now))))
       (filter (fun '(_, st) => ps_busy st = false) (map_to_list m))).

  (** received (167-194) *)
  Definition ping_received (m : gmap N pstatus) (s : sess) (data : bytes) : gmap N pstatus * list peffect :=
    match dec_ping data with
    | None => (m, [])
    | Some None => (m, [])
    | Some (Some (Ping n)) => (m, [PSend (s_id s) (Some (Pong n))])
    | Some (Some (Pong n)) =>
        match m !! s_id s with
        | Some st =>
            if ps_busy st && (n =? ps_nonce st)
            then (<[s_id s := PStatus false (ps_sent st) (ps_nonce st)]> m, [])
            else (m, [PClose (s_id s)])
        | None => (m, [])
        end
    end.

  (** connected (138-157), disconnected (159-171), notify (196-212) *)
  Definition pstep (m : gmap N pstatus) (e : pevent) : outcome (gmap N pstatus * list peffect) :=
    match e with
    | PConnected now s =>
        with_peer s (Ok (match m !! s_id s with Some _ => m | None => <[s_id s := PStatus false now 0]> m end, []))
    | PDisconnected s => with_peer s (Ok (delete (s_id s) m, []))
    | PReceived s data => Ok (ping_received m s data)
    | PTick now => Ok (tick now m)
    | PCheck now =>
        Ok (m, map (fun '(sid, _) => PClose sid)
                 (filter (fun '(_, st) => ps_busy st = true /\ timeout <= now - ps_sent st) (map_to_list m)))
    end.

  Definition ping_run := p2p_run pstep (∅ : gmap N pstatus).
End Ping.

(* ---------------------------------------------------------------------- *)
(** * Identify (identify/mod.rs) *)

Definition ID_MAX_ADDRS : N := 10.
(** DEFAULT_TIMEOUT (30), seconds *)
Definition ID_TIMEOUT : N := 8000000000.

(** RemoteInfo (59-65); peer id and session are not used by the handler *)
Record rinfo := RInfo { ri_at : N; ri_received : bool }.

Inductive ievent :=
| IConnected (now : N) (s : sess)
| IDisconnected (s : sess) (banned : bool)            (** [banned]: the answer of is_addr_banned *)
| IReceived (s : sess) (data : bytes) (feeler : bool) (** [feeler]: the answer of reg.is_feeler *)
| INotify (now : N).

Inductive ieffect :=
| ISend (sid : N) (i : identity)
| IClose (sid : N)
| IOpen (sid : N) (feeler : bool)   (** open_protocols: feeler only, or all but feeler *)
| IStore (a : maddr)                (** peer_store.add_addr *)
| IListens (peer : N) (l : list maddr)
| IOutbound (a : maddr)             (** peer_store.add_outbound_addr *)
| IDial (a : maddr).

Section Identify.
  (** Multiaddr::try_from and to_vec *)
  Variable parse : bytes -> option maddr.
  Variable to_vec : maddr -> bytes.
  (** tentacle's is_reachable *)
  Variable reachable : ip -> bool.
  (** the node's chain id, listening addresses and peer id (peer manager) *)
  Variable chain : bytes.
  Variable listening : list maddr.
  Variable me : N.

  (** multiaddr_to_socketaddr(addr).map(|a| is_reachable(a.ip())).unwrap_or(false); global_ip_only is true (92) *)
  Definition public (a : maddr) : bool := match ma_sock a with Some s => reachable s.1 | None => false end.

  (** observed.iter().map(Tcp(_) => Tcp(port)); only for addresses with a socket *)
  Definition with_port (a : maddr) (port : N) : maddr :=
    match ma_sock a with Some s => MAddr (Some (s.1, port)) (ma_peer a) (ma_rest a) | None => a end.

  (** process_listens (146-183) *)
  Definition process_listens (s : sess) (l : list maddr) : outcome (bool * list ieffect) :=
    if ID_MAX_ADDRS <? N.of_nat (length l) then Ok (true, [])
    else
      match ma_peer (s_addr s) with
      | Some p => Ok (false, map IStore (List.filter public l) ++ [IListens p (List.filter public l)])
      | None => Panic
      end.

  (** process_observed (185-250); [IDial] is the call of [context.dial]: its result is dropped without an await (242), so nothing is
      dialed when that method is asynchronous like the others of the context *)
  Definition process_observed (m : gmap N rinfo) (s : sess) (o : option maddr) : outcome (list ieffect) :=
    match o with
    | None => Ok []
    | Some a =>
        match m !! s_id s with
        | None => Panic
        | Some _ =>
            if negb (public a) then Ok []
            else if negb (s_out s) then Ok []
            else
              let a' := match ma_peer a with Some _ => a | None => MAddr (ma_sock a) (Some me) (ma_rest a) end in
              Ok (map IDial (omap (fun l => sk ← ma_sock l; Some (with_port a' sk.2)) (take (N.to_nat ID_MAX_ADDRS) listening) ++ [a']))
        end
    end.

  (** received (331-373): check_duplicate (97-115), received_identify (117-144) *)
  Definition id_received (m : gmap N rinfo) (s : sess) (data : bytes) (feeler : bool) : outcome (gmap N rinfo * list ieffect) :=
    match dec_identity data with
    | Some msg =>
        match id_info msg with
        | Some ai =>
            match m !! s_id s with
            | None => Panic
            | Some info =>
                if ri_received info then Ok (m, [IClose (s_id s)])
                else
                  let m' := <[s_id s := RInfo (ri_at info) true]> m in
                  if beqb chain (id_chain msg) then
                    let open := if s_out s then [IOpen (s_id s) feeler] else [] in
                    match process_listens s (omap parse (a_listen ai)) with
                    | Ok (true, fs) => Ok (m', open ++ fs ++ [IClose (s_id s)])
                    | Ok (false, fs) =>
                        match process_observed m' s (parse (a_observed ai)) with
                        | Ok fs' => Ok (m', open ++ fs ++ fs')
                        | Err => Err
                        | Panic => Panic
                        end
                    | Err => Err
                    | Panic => Panic
                    end
                  else Ok (m', [IClose (s_id s)])
            end
        | None => Ok (m, [IClose (s_id s)])
        end
    | None => match m !! s_id s with Some _ => Ok (m, [IClose (s_id s)]) | None => Panic end
    end.

  (** connected (270-306): RemoteInfo::new needs the remote public key, present on every encrypted session *)
  Definition id_connected (m : gmap N rinfo) (now : N) (s : sess) : outcome (gmap N rinfo * list ieffect) :=
    with_peer s
      (Ok (<[s_id s := RInfo now false]> m,
           (if s_out s then [IOutbound (s_addr s)] else []) ++
           [ISend (s_id s) (Identity chain (Some (AddrInfo (map to_vec (take (N.to_nat ID_MAX_ADDRS) (List.filter public listening)))
                                                           (to_vec (s_addr s)))))])).

  (** disconnected (308-329) *)
  Definition id_disconnected (m : gmap N rinfo) (s : sess) (banned : bool) : outcome (gmap N rinfo * list ieffect) :=
    match m !! s_id s with
    | None => Panic
    | Some _ => with_peer s (Ok (delete (s_id s) m, if s_out s && negb banned then [IOutbound (s_addr s)] else []))
    end.

  (** notify (375-382) *)
  Definition istep (m : gmap N rinfo) (e : ievent) : outcome (gmap N rinfo * list ieffect) :=
    match e with
    | IConnected now s => id_connected m now s
    | IDisconnected s banned => id_disconnected m s banned
    | IReceived s data feeler => id_received m s data feeler
    | INotify now =>
        Ok (m, map (fun '(sid, _) => IClose sid)
                 (filter (fun '(_, i) => ri_received i = false /\ ri_at i + ID_TIMEOUT <= now) (map_to_list m)))
    end.

  Definition id_run := p2p_run istep (∅ : gmap N rinfo).
End Identify.

(* ---------------------------------------------------------------------- *)
(** * Discovery (discovery/mod.rs, state.rs) *)

Definition ANNOUNCE_THRESHOLD : N := 10.
Definition MAX_ADDR_TO_SEND : N := 1000.
Definition MAX_ADDRS : N := 3.
(** ANNOUNCE_INTERVAL (43): 24 hours *)
Definition ANNOUNCE_INTERVAL : N := 86400000000000.
Definition REUSE_PORT_VERSION : N := 1.

(** RemoteAddress (state.rs:127-132) *)
Inductive raddr := RInit (a : maddr) | RListen (a : maddr).
Definition ra_inner (r : raddr) : maddr := match r with RInit a | RListen a => a end.

(** SessionState (state.rs:32-41); the filter of known addresses is not kept: its answers come with the events (a stable bloom
    filter may answer either way for any address) *)
Record dstate := DState { d_remote : raddr; d_last : option N; d_announce : list maddr; d_got_get : bool; d_got_nodes : bool }.

Inductive devent :=
| DConnected (s : sess) (listens : list maddr)
| DDisconnected (s : sess)
(** [random]: what fetch_random_addrs returns; [choice]: what choose_multiple makes of the filtered list *)
| DReceived (s : sess) (data : bytes) (random : list maddr) (choice : N -> list maddr -> list maddr)
(** [consensus]: connected_consensus_peer; [order]: the sessions in the order of the map; [shuffle]: the keys after a shuffle, by
    position in the announce list; [known]: the answers of the filters *)
| DNotify (now : N) (consensus : list maddr) (order : list N) (shuffle : nat -> list N) (known : N -> maddr -> bool).

Inductive deffect :=
| DSend (sid : N) (m : disc_msg)
| DClose (sid : N)
| DStore (a : maddr)      (** peer_store.add_addr *)
| DReuse (a : maddr).     (** registry entry marked, peer_store.add_outbound_addr *)

Section Discovery.
  Variable parse : bytes -> option maddr.
  Variable to_vec : maddr -> bytes.
  Variable reachable : ip -> bool.

  (** is_valid_addr (301-310); discovery_local_address is false (281) *)
  Definition valid_addr (a : maddr) : bool := match ma_sock a with Some s => reachable s.1 | None => false end.

  (** verify_nodes_message (236-268) *)
  Definition misbehaves (n : nodes) : bool :=
    (if ns_announce n then ANNOUNCE_THRESHOLD <? N.of_nat (length (ns_items n))
     else MAX_ADDR_TO_SEND <? N.of_nat (length (ns_items n)))
    || existsb (fun i => MAX_ADDRS <? N.of_nat (length i)) (ns_items n).

  (** Node::addrs of all items (proto.rs:38-42, mod.rs:184-188) *)
  Definition node_addrs (n : nodes) : list maddr := concat (map (omap parse) (ns_items n)).
  (** Node::with_addrs(vec![addr]) *)
  Definition one_node (a : maddr) : node := [to_vec a].

  (** update_port (state.rs:148-163), change_to_listen (142-146) *)
  Definition update_port (r : raddr) (port : N) : raddr :=
    match r with RInit a => RListen (with_port a port) | RListen a => RListen a end.
  Definition change_to_listen (r : raddr) : raddr := RListen (ra_inner r).

  (** ListenPort::listen_port (proto.rs:23-28) *)
  Definition listen_port (p : option N) : option N :=
    match p with Some n => if n <=? 65535 then Some n else None | None => None end.

  (** SessionState::new (state.rs:44-92), register (mod.rs:287-292); the version is the one of linux *)
  Definition d_connected (m : gmap N dstate) (s : sess) (listens : list maddr) : outcome (gmap N dstate * list deffect) :=
    with_peer s
      (Ok (if s_out s then
             let port := head (omap (fun a => if valid_addr a then sk ← ma_sock a; Some sk.2 else None) listens) in
             (<[s_id s := DState (RListen (s_addr s)) None [] false false]> m,
              [DSend (s_id s) (Some (PGetNodes (GetNodes REUSE_PORT_VERSION MAX_ADDR_TO_SEND port)))])
           else (<[s_id s := DState (RInit (s_addr s)) None [] false false]> m, []))).

  (** GetNodes (109-162); misbehave always answers Disconnect (346-349) *)
  Definition d_get_nodes (m : gmap N dstate) (s : sess) (g : get_nodes) (random : list maddr)
      (choice : N -> list maddr -> list maddr) : outcome (gmap N dstate * list deffect) :=
    match m !! s_id s with
    | None => Ok (m, [])
    | Some st =>
        if d_got_get st then Ok (m, [DClose (s_id s)])
        else
          let items := List.filter valid_addr random in
          let '(r1, fs1) :=
            match listen_port (gn_port g) with
            | Some port =>
                let r := update_port (d_remote st) port in
                (r, match r with RListen a => if valid_addr a then [DStore a] else [] | RInit _ => [] end)
            | None => (d_remote st, [])
            end in
          let r2 := if REUSE_PORT_VERSION <=? gn_version g then change_to_listen r1 else r1 in
          let max := N.min MAX_ADDR_TO_SEND (gn_count g) in
          let items' := if max <? N.of_nat (length items) then choice max items else items in
          let send := DSend (s_id s) (Some (PNodes (Nodes false (map one_node items')))) in
          let m' := <[s_id s := DState r2 (d_last st) (d_announce st) true (d_got_nodes st)]> m in
          if REUSE_PORT_VERSION <=? gn_version g then
            match ma_peer (ra_inner r2) with              (* add_reuse_port_addr (371-380) *)
            | Some _ => Ok (m', fs1 ++ [DReuse (ra_inner r2); send])
            | None => Panic
            end
          else Ok (m', fs1 ++ [send])
    end.

  (** Nodes (163-201) *)
  Definition d_nodes (m : gmap N dstate) (s : sess) (n : nodes) : gmap N dstate * list deffect :=
    if misbehaves n then (m, [DClose (s_id s)])
    else
      match m !! s_id s with
      | None => (m, [])
      | Some st =>
          if negb (ns_announce n) && d_got_nodes st then (m, [DClose (s_id s)])
          else
            (<[s_id s := DState (d_remote st) (d_last st) (d_announce st) (d_got_get st) (d_got_nodes st || negb (ns_announce n))]> m,
             map DStore (List.filter valid_addr (node_addrs n)))
      end.

  Definition d_received (m : gmap N dstate) (s : sess) (data : bytes) (random : list maddr)
      (choice : N -> list maddr -> list maddr) : outcome (gmap N dstate * list deffect) :=
    match dec_disc data with
    | Some (Some (PGetNodes g)) => d_get_nodes m s g random choice
    | Some (Some (PNodes n)) => Ok (d_nodes m s n)
    | Some None => Ok (m, [])
    | None => Ok (m, [DClose (s_id s)])
    end.

  (** one session in the first loop of notify (219-229): send_messages (state.rs:113-133) and check_timer (94-111) *)
  Definition d_visit (now : N) (acc : gmap N dstate * list maddr * list deffect) (sid : N) : gmap N dstate * list maddr * list deffect :=
    let '(m, l, fs) := acc in
    match m !! sid with
    | None => acc
    | Some st =>
        let fs' := match d_announce st with
                   | [] => []
                   | _ => [DSend sid (Some (PNodes (Nodes true (map one_node (d_announce st)))))]
                   end in
        let due := match d_last st with Some t => ANNOUNCE_INTERVAL <? now - t | None => true end in
        let l' := if due then match d_remote st with RListen a => if valid_addr a then [a] else [] | RInit _ => [] end else [] in
        (<[sid := DState (d_remote st) (if due then Some now else d_last st) [] (d_got_get st) (d_got_nodes st)]> m, l ++ l', fs ++ fs')
    end.

  (** one session in the second loop (236-252): the address is queued when there is room and the filter does not know it *)
  Definition d_offer (known : N -> maddr -> bool) (a : maddr) (m : gmap N dstate) (sid : N) : gmap N dstate :=
    match m !! sid with
    | None => m
    | Some st =>
        if (N.of_nat (length (d_announce st)) <? ANNOUNCE_THRESHOLD) && negb (known sid a)
        then <[sid := DState (d_remote st) (d_last st) (d_announce st ++ [a]) (d_got_get st) (d_got_nodes st)]> m
        else m
    end.
  Fixpoint d_spread (known : N -> maddr -> bool) (shuffle : nat -> list N) (i : nat) (l : list maddr) (m : gmap N dstate) : gmap N dstate :=
    match l with
    | [] => m
    | a :: r => d_spread known shuffle (S i) r (fold_left (d_offer known a) (take 3 (shuffle i)) m)
    end.

  Definition d_notify (m : gmap N dstate) (now : N) (consensus : list maddr) (order : list N) (shuffle : nat -> list N)
      (known : N -> maddr -> bool) : gmap N dstate * list deffect :=
    let '(m1, l, fs) := fold_left (d_visit now) order (m, consensus, []) in
    (d_spread known shuffle 0 l m1, fs).

  Definition dstep (m : gmap N dstate) (e : devent) : outcome (gmap N dstate * list deffect) :=
    match e with
    | DConnected s listens => d_connected m s listens
    | DDisconnected s => with_peer s (Ok (delete (s_id s) m, []))
    | DReceived s data random choice => d_received m s data random choice
    | DNotify now consensus order shuffle known => Ok (d_notify m now consensus order shuffle known)
    end.

  Definition disc_run := p2p_run dstep (∅ : gmap N dstate).
End Discovery.
