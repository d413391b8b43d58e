(** The peer book (address manager, ban list, peer store), the registry of connected peers and the session handling of the network
    service.  Models /repo/core/network/src/peer_manager/{mod,registry}.rs, peer_manager/peer_store/*.rs and the parts of service.rs
    that open, close and dial sessions.  The transport (tentacle) appears through the events it delivers. *)
From Verif Require Import Bytes TxModel.
From stdpp Require Import base gmap list.
#[local] Open Scope N_scope.

(* ---------------------------------------------------------------------- *)
(** * Addresses *)

(** std::net::IpAddr: version 6 flag and number; SocketAddr: ip and port.  PeerIds are numbers. *)
Definition ip := (bool * N)%type.
Definition sock := (ip * N)%type.

(** A Multiaddr as the peer store sees it: the socket address found by tentacle's [multiaddr_to_socketaddr], the peer id found by
    [extract_peer_id], and a number for everything else (two multiaddrs may differ in other components only). *)
Record maddr := MAddr { ma_sock : option sock; ma_peer : option N; ma_rest : N }.
#[global] Instance maddr_eq : EqDecision maddr.
Proof. solve_decision. Defined.
#[global] Instance maddr_countable : Countable maddr.
Proof.
  apply (inj_countable' (fun a => (ma_sock a, ma_peer a, ma_rest a)) (fun '(s, p, r) => MAddr s p r)). by intros [].
Defined.

(** IpAddr::is_unspecified, is_loopback (127.0.0.0/8, ::1) *)
Definition ip_unspecified (i : ip) : bool := i.2 =? 0.
Definition ip_loopback (i : ip) : bool := if i.1 then i.2 =? 1 else N.shiftr i.2 24 =? 127.

(** types.rs:37-50 *)
Record ainfo := AInfo { ai_addr : maddr; ai_score : N; ai_conn : N; ai_tried : N; ai_att : N; ai_pos : nat }.
(** AddrInfo::new (54-63) *)
Definition ai_new (a : maddr) (conn score : N) : ainfo := AInfo a score conn 0 0 0%nat.
Definition set_pos (p : nat) (i : ainfo) : ainfo := AInfo (ai_addr i) (ai_score i) (ai_conn i) (ai_tried i) (ai_att i) p.

(** mod.rs:14-24 of peer_store *)
Definition ADDR_COUNT_LIMIT : N := 16384.
Definition ADDR_TIMEOUT_MS : N := 604800000.
Definition ADDR_TRY_TIMEOUT_MS : N := 259200000.
Definition DIAL_INTERVAL : N := 15000.
Definition ADDR_MAX_RETRIES : N := 3.
Definition ADDR_MAX_FAILURES : N := 10.

(** tried_in_last_minute (71-73); N subtraction saturates like saturating_sub *)
Definition tried_in_last_minute (now : N) (i : ainfo) : bool := (now - 60000) <=? ai_tried i.
(** is_connectable (76-92) *)
Definition is_connectable (now : N) (i : ainfo) : bool :=
  if tried_in_last_minute now i then true
  else if (ai_conn i =? 0) && (ADDR_MAX_RETRIES <=? ai_att i) then false
  else if (ADDR_TIMEOUT_MS <? now - ai_conn i) && (ADDR_MAX_FAILURES <=? ai_att i) then false
  else true.
(** mark_tried (95-98), attempts_count: u32 *)
Definition mark_tried (now : N) (i : ainfo) : ainfo :=
  AInfo (ai_addr i) (ai_score i) (ai_conn i) now (N.min (ai_att i + 1) (2 ^ 32 - 1)) (ai_pos i).
(** mark_connected (101-105) *)
Definition mark_connected (now : N) (i : ainfo) : ainfo :=
  AInfo (ai_addr i) (ai_score i) now (ai_tried i) 0 (ai_pos i).

(* ---------------------------------------------------------------------- *)
(** * The address manager (addr_manager.rs) *)

(** 15-22 *)
Record mgr := Mgr {
  m_next : N;
  m_addr : gmap sock N;
  m_info : gmap N ainfo;
  m_peer : gmap N (gset N);
  m_rand : list N }.
Definition mgr_empty : mgr := Mgr 0 ∅ ∅ ∅ [].

(** get (122-128) *)
Definition mgr_get (m : mgr) (a : maddr) : option ainfo :=
  s ← ma_sock a; id ← m_addr m !! s; m_info m !! id.
(** get_mut (131-141), applied to an update of the entry *)
Definition mgr_update (f : ainfo -> ainfo) (m : mgr) (a : maddr) : mgr :=
  match ma_sock a with
  | Some s =>
      match m_addr m !! s with
      | Some id => Mgr (m_next m) (m_addr m) (alter f id (m_info m)) (m_peer m) (m_rand m)
      | None => m
      end
  | None => m
  end.
(** count (92-94) *)
Definition mgr_count (m : mgr) : N := N.of_nat (size (m_addr m)).

(** Vec::swap *)
Definition list_swap (l : list N) (i j : nat) : list N :=
  match l !! i, l !! j with
  | Some a, Some b => <[j := a]> (<[i := b]> l)
  | _, _ => l
  end.

(** swap_random_id (163-176): the indexing and the [expect]s panic *)
Definition swap_random (m : mgr) (i j : nat) : outcome mgr :=
  if Nat.eqb i j then Ok m
  else match m_rand m !! i, m_rand m !! j with
       | Some a, Some b =>
           match m_info m !! a with
           | None => Panic
           | Some ia =>
               let info1 := <[a := set_pos j ia]> (m_info m) in
               match info1 !! b with
               | None => Panic
               | Some ib => Ok (Mgr (m_next m) (m_addr m) (<[b := set_pos i ib]> info1) (m_peer m) (list_swap (m_rand m) i j))
               end
           end
       | _, _ => Panic
       end.

(** remove (102-119) *)
Definition mgr_remove (m : mgr) (a : maddr) : outcome (mgr * option ainfo) :=
  match ma_sock a with
  | None => Ok (m, None)
  | Some s =>
      match m_addr m !! s with
      | None => Ok (m, None)
      | Some id =>
          let m1 := Mgr (m_next m) (delete s (m_addr m)) (m_info m) (m_peer m) (m_rand m) in
          match m_info m !! id with
          | None => Panic                                        (* expect("exists"), 105 *)
          | Some info =>
              match length (m_rand m) with
              | O => Panic                                       (* len() - 1 *)
              | S last =>
                  match swap_random m1 (ai_pos info) last with
                  | Ok m2 =>
                      let peers := match ma_peer a with
                                   | Some p => alter (fun set => set ∖ {[id]}) p (m_peer m2)
                                   | None => m_peer m2
                                   end in
                      Ok (Mgr (m_next m2) (m_addr m2) (delete id (m_info m2)) peers (take last (m_rand m2)), m_info m2 !! id)
                  | Err => Err
                  | Panic => Panic
                  end
              end
          end
      end
  end.

(** the second half of [add] (39-52); next_id += 1 panics on overflow *)
Definition mgr_insert (m : mgr) (s : sock) (i : ainfo) : outcome mgr :=
  match ma_peer (ai_addr i) with
  | None => Ok m
  | Some p =>
      if m_next m + 1 <? 2 ^ 64 then
        Ok (Mgr (m_next m + 1)
              (<[s := m_next m]> (m_addr m))
              (<[m_next m := set_pos (length (m_rand m)) i]> (m_info m))
              (<[p := default ∅ (m_peer m !! p) ∪ {[m_next m]}]> (m_peer m))
              (m_rand m ++ [m_next m]))
      else Panic
  end.
(** add (26-54) *)
Definition mgr_add (m : mgr) (i : ainfo) : outcome mgr :=
  match ma_sock (ai_addr i) with
  | None => Ok m
  | Some s =>
      match mgr_get m (ai_addr i) with
      | Some old =>
          if ai_conn old <? ai_conn i then
            match mgr_remove m (ai_addr i) with
            | Ok (m', _) => mgr_insert m' s i
            | Err => Err
            | Panic => Panic
            end
          else Ok m
      | None => mgr_insert m s i
      end
  end.

(** fetch_random (57-89).  [picks] are the random numbers: at step [i] the index [i + pick mod (len - i)], which is every value
    of rng.gen_range(i, len).  [left] is the number of remaining steps. *)
Fixpoint fetch_loop (left : nat) (i : nat) (picks : list nat) (now count : N) (filter : ainfo -> bool)
                    (dup : gset ip) (acc : list ainfo) (m : mgr) : outcome (mgr * list ainfo) :=
  match left with
  | O => Ok (m, acc)
  | S left' =>
      let j := (i + (default O (head picks)) mod left)%nat in
      match swap_random m j i with
      | Ok m' =>
          match m_rand m' !! i with
          | None => Panic
          | Some id =>
              match m_info m' !! id with
              | None => Panic                                    (* id_to_info[&..], 71 *)
              | Some info =>
                  match ma_sock (ai_addr info) with
                  | Some s =>
                      let unique := bool_decide (s.1 ∉ dup) in
                      let acc' := if (ip_unspecified s.1 || ip_loopback s.1 || unique) && is_connectable now info && filter info
                                  then acc ++ [info] else acc in
                      if N.of_nat (length acc') =? count then Ok (m', acc')
                      else fetch_loop left' (S i) (tail picks) now count filter ({[s.1]} ∪ dup) acc' m'
                  | None => fetch_loop left' (S i) (tail picks) now count filter dup acc m'
                  end
              end
          end
      | Err => Err
      | Panic => Panic
      end
  end.
Definition mgr_fetch (picks : list nat) (now count : N) (filter : ainfo -> bool) (m : mgr) : outcome (mgr * list ainfo) :=
  fetch_loop (length (m_rand m)) 0 picks now count filter ∅ [] m.

(** get_by_peer_id (144-160): the [unwrap] panics *)
Definition mgr_by_peer (now : N) (filter : ainfo -> bool) (m : mgr) (p : N) : outcome (gset maddr) :=
  match m_peer m !! p with
  | None => Ok ∅
  | Some ids =>
      foldr (fun id r =>
               match r, m_info m !! id with
               | Ok l, Some i => Ok (if is_connectable now i && filter i then {[ai_addr i]} ∪ l else l)
               | _, _ => Panic
               end) (Ok ∅) (elements ids)
  end.

(* ---------------------------------------------------------------------- *)
(** * The ban list (ban_list.rs) *)

(** ipnetwork::IpNetwork: version 6 flag, base address, prefix length *)
Definition net := (bool * N * N)%type.
Definition ip_bits (v6 : bool) : N := if v6 then 128 else 32.
(** types.rs:134-139 *)
Definition ip_to_network (i : ip) : net := (i.1, i.2, ip_bits i.1).
(** IpNetwork::contains: same version, equal leading [prefix] bits *)
Definition net_contains (n : net) (i : ip) : bool :=
  Bool.eqb n.1.1 i.1 && (N.shiftr n.1.2 (ip_bits i.1 - n.2) =? N.shiftr i.2 (ip_bits i.1 - n.2)).

(** 12-15; of BannedAddr only [ban_until] matters *)
Record banlist := BanList { bl_map : gmap net N; bl_count : N }.
Definition bans_empty : banlist := BanList ∅ 0.
(** clear_expires (78-82) *)
Definition clear_expires (now : N) (b : banlist) : banlist :=
  BanList (filter (fun kv => now < kv.2) (bl_map b)) (bl_count b).
(** ban (33-40); insert_count wraps *)
Definition bl_ban (now : N) (n : net) (until : N) (b : banlist) : banlist :=
  let b' := BanList (<[n := until]> (bl_map b)) ((bl_count b + 1) mod 2 ^ 64) in
  if bl_count b' mod 1024 =? 0 then clear_expires now b' else b'.
(** is_ip_banned_until (47-58) *)
Definition ip_banned (now : N) (i : ip) (b : banlist) : bool :=
  match bl_map b !! ip_to_network i with
  | Some until => if now <? until then true else existsb (fun kv => (now <? kv.2) && net_contains kv.1 i) (map_to_list (bl_map b))
  | None => existsb (fun kv => (now <? kv.2) && net_contains kv.1 i) (map_to_list (bl_map b))
  end.
(** is_addr_banned (67-71) *)
Definition addr_banned (now : N) (a : maddr) (b : banlist) : bool :=
  match ma_sock a with Some s => ip_banned now s.1 b | None => false end.

(* ---------------------------------------------------------------------- *)
(** * The peer store (peer_store_impl.rs) *)

(** 25-30; the score configuration is the default one, [ps_conn] is the set of connected peers ([peers]) *)
Record pstore := PStore { ps_book : mgr; ps_bans : banlist; ps_conn : gset N }.
Definition DEFAULT_SCORE : N := 100.

(** check_purge (241-318).  Addresses that are not connectable are evicted; if there are none, two members of each of the larger
    half of the network groups with more than four members.  Which ones depends on hash order and random choices: [evict] is the
    list of addresses so chosen. *)
Fixpoint remove_all (m : mgr) (l : list maddr) : outcome mgr :=
  match l with
  | [] => Ok m
  | a :: r => match mgr_remove m a with Ok (m', _) => remove_all m' r | Err => Err | Panic => Panic end
  end.
Definition dead_addrs (now : N) (m : mgr) : list maddr :=
  map (fun kv => ai_addr kv.2) (List.filter (fun kv => negb (is_connectable now kv.2)) (map_to_list (m_info m))).
Definition check_purge (evict : list maddr) (now : N) (m : mgr) : outcome mgr :=
  if mgr_count m <? ADDR_COUNT_LIMIT then Ok m
  else match dead_addrs now m with
       | [] => match evict with [] => Err | _ => remove_all m evict end
       | dead => remove_all m dead
       end.

Definition set_book (p : pstore) (m : mgr) : pstore := PStore m (ps_bans p) (ps_conn p).
(** add_addr (67-75) *)
Definition ps_add_addr (evict : list maddr) (now : N) (a : maddr) (p : pstore) : outcome pstore :=
  if addr_banned now a (ps_bans p) then Ok p
  else match check_purge evict now (ps_book p) with
       | Ok m => match mgr_add m (ai_new a 0 DEFAULT_SCORE) with Ok m' => Ok (set_book p m') | Err => Err | Panic => Panic end
       | Err => Err
       | Panic => Panic
       end.
(** add_outbound_addr (78-85) *)
Definition ps_add_outbound (now : N) (a : maddr) (p : pstore) : outcome pstore :=
  if addr_banned now a (ps_bans p) then Ok p
  else match mgr_add (ps_book p) (ai_new a now DEFAULT_SCORE) with Ok m' => Ok (set_book p m') | Err => Err | Panic => Panic end.

Definition connected_here (p : pstore) (i : ainfo) : bool :=
  match ma_peer (ai_addr i) with Some q => bool_decide (q ∈ ps_conn p) | None => false end.
Definition not_connected_here (p : pstore) (i : ainfo) : bool :=
  match ma_peer (ai_addr i) with Some q => bool_decide (q ∉ ps_conn p) | None => false end.
(** fetch_addrs_to_attempt (130-148), fetch_addrs_to_feeler (152-169), fetch_random_addrs (172-187), fetch_addr_by_peer_id (190-197) *)
Definition attempt_filter (now : N) (p : pstore) (i : ainfo) : bool :=
  not_connected_here p i && ((now - ADDR_TRY_TIMEOUT_MS <? ai_conn i) && (ai_conn i <=? now - DIAL_INTERVAL)).
Definition feeler_filter (now : N) (p : pstore) (i : ainfo) : bool :=
  not_connected_here p i && negb (tried_in_last_minute now i) && negb (now - ADDR_TRY_TIMEOUT_MS <? ai_conn i).
Definition random_filter (now : N) (p : pstore) (i : ainfo) : bool :=
  connected_here p i || (now - ADDR_TIMEOUT_MS <? ai_conn i).
Definition ps_fetch (which : N -> pstore -> ainfo -> bool) (picks : list nat) (now count : N) (p : pstore) : outcome (pstore * list ainfo) :=
  match mgr_fetch picks now count (which now p) (ps_book p) with
  | Ok (m, l) => Ok (set_book p m, l)
  | Err => Err
  | Panic => Panic
  end.
Definition by_peer_filter (now : N) (i : ainfo) : bool :=
  (now - ADDR_TRY_TIMEOUT_MS <? ai_conn i) && (ai_conn i <=? now - DIAL_INTERVAL).
Definition ps_fetch_by_peer (now : N) (q : N) (p : pstore) : outcome (gset maddr) :=
  mgr_by_peer now (by_peer_filter now) (ps_book p) q.

(** ban_addr (200-206) and ban_network (208-217); now_ms + timeout_ms panics on overflow *)
Definition ps_ban_addr (now timeout : N) (a : maddr) (p : pstore) : outcome pstore :=
  let bans := match ma_sock a with
              | Some s => if now + timeout <? 2 ^ 64 then Ok (bl_ban now (ip_to_network s.1) (now + timeout) (ps_bans p)) else Panic
              | None => Ok (ps_bans p)
              end in
  match bans with
  | Ok b => match mgr_remove (ps_book p) a with Ok (m, _) => Ok (PStore m b (ps_conn p)) | Err => Err | Panic => Panic end
  | Err => Err
  | Panic => Panic
  end.

(** peer_store_db.rs: [load] (22-28, 46-53) replays the dumped entries through [add] and [ban]; [dump] (30-40, 55-65) writes them in
    the order of the hash map.  JSON is not modelled. *)
Definition mgr_load (l : list ainfo) : outcome mgr :=
  fold_left (fun r i => match r with Ok m => mgr_add m i | Err => Err | Panic => Panic end) l (Ok mgr_empty).
Definition bl_load (now : N) (l : list (net * N)) : banlist := fold_left (fun b kv => bl_ban now kv.1 kv.2 b) l bans_empty.

(* ---------------------------------------------------------------------- *)
(** * Registry, sessions and dialing (peer_manager/mod.rs, registry.rs, service.rs) *)

(** registry.rs:10-17 *)
Record pinfo := PInfo { pi_addr : maddr; pi_sid : N; pi_out : bool }.
(** PeerManager (20-29) with Online (registry.rs:41-45); the two limits come from the configuration *)
Record pm := PM {
  pm_online : gmap N pinfo;
  pm_dialing : gset maddr;
  pm_feeler : gset maddr;
  pm_store : pstore;
  pm_boot : gset N;
  pm_cons : gset N;
  pm_max : N;
  pm_inlimit : N }.

(** config.rs:122-130: the configured limit must exceed the inbound limit (20); the default is 40 *)
Definition config_limits (inbound_limit : N) (max : option N) : option (N * N) :=
  match max with
  | Some m => if m <=? inbound_limit then None else Some (m, inbound_limit)
  | None => Some (40, inbound_limit)
  end.

(** connection_status (71-87) *)
Definition count_out (s : pm) : N := N.of_nat (length (List.filter (fun kv => pi_out kv.2) (map_to_list (pm_online s)))).
Definition count_in (s : pm) : N := N.of_nat (length (List.filter (fun kv => negb (pi_out kv.2)) (map_to_list (pm_online s)))).
Definition count_all (s : pm) : N := N.of_nat (size (pm_online s)).

(** always_allow (231-236) *)
Definition always_allow (now : N) (s : pm) (a : maddr) : outcome bool :=
  match ma_peer a with
  | None => Panic
  | Some q => Ok (bool_decide (q ∈ pm_boot s) || bool_decide (q ∈ pm_cons s) || negb (addr_banned now a (ps_bans (pm_store s))))
  end.

Definition with_store (s : pm) (st : pstore) : pm :=
  PM (pm_online s) (pm_dialing s) (pm_feeler s) st (pm_boot s) (pm_cons s) (pm_max s) (pm_inlimit s).
Definition with_online (s : pm) (o : gmap N pinfo) : pm :=
  PM o (pm_dialing s) (pm_feeler s) (pm_store s) (pm_boot s) (pm_cons s) (pm_max s) (pm_inlimit s).

(** register (124-145) with add_connected_peer (peer_store_impl.rs:45-62) *)
Definition register (s : pm) (i : pinfo) : outcome pm :=
  match ma_peer (pi_addr i) with
  | None => Panic
  | Some q =>
      let st := pm_store s in
      Ok (with_store (with_online s (<[q := i]> (pm_online s))) (PStore (ps_book st) (ps_bans st) ({[q]} ∪ ps_conn st)))
  end.
(** unregister (147-167) with remove_disconnected_peer (peer_store_impl.rs:115-117) *)
Definition unregister (s : pm) (a : maddr) : outcome pm :=
  match ma_peer a with
  | None => Panic
  | Some q =>
      let s1 := PM (delete q (pm_online s)) (pm_dialing s) (pm_feeler s ∖ {[a]}) (pm_store s) (pm_boot s) (pm_cons s) (pm_max s) (pm_inlimit s) in
      match pm_online s !! q with
      | Some i =>
          let st := pm_store s in
          match ma_peer (pi_addr i) with
          | Some q' => Ok (with_store s1 (PStore (ps_book st) (ps_bans st) (ps_conn st ∖ {[q']})))
          | None => Panic
          end
      | None => Ok s1
      end
  end.

(** ban_id (251-258): always [None] *)
Definition ban_id (now timeout : N) (s : pm) (q : N) : outcome (pm * option N) :=
  match pm_online s !! q with
  | Some i =>
      match ps_ban_addr now timeout (pi_addr i) (pm_store s) with
      | Ok st => Ok (with_store s st, None)
      | Err => Err
      | Panic => Panic
      end
  | None => Ok (s, None)
  end.
(** ban_session_id (260-272) *)
Definition find_sid (sid : N) (o : gmap N pinfo) : option pinfo :=
  option_map snd (List.find (fun kv => pi_sid kv.2 =? sid) (map_to_list o)).
Definition ban_session_id (now timeout : N) (s : pm) (sid : N) : outcome pm :=
  match find_sid sid (pm_online s) with
  | Some i =>
      match ps_ban_addr now timeout (pi_addr i) (pm_store s) with
      | Ok st => Ok (with_store s st)
      | Err => Err
      | Panic => Panic
      end
  | None => Ok s
  end.

(** What the node asks of the transport. *)
Inductive action := ADisconnect (sid : N) | ADial (a : maddr).

(** handle_event, SessionOpen (service.rs:649-674) *)
Definition over_limit (s : pm) (out : bool) : bool :=
  (pm_max s <? count_all s + 1) ||
  (if out then pm_max s - pm_inlimit s <? count_out s + 1 else pm_inlimit s <? count_in s + 1).
Definition session_open (now : N) (s : pm) (sid : N) (a : maddr) (out : bool) : outcome (pm * list action) :=
  let s1 := PM (pm_online s) (pm_dialing s ∖ {[a]}) (pm_feeler s) (pm_store s) (pm_boot s) (pm_cons s) (pm_max s) (pm_inlimit s) in
  if bool_decide (a ∈ pm_feeler s1) then Ok (s1, [])
  else if pm_max s1 <? pm_inlimit s1 then Panic                  (* the subtraction at 665, excluded by the configuration *)
  else
    let keep := match register s1 (PInfo a sid out) with Ok s2 => Ok (s2, []) | Err => Err | Panic => Panic end in
    if over_limit s1 out then
      match always_allow now s1 a with
      | Ok true => keep
      | Ok false => Ok (s1, [ADisconnect sid])
      | Err => Err
      | Panic => Panic
      end
    else keep.

(** handle_error, ProtocolError (581-595): a ban of 300 s and a disconnect *)
Definition protocol_error (now : N) (s : pm) (sid : N) : outcome (pm * list action) :=
  match ban_session_id now 300000 s sid with
  | Ok s' => Ok (s', [ADisconnect sid])
  | Err => Err
  | Panic => Panic
  end.
(** handle_error, DialerError (554-558) *)
Definition dial_error (s : pm) (a : maddr) : pm :=
  PM (pm_online s) (pm_dialing s ∖ {[a]}) (pm_feeler s ∖ {[a]}) (pm_store s) (pm_boot s) (pm_cons s) (pm_max s) (pm_inlimit s).

(** tag with PeerTag::Ban (129-140): [until] is used as a duration *)
Definition tag_ban (now until : N) (s : pm) (q : N) : outcome (pm * list action) :=
  match ban_id now until s q with
  | Ok (s', Some sid) => Ok (s', [ADisconnect sid])
  | Ok (s', None) => Ok (s', [])
  | Err => Err
  | Panic => Panic
  end.
(** tag/untag/tag_consensus (122-128, 150-156, 161-177) *)
Definition with_cons (s : pm) (c : gset N) : pm :=
  PM (pm_online s) (pm_dialing s) (pm_feeler s) (pm_store s) (pm_boot s) c (pm_max s) (pm_inlimit s).

(** dial_feeler (352-368), dial_identify (371-387) *)
Definition dial_feeler (s : pm) (a : maddr) : outcome (pm * list action) :=
  match ma_peer a with
  | None => Panic
  | Some q =>
      if bool_decide (pm_online s !! q = None) && bool_decide (a ∉ pm_dialing s) && bool_decide (a ∉ pm_feeler s)
      then Ok (PM (pm_online s) (pm_dialing s) ({[a]} ∪ pm_feeler s) (pm_store s) (pm_boot s) (pm_cons s) (pm_max s) (pm_inlimit s), [ADial a])
      else Ok (s, [])
  end.
Definition dial_identify (s : pm) (a : maddr) : outcome (pm * list action) :=
  match ma_peer a with
  | None => Panic
  | Some q =>
      if bool_decide (pm_online s !! q = None) && bool_decide (a ∉ pm_feeler s) && bool_decide (a ∉ pm_dialing s)
      then Ok (PM (pm_online s) ({[a]} ∪ pm_dialing s) (pm_feeler s) (pm_store s) (pm_boot s) (pm_cons s) (pm_max s) (pm_inlimit s), [ADial a])
      else Ok (s, [])
  end.

(** the number of addresses [try_dial_peers] asks for (428-434) *)
Definition dial_quota (s : pm) : N := (pm_max s - pm_inlimit s) - count_in s.

(* ---------------------------------------------------------------------- *)
(** * Executions of node and transport *)

(** [ns_open]: the sessions the transport has open, with address and direction *)
Record nstate := NS { ns_pm : pm; ns_open : gmap N (maddr * bool); ns_now : N }.

Inductive nev :=
| NOpen (sid : N) (a : maddr) (out : bool)
| NClose (sid : N)
| NProtoErr (sid : N)
| NBan (q : N) (until : N)
| NCons (c : list N)
| NFeeler (a : maddr)
| NIdentify (a : maddr)
| NDialErr (a : maddr)
| NAdd (evict : list maddr) (a : maddr)
| NAddOut (a : maddr)
| NTried (a : maddr)
| NFetch (which : N -> pstore -> ainfo -> bool) (picks : list nat) (count : N)
| NTick (dt : N).

(** What the transport guarantees when it reports a new session: the id is new, the address carries the authenticated peer id, the
    peer has no other session (repeated connections are rejected), and max_connection_number (service.rs:271) is respected. *)
Definition open_ok (s : nstate) (sid : N) (a : maddr) : bool :=
  bool_decide (ns_open s !! sid = None) && bool_decide (ma_peer a <> None) &&
  forallb (fun kv => negb (bool_decide (ma_peer kv.2.1 = ma_peer a))) (map_to_list (ns_open s)) &&
  (N.of_nat (size (ns_open s)) <? pm_max (ns_pm s)).

Definition lift (s : nstate) (r : outcome (pm * list action)) : outcome (nstate * list action) :=
  match r with Ok (p, acts) => Ok (NS p (ns_open s) (ns_now s), acts) | Err => Err | Panic => Panic end.
(** a store operation whose error is only logged *)
Definition lift_store (s : nstate) (r : outcome pstore) : outcome (nstate * list action) :=
  match r with Ok st => Ok (NS (with_store (ns_pm s) st) (ns_open s) (ns_now s), []) | Err => Ok (s, []) | Panic => Panic end.

Definition nstep (s : nstate) (e : nev) : outcome (nstate * list action) :=
  let p := ns_pm s in
  match e with
  | NOpen sid a out =>
      if open_ok s sid a then
        lift (NS p (<[sid := (a, out)]> (ns_open s)) (ns_now s)) (session_open (ns_now s) p sid a out)
      else Ok (s, [])
  | NClose sid =>
      match ns_open s !! sid with
      | Some (a, _) => lift (NS p (delete sid (ns_open s)) (ns_now s))
                         (match unregister p a with Ok p' => Ok (p', []) | Err => Err | Panic => Panic end)
      | None => Ok (s, [])
      end
  | NProtoErr sid => match ns_open s !! sid with Some _ => lift s (protocol_error (ns_now s) p sid) | None => Ok (s, []) end
  | NBan q until => lift s (tag_ban (ns_now s) until p q)
  | NCons c => Ok (NS (with_cons p (list_to_set c)) (ns_open s) (ns_now s), [])
  | NFeeler a => lift s (dial_feeler p a)
  | NIdentify a => lift s (dial_identify p a)
  | NDialErr a => Ok (NS (dial_error p a) (ns_open s) (ns_now s), [])
  | NAdd evict a => lift_store s (ps_add_addr evict (ns_now s) a (pm_store p))
  | NAddOut a => lift_store s (ps_add_outbound (ns_now s) a (pm_store p))
  | NTried a => Ok (NS (with_store p (set_book (pm_store p) (mgr_update (mark_tried (ns_now s)) (ps_book (pm_store p)) a))) (ns_open s) (ns_now s), [])
  | NFetch which picks count =>
      match ps_fetch which picks (ns_now s) count (pm_store p) with
      | Ok (st, _) => Ok (NS (with_store p st) (ns_open s) (ns_now s), [])
      | Err => Err
      | Panic => Panic
      end
  | NTick dt => Ok (NS p (ns_open s) (ns_now s + dt), [])
  end.

Definition ninit (boot : gset N) (max inlimit now : N) : nstate :=
  NS (PM ∅ ∅ ∅ (PStore mgr_empty bans_empty ∅) boot ∅ max inlimit) ∅ now.
(** histories, newest event first *)
Fixpoint nrun (s0 : nstate) (h : list nev) : outcome nstate :=
  match h with
  | [] => Ok s0
  | e :: h' =>
      match nrun s0 h' with
      | Ok s => match nstep s e with Ok (s', _) => Ok s' | Err => Err | Panic => Panic end
      | Err => Err
      | Panic => Panic
      end
  end.
