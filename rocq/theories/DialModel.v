(** Who gets dialled: the ten-second timer of the network service and the dials of a multicast.
    Models /repo/core/network/src/service.rs 351-500 and 518-530 (dial_feeler and dial_identify are in PeerModel),
    peer_manager/mod.rs 57-104 and 197-208 (peers, unconnected_consensus_peer, unconnected_bootstraps), outbound/gossip.rs 87-120
    (the dials of a multicast), service.rs 553-580 (a dial that fails or that reached the node itself), protocols/feeler.rs.
    Simplifications: the clock stands still during a tick; the order in which hash sets are walked and the random choices are inputs of
    the event; bootstrap nodes chosen by choose_multiple are those on a list that comes with the event; the dial itself is the action
    [ADial], whose result comes back as a later event. *)
From stdpp Require Import base gmap list.
From Verif Require Import Bytes TxModel PeerModel.
#[local] Open Scope N_scope.

(** the node: peers and transport, try_identify_count, the bootstrap nodes (config), the node's own addresses (public_addrs) *)
Record dstate := DS { ds_net : nstate; ds_tries : N; ds_boots : list maddr; ds_public : list maddr }.

(** get_mut(addr).mark_tried(now) for each of a list (service.rs 408-413, 443-447; mod.rs 73-77, 98-102) *)
Definition mark_all (now : N) (l : list maddr) (m : mgr) : mgr := fold_left (mgr_update (mark_tried now)) l m.
(** service.rs 406-416 and 440-450 *)
Definition fetch_mark (which : N -> pstore -> ainfo -> bool) (picks : list nat) (now count : N) (p : pstore) : outcome (pstore * list maddr) :=
  match ps_fetch which picks now count p with
  | Ok (p', l) => let l' := map ai_addr l in Ok (set_book p' (mark_all now l' (ps_book p')), l')
  | Err => Err
  | Panic => Panic
  end.

(** dialling one after the other *)
Fixpoint dial_each (dial : pm -> maddr -> outcome (pm * list action)) (l : list maddr) (s : pm) : outcome (pm * list action) :=
  match l with
  | [] => Ok (s, [])
  | a :: r =>
      match dial s a with
      | Ok (s1, acts) => match dial_each dial r s1 with Ok (s2, acts') => Ok (s2, acts ++ acts') | Err => Err | Panic => Panic end
      | Err => Err
      | Panic => Panic
      end
  end.

(** the addresses of peers that are not connected, marked as tried: unconnected_consensus_peer (86-104) and the second half of peers (57-84) *)
Fixpoint unconnected (now : N) (ids : list N) (online : gmap N pinfo) (p : pstore) : outcome (pstore * list maddr) :=
  match ids with
  | [] => Ok (p, [])
  | q :: r =>
      match online !! q with
      | Some _ => unconnected now r online p
      | None =>
          match ps_fetch_by_peer now q p with
          | Ok set =>
              let l := elements set in
              match unconnected now r online (set_book p (mark_all now l (ps_book p))) with
              | Ok (p', l') => Ok (p', l ++ l')
              | Err => Err
              | Panic => Panic
              end
          | Err => Err
          | Panic => Panic
          end
      end
  end.

(** try_dial_consensus (494-500); [order]: the consensus list in some order *)
Definition try_consensus (now : N) (order : list N) (s : pm) : outcome (pm * list action) :=
  match unconnected now (List.filter (fun q => bool_decide (q ∈ pm_cons s)) order) (pm_online s) (pm_store s) with
  | Ok (st, l) => dial_each dial_identify l (with_store s st)
  | Err => Err
  | Panic => Panic
  end.

(** try_dial_peers (428-492); [chosen]: the bootstrap nodes picked when there are too many.  The result has the new try_identify_count. *)
Definition not_online (s : pm) (a : maddr) : bool :=
  match ma_peer a with Some q => bool_decide (pm_online s !! q = None) | None => false end.
Definition try_peers (now : N) (picks : list nat) (chosen boots : list maddr) (tries : N) (s : pm) : outcome (pm * list action * N) :=
  if pm_max s <? pm_inlimit s then Panic                      (* the subtraction at 432, excluded by the configuration *)
  else
    let count := dial_quota s in
    if count =? 0 then Ok (s, [], 0)
    else
      let tries1 := tries + 1 in
      let finish (r : outcome (pstore * list maddr)) (extra : list maddr) (t : N) :=
        match r with
        | Ok (st, l) =>
            match dial_each dial_identify (l ++ extra) (with_store s st) with
            | Ok (s', acts) => Ok (s', acts, t)
            | Err => Err
            | Panic => Panic
            end
        | Err => Err
        | Panic => Panic
        end in
      if 3 <? tries1 then
        let bootnodes := List.filter (not_online s) boots in
        let n := N.of_nat (length bootnodes) in
        if n <? count then finish (fetch_mark attempt_filter picks now (count - n) (pm_store s)) bootnodes 0
        else finish (Ok (pm_store s, [])) (List.filter (fun a => bool_decide (a ∈ chosen)) bootnodes) 0
      else finish (fetch_mark attempt_filter picks now count (pm_store s)) [] tries1.

(** try_dial_feeler (404-426) *)
Definition try_feeler (now : N) (picks : list nat) (s : pm) : outcome (pm * list action) :=
  match fetch_mark feeler_filter picks now 10 (pm_store s) with
  | Ok (st, l) => dial_each dial_feeler l (with_store s st)
  | Err => Err
  | Panic => Panic
  end.

(** try_dial_observed_addr (389-402): one of the node's own addresses, if there are any *)
Definition try_observed (public : list maddr) (choice : nat) (s : pm) : outcome (pm * list action) :=
  match public !! (choice mod length public)%nat with
  | Some a => dial_identify s a
  | None => Ok (s, [])
  end.

(** the tick (523-528) *)
Definition tick (order : list N) (picks1 picks2 : list nat) (chosen : list maddr) (choice : nat) (d : dstate) : outcome (dstate * list action) :=
  let n := ds_net d in
  let now := ns_now n in
  match try_consensus now order (ns_pm n) with
  | Ok (s1, a1) =>
      match try_peers now picks1 chosen (ds_boots d) (ds_tries d) s1 with
      | Ok (s2, a2, t) =>
          match try_feeler now picks2 s2 with
          | Ok (s3, a3) =>
              match try_observed (ds_public d) choice s3 with
              | Ok (s4, a4) => Ok (DS (NS s4 (ns_open n) now) t (ds_boots d) (ds_public d), a1 ++ a2 ++ a3 ++ a4)
              | Err => Err
              | Panic => Panic
              end
          | Err => Err
          | Panic => Panic
          end
      | Err => Err
      | Panic => Panic
      end
  | Err => Err
  | Panic => Panic
  end.

(** the dials of a multicast (gossip.rs 102-117): they do not enter the set of dials in progress *)
Definition cast (ids : list N) (d : dstate) : outcome (dstate * list action) :=
  let n := ds_net d in
  match unconnected (ns_now n) ids (pm_online (ns_pm n)) (pm_store (ns_pm n)) with
  | Ok (st, l) => Ok (DS (NS (with_store (ns_pm n) st) (ns_open n) (ns_now n)) (ds_tries d) (ds_boots d) (ds_public d), map ADial l)
  | Err => Err
  | Panic => Panic
  end.

(** What happens to a node.  [DNet] is any event of PeerModel that is not itself a dial, a mark or a fetch; [DSelf]: a dial reached the
    node itself (561-569: the address becomes one of the node's own); [DStart]: the first dials of run (510-512).  The feeler protocol
    (feeler.rs 23-45) is [NAddOut] followed by [NClose]. *)
Inductive dev :=
| DStart
| DTick (order : list N) (picks1 picks2 : list nat) (chosen : list maddr) (choice : nat)
| DCast (ids : list N)
| DSelf (a : maddr)
| DNet (e : nev).
Definition passive (e : nev) : bool :=
  match e with NFeeler _ | NIdentify _ | NTried _ | NFetch _ _ _ => false | _ => true end.
Definition dstep (d : dstate) (e : dev) : outcome (dstate * list action) :=
  match e with
  | DStart =>
      let n := ds_net d in
      match dial_each dial_identify (ds_boots d) (ns_pm n) with
      | Ok (s, acts) => Ok (DS (NS s (ns_open n) (ns_now n)) (ds_tries d) (ds_boots d) (ds_public d), acts)
      | Err => Err
      | Panic => Panic
      end
  | DTick order p1 p2 chosen choice => tick order p1 p2 chosen choice d
  | DCast ids => cast ids d
  | DSelf a =>
      let n := ds_net d in
      Ok (DS (NS (dial_error (ns_pm n) a) (ns_open n) (ns_now n)) (ds_tries d) (ds_boots d) (a :: ds_public d), [])
  | DNet e =>
      if passive e then
        match nstep (ds_net d) e with
        | Ok (n, acts) => Ok (DS n (ds_tries d) (ds_boots d) (ds_public d), acts)
        | Err => Err
        | Panic => Panic
        end
      else Ok (d, [])
  end.
(** a run, oldest event first: the final state and what the node asked for at each event *)
Fixpoint drun (d : dstate) (es : list dev) : outcome (dstate * list (dev * list action)) :=
  match es with
  | [] => Ok (d, [])
  | e :: r =>
      match dstep d e with
      | Ok (d1, acts) => match drun d1 r with Ok (d2, tr) => Ok (d2, (e, acts) :: tr) | Err => Err | Panic => Panic end
      | Err => Err
      | Panic => Panic
      end
  end.
