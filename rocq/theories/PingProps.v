(** C73: the ping protocol closes the sessions of silent peers and only those. *)
From Verif Require Import Bytes BytesProofs TxModel PeerModel ProtoModel ProtoProps P2pModel.
From stdpp Require Import base gmap list.
From Coq Require Import Lia.
#[local] Open Scope N_scope.

(* ---------------------------------------------------------------------- *)
(** * Specification: what an observer sees of a session *)

#[local] Instance ping_payload_eq : EqDecision ping_payload.
Proof. solve_decision. Defined.

Notation ptrace := (list (pevent * list peffect)).

(** the protocol is open on session [s] *)
Fixpoint p_open (s : N) (tr : ptrace) : Prop :=
  match tr with
  | [] => False
  | (PConnected _ x, _) :: r => s_id x = s \/ p_open s r
  | (PDisconnected x, _) :: r => s_id x <> s /\ p_open s r
  | _ :: r => p_open s r
  end.

(** the nonce of the ping sent to [s] in one step *)
Fixpoint ping_to (s : N) (fs : list peffect) : option N :=
  match fs with
  | PSend x (Some (Ping n)) :: r => if x =? s then Some n else ping_to s r
  | _ :: r => ping_to s r
  | [] => None
  end.

(** the ping [s] has not answered yet: when it was sent, and its nonce *)
Fixpoint awaiting (s : N) (tr : ptrace) : option (N * N) :=
  match tr with
  | [] => None
  | (PDisconnected x, _) :: r => if s_id x =? s then None else awaiting s r
  | (PTick now, fs) :: r => match ping_to s fs with Some n => Some (now, n) | None => awaiting s r end
  | (PReceived x d, _) :: r =>
      match awaiting s r with
      | Some (t, n) => if (s_id x =? s) && bool_decide (dec_ping d = Some (Some (Pong n))) then None else Some (t, n)
      | None => None
      end
  | _ :: r => awaiting s r
  end.

(** every session's address carries a peer id, as tentacle's encrypted sessions do *)
Definition p_named (e : pevent) : Prop :=
  match e with PConnected _ x | PDisconnected x => ma_peer (s_addr x) <> None | _ => True end.

(* ---------------------------------------------------------------------- *)
(** * The invariant *)

Section Ping.
  Context (timeout start : N).
  Notation run := (ping_run timeout start).
  Notation secs now := (((now - start) / 1000000000) mod 2 ^ 32).

  Definition p_inv (m : gmap N pstatus) (tr : ptrace) : Prop :=
    forall s, match m !! s with
              | Some st => p_open s tr /\ awaiting s tr = (if ps_busy st then Some (ps_sent st, ps_nonce st) else None)
              | None => ~ p_open s tr /\ awaiting s tr = None
              end.

  Lemma tick_sent now m s :
    ping_to s (tick start now m).2 =
      match m !! s with Some st => if ps_busy st then None else Some (secs now) | None => None end.
  Proof.
    unfold tick. cbn [snd]. fold (nonce_at start now).
    assert (G : forall l, NoDup (l.*1) ->
       ping_to s (map (fun '(sid, _) => PSend sid (Some (Ping (nonce_at start now)))) (filter (fun '(_, st) => ps_busy st = false) l)) =
       match (list_to_map l : gmap N pstatus) !! s with Some st => if ps_busy st then None else Some (nonce_at start now) | None => None end).
    { induction l as [|[k st] l IH]; [intros _; cbn; rewrite lookup_empty; reflexivity|]. intros ND. cbn [fmap list_fmap fst] in ND. apply NoDup_cons in ND as [NI ND].
      cbn [list_to_map foldr uncurry]. change (foldr _ ∅ l) with (list_to_map l : gmap N pstatus).
      rewrite filter_cons. cbn [fst snd].
      destruct (N.eq_dec k s) as [->|Ne].
      - rewrite lookup_insert. destruct (decide (ps_busy st = false)) as [B|B].
        + cbn [map ping_to]. rewrite N.eqb_refl, B. reflexivity.
        + rewrite (IH ND). rewrite (not_elem_of_list_to_map_1 l s NI). destruct (ps_busy st); [reflexivity|congruence].
      - rewrite lookup_insert_ne by exact Ne. destruct (decide (ps_busy st = false)) as [B|B].
        + cbn [map ping_to]. destruct (N.eqb_spec k s); [contradiction|]. apply IH, ND.
        + apply IH, ND. }
    rewrite G by apply NoDup_fst_map_to_list. rewrite list_to_map_to_list. reflexivity.
  Qed.

  Lemma step_inv m tr e m' fs : p_inv m tr -> pstep timeout start m e = Ok (m', fs) -> p_inv m' ((e, fs) :: tr).
  Proof.
    intros I E s. specialize (I s). destruct e as [now x|x|x d|now|now]; cbn [pstep] in E.
    - unfold with_peer in E. destruct (ma_peer (s_addr x)); [|discriminate]. injection E as <- <-. cbn [p_open awaiting].
      destruct (m !! s_id x) as [st0|] eqn:X.
      + destruct (m !! s) as [st|] eqn:Y.
        * destruct I as [O A]. split; [right; exact O|exact A].
        * destruct I as [O A]. split; [|exact A]. intros [<-|O']; [congruence|contradiction].
      + destruct (N.eq_dec (s_id x) s) as [<-|Ne].
        * rewrite lookup_insert. rewrite X in I. destruct I as [O A]. split; [left; reflexivity|exact A].
        * rewrite lookup_insert_ne by exact Ne. destruct (m !! s) as [st|].
          -- destruct I as [O A]. split; [right; exact O|exact A].
          -- destruct I as [O A]. split; [|exact A]. intros [<-|O']; [congruence|contradiction].
    - unfold with_peer in E. destruct (ma_peer (s_addr x)); [|discriminate]. injection E as <- <-. cbn [p_open awaiting].
      destruct (N.eqb_spec (s_id x) s) as [->|Ne].
      + rewrite lookup_delete. split; [|reflexivity]. intros [Ne _]. congruence.
      + rewrite lookup_delete_ne by exact Ne. destruct (m !! s) as [st|]; destruct I as [O A]; split; try exact A; [easy|].
        intros [_ O']. contradiction.
    - destruct (ping_received m x d) as [m1 fs1] eqn:R. injection E as <- <-.
      cbn [p_open awaiting fst snd]. unfold ping_received in R.
      assert (K : m1 !! s = match m !! s with
                            | Some st => if (s_id x =? s) && ps_busy st && bool_decide (dec_ping d = Some (Some (Pong (ps_nonce st))))
                                         then Some (PStatus false (ps_sent st) (ps_nonce st)) else Some st
                            | None => None
                            end).
      { destruct (dec_ping d) as [[[n|n]|]|]; try (injection R as <- _;
          destruct (m !! s) as [st|]; [|reflexivity]; rewrite bool_decide_eq_false_2 by congruence; rewrite andb_false_r; reflexivity).
        destruct (m !! s_id x) as [st|] eqn:X.
        - destruct (ps_busy st && (n =? ps_nonce st)) eqn:B.
          + injection R as <- _. apply andb_prop in B as [B1 B2]. apply N.eqb_eq in B2 as ->.
            destruct (N.eqb_spec (s_id x) s) as [<-|Ne].
            * rewrite lookup_insert, X, B1, bool_decide_eq_true_2 by reflexivity. reflexivity.
            * rewrite lookup_insert_ne by exact Ne. destruct (m !! s); reflexivity.
          + injection R as <- _. destruct (N.eqb_spec (s_id x) s) as [<-|Ne]; [|destruct (m !! s); reflexivity].
            rewrite X. cbn [andb]. destruct (ps_busy st); [|reflexivity]. cbn [andb] in *.
            rewrite bool_decide_eq_false_2; [reflexivity|]. intros H. injection H as ->. rewrite N.eqb_refl in B. discriminate.
        - injection R as <- _. destruct (m !! s) as [st|] eqn:Y; [|reflexivity].
          destruct (N.eqb_spec (s_id x) s) as [Eq|Ne]; [congruence|]. reflexivity. }
      rewrite K. destruct (m !! s) as [st|].
      + destruct I as [O A]. rewrite A. destruct (ps_busy st) eqn:B.
        * destruct (s_id x =? s); cbn [andb]; [destruct (bool_decide _); cbn [ps_busy ps_sent ps_nonce]|]; rewrite ?B; split; auto.
        * rewrite andb_false_r. cbn [andb]. rewrite B. split; auto.
      + destruct I as [O A]. rewrite A. split; auto.
    - injection E as <- <-. cbn [p_open awaiting fst snd]. fold (tick start now m). pose proof (tick_sent now m s) as T. cbn [snd] in T.
      change (map _ _) with (tick start now m).2. rewrite T. rewrite lookup_fmap.
      destruct (m !! s) as [st|]; cbn [fmap option_fmap option_map].
      + destruct I as [O A]. destruct (ps_busy st) eqn:B; [rewrite B|]; split; try exact O; [exact A|reflexivity].
      + exact I.
    - injection E as <- <-. cbn [p_open awaiting]. exact I.
  Qed.

  Lemma run_inv h m tr : run h = Ok (m, tr) -> p_inv m tr.
  Proof.
    revert m tr. induction h as [|e h IH]; intros m tr E.
    - injection E as <- <-. intros s. rewrite lookup_empty. split; [easy|reflexivity].
    - unfold ping_run in E. cbn [p2p_run] in E. destruct (p2p_run (pstep timeout start) ∅ h) as [[m0 tr0]| |] eqn:R; try discriminate.
      destruct (pstep timeout start m0 e) as [[m1 fs]| |] eqn:S; try discriminate. injection E as <- <-.
      apply step_inv with (m := m0); [apply IH; exact R|exact S].
  Qed.

  Lemma run_cons e h m' tr' :
    run (e :: h) = Ok (m', tr') ->
    exists m tr fs, run h = Ok (m, tr) /\ tr' = (e, fs) :: tr /\ pstep timeout start m e = Ok (m', fs).
  Proof.
    unfold ping_run. cbn [p2p_run]. destruct (p2p_run _ _ h) as [[m0 tr0]| |] eqn:R; try discriminate.
    destruct (pstep timeout start m0 e) as [[m1 fs]| |] eqn:S; try discriminate. intros H. injection H as <- <-. eauto 10.
  Qed.

  (* -------------------------------------------------------------------- *)
  (** * C73 *)

  (** the timer: exactly the open sessions without an unanswered ping get one, carrying the seconds since the start *)
  Theorem C73_tick now h m' tr fs :
    run (PTick now :: h) = Ok (m', (PTick now, fs) :: tr) ->
    NoDup fs /\
    forall f, f ∈ fs <-> exists s, f = PSend s (Some (Ping (secs now))) /\ p_open s tr /\ awaiting s tr = None.
  Proof.
    intros R. destruct (run_cons _ _ _ _ R) as (m & tr0 & fs0 & R0 & E & S). injection E as <- <-.
    pose proof (run_inv _ _ _ R0) as I. cbn [pstep] in S. injection S as _ <-. split.
    - clear R. cbn [tick snd]. pose proof (NoDup_fst_map_to_list m) as ND. induction (map_to_list m) as [|[k st] l IH]; [constructor|].
      cbn [fmap list_fmap fst] in ND. apply NoDup_cons in ND as [NI ND]. rewrite filter_cons. cbn [snd].
      destruct (decide _); [|apply IH, ND]. cbn [map]. apply NoDup_cons. split; [|apply IH, ND].
      intros IN. apply elem_of_list_fmap in IN as ([k' st'] & H & IN). injection H as <-. apply elem_of_list_filter in IN as [_ IN].
      apply NI. apply elem_of_list_fmap. exists (k, st'). auto.
    - intros f. cbn [tick snd]. split.
      + intros IN. apply elem_of_list_fmap in IN as ([s st] & -> & IN). apply elem_of_list_filter in IN as [B IN]. apply elem_of_map_to_list in IN.
        specialize (I s). rewrite IN, B in I. exists s. split; [reflexivity|exact I].
      + intros (s & -> & O & A). specialize (I s). destruct (m !! s) as [st|] eqn:L; [|destruct I; contradiction].
        apply elem_of_list_fmap. exists (s, st). split; [reflexivity|]. apply elem_of_list_filter. split; [|apply elem_of_map_to_list, L].
        destruct I as [_ I]. rewrite A in I. destruct (ps_busy st); [discriminate|reflexivity].
  Qed.

  (** the check: exactly the open sessions whose ping has been waiting for the timeout are closed *)
  Theorem C73_check now h m' tr fs :
    run (PCheck now :: h) = Ok (m', (PCheck now, fs) :: tr) ->
    forall f, f ∈ fs <-> exists s t n, f = PClose s /\ p_open s tr /\ awaiting s tr = Some (t, n) /\ timeout <= now - t.
  Proof.
    intros R. destruct (run_cons _ _ _ _ R) as (m & tr0 & fs0 & R0 & E & S). injection E as <- <-.
    pose proof (run_inv _ _ _ R0) as I. cbn [pstep] in S. injection S as _ <-. intros f. split.
    - intros IN. apply elem_of_list_fmap in IN as ([s st] & -> & IN). apply elem_of_list_filter in IN as [[B T] IN]. apply elem_of_map_to_list in IN.
      specialize (I s). rewrite IN, B in I. destruct I as [O A]. exists s, (ps_sent st), (ps_nonce st). auto.
    - intros (s & t & n & -> & O & A & T). specialize (I s). destruct (m !! s) as [st|] eqn:L; [|destruct I; contradiction].
      apply elem_of_list_fmap. exists (s, st). split; [reflexivity|]. apply elem_of_list_filter. split; [|apply elem_of_map_to_list, L].
      destruct I as [_ I]. rewrite A in I. destruct (ps_busy st); [|discriminate]. injection I as -> ->. auto.
  Qed.

  (** a ping is answered with its nonce; a pong is accepted when it answers the waiting ping and closes the session otherwise *)
  Theorem C73_message x d h m' tr fs :
    run (PReceived x d :: h) = Ok (m', (PReceived x d, fs) :: tr) ->
    (forall n, dec_ping d = Some (Some (Ping n)) -> fs = [PSend (s_id x) (Some (Pong n))]) /\
    (forall n, dec_ping d = Some (Some (Pong n)) -> p_open (s_id x) tr ->
       (forall t, awaiting (s_id x) tr = Some (t, n) -> fs = []) /\
       ((forall t, awaiting (s_id x) tr <> Some (t, n)) -> fs = [PClose (s_id x)])) /\
    (dec_ping d = None \/ dec_ping d = Some None \/ (~ p_open (s_id x) tr /\ exists n, dec_ping d = Some (Some (Pong n))) -> fs = []).
  Proof.
    intros R. destruct (run_cons _ _ _ _ R) as (m & tr0 & fs0 & R0 & E & S). injection E as <- <-.
    pose proof (run_inv _ _ _ R0 (s_id x)) as I. cbn [pstep] in S. injection S as S. unfold ping_received in S.
    split; [|split].
    - intros n D. rewrite D in S. injection S as _ <-. reflexivity.
    - intros n D O. rewrite D in S. destruct (m !! s_id x) as [st|]; [|destruct I; contradiction]. destruct I as [_ A]. split.
      + intros t H. rewrite H in A. destruct (ps_busy st); [|discriminate]. injection A as _ ->.
        rewrite N.eqb_refl in S. injection S as _ <-. reflexivity.
      + intros H. destruct (ps_busy st && (n =? ps_nonce st)) eqn:B; [|injection S as _ <-; reflexivity].
        apply andb_prop in B as [B1 B2]. apply N.eqb_eq in B2 as ->. rewrite B1 in A. exfalso. exact (H _ A).
    - intros [D|[D|[O [n D]]]]; rewrite D in S; try (injection S as _ <-; reflexivity).
      destruct (m !! s_id x) as [st|]; [destruct I; contradiction|]. injection S as _ <-. reflexivity.
  Qed.

  (** a session is closed only by a check that finds a ping overdue, or by a pong that answers nothing *)
  Theorem C73_only_silent e h m' tr fs s :
    run (e :: h) = Ok (m', (e, fs) :: tr) -> PClose s ∈ fs ->
    (exists now t n, e = PCheck now /\ awaiting s tr = Some (t, n) /\ timeout <= now - t) \/
    (exists x d n, e = PReceived x d /\ s_id x = s /\ dec_ping d = Some (Some (Pong n)) /\ forall t, awaiting s tr <> Some (t, n)).
  Proof.
    intros R IN. destruct e as [now x|x|x d|now|now].
    - destruct (run_cons _ _ _ _ R) as (m & tr0 & fs0 & _ & E & S). injection E as <- <-. cbn [pstep] in S. unfold with_peer in S.
      destruct (ma_peer _); [|discriminate]. injection S as _ <-. inversion IN.
    - destruct (run_cons _ _ _ _ R) as (m & tr0 & fs0 & _ & E & S). injection E as <- <-. cbn [pstep] in S. unfold with_peer in S.
      destruct (ma_peer _); [|discriminate]. injection S as _ <-. inversion IN.
    - right. destruct (C73_message _ _ _ _ _ _ R) as (A & B & C).
      destruct (dec_ping d) as [[[n|n]|]|] eqn:D.
      + rewrite (A n eq_refl) in IN. apply elem_of_list_singleton in IN. discriminate.
      + destruct (run_cons _ _ _ _ R) as (m & tr0 & fs0 & R0 & E & S). injection E as <- <-.
        pose proof (run_inv _ _ _ R0 (s_id x)) as I. destruct (m !! s_id x) as [st|].
        * destruct I as [O A']. destruct (B n eq_refl O) as [B1 B2].
          assert (W : forall t, awaiting (s_id x) tr <> Some (t, n)).
          { intros t H. rewrite (B1 t H) in IN. inversion IN. }
          rewrite (B2 W) in IN. apply elem_of_list_singleton in IN. injection IN as ->. exists x, d, n. auto.
        * rewrite C in IN; [inversion IN|]. right; right. split; [apply I|eauto].
      + rewrite C in IN; [inversion IN|auto].
      + rewrite C in IN; [inversion IN|auto].
    - destruct (C73_tick _ _ _ _ _ R) as [_ H]. apply H in IN as (s' & X & _). discriminate.
    - left. apply (C73_check _ _ _ _ _ R) in IN as (s' & t & n & X & _ & A & T). injection X as ->. eauto 10.
  Qed.

  (** the handler never panics *)
  Theorem C73_no_panic h : Forall p_named h -> exists m tr, run h = Ok (m, tr).
  Proof.
    induction h as [|e h IH]; intros F; [unfold ping_run; cbn; eauto|]. apply Forall_cons in F as [Fe F].
    destruct (IH F) as (m & tr & R). unfold ping_run in *. cbn [p2p_run]. rewrite R.
    destruct e as [now x|x|x d|now|now]; cbn [pstep p_named] in *; unfold with_peer.
    - destruct (ma_peer (s_addr x)); [eauto|congruence].
    - destruct (ma_peer (s_addr x)); [eauto|congruence].
    - destruct (ping_received m x d); eauto.
    - destruct (tick start now m); eauto.
    - eauto.
  Qed.
End Ping.

(** two sessions, both pinged after 15 s; 1 answers, 2 does not and is closed by the check; 1 then sends a stray pong *)
Example C73_example :
  let a i := MAddr (Some ((false, 16909060), 8000 + i)) (Some i) 0 in
  let s1 := Sess 1 (a 1) true in
  let s2 := Sess 2 (a 2) false in
  let sec := 1000000000 in
  let h := [PReceived s1 (enc_ping (Some (Pong 15))); PCheck (40 * sec); PReceived s1 (enc_ping (Some (Pong 15)));
            PReceived s2 (enc_ping (Some (Ping 9))); PTick (15 * sec); PConnected 0 s2; PConnected 0 s1] in
  Forall p_named h /\
  exists m, ping_run (20 * sec) 0 h =
    Ok (m, [(PReceived s1 (enc_ping (Some (Pong 15))), [PClose 1]); (PCheck (40 * sec), [PClose 2]);
            (PReceived s1 (enc_ping (Some (Pong 15))), []); (PReceived s2 (enc_ping (Some (Ping 9))), [PSend 2 (Some (Pong 9))]);
            (PTick (15 * sec), [PSend 1 (Some (Ping 15)); PSend 2 (Some (Ping 15))]); (PConnected 0 s2, []); (PConnected 0 s1, [])]) /\
    awaiting 2 [(PTick (15 * sec), [PSend 1 (Some (Ping 15)); PSend 2 (Some (Ping 15))]); (PConnected 0 s2, []); (PConnected 0 s1, [])]
      = Some (15 * sec, 15).
Proof.
  cbv zeta. split; [repeat constructor; cbn; discriminate|]. eexists. split; vm_compute; reflexivity.
Qed.

Print Assumptions C73_tick.
Print Assumptions C73_check.
Print Assumptions C73_message.
Print Assumptions C73_only_silent.
Print Assumptions C73_no_panic.
Print Assumptions C73_example.
