(** C74: the identify protocol lets in peers of the same chain only, once, and learns a bounded number of reachable addresses. *)
From Verif Require Import Bytes BytesProofs TxModel PeerModel ProtoModel ProtoProps P2pModel.
From stdpp Require Import base gmap list.
From Coq Require Import Lia.
#[local] Open Scope N_scope.

(* ---------------------------------------------------------------------- *)
(** * Specification: what an observer sees of a session *)

Notation itrace := (list (ievent * list ieffect)).

(** the data is an identity with address information *)
Definition introduces (d : bytes) : bool :=
  match dec_identity d with Some (Identity _ (Some _)) => true | _ => false end.

(** an open session: when it was opened, and whether the peer has introduced itself since *)
Fixpoint i_view (s : N) (tr : itrace) : option (N * bool) :=
  match tr with
  | [] => None
  | (IConnected now x, _) :: r => if s_id x =? s then Some (now, false) else i_view s r
  | (IDisconnected x _, _) :: r => if s_id x =? s then None else i_view s r
  | (IReceived x d _, _) :: r =>
      match i_view s r with
      | Some (t, b) => Some (t, b || ((s_id x =? s) && introduces d))
      | None => None
      end
  | (INotify _, _) :: r => i_view s r
  end.

(** the addresses learnt from session [s] since it was opened *)
Definition stored (fs : list ieffect) : list maddr := omap (fun f => match f with IStore a => Some a | _ => None end) fs.
Fixpoint i_learnt (s : N) (tr : itrace) : list maddr :=
  match tr with
  | [] => []
  | (IConnected _ x, _) :: r => if s_id x =? s then [] else i_learnt s r
  | (IReceived x _ _, fs) :: r => if s_id x =? s then stored fs ++ i_learnt s r else i_learnt s r
  | _ :: r => i_learnt s r
  end.

(** tentacle's promises: session addresses carry a peer id, and messages and closings concern open sessions *)
Fixpoint i_orderly (h : list ievent) (isopen : N -> list ievent -> Prop) : Prop :=
  match h with
  | [] => True
  | e :: r =>
      i_orderly r isopen /\
      match e with
      | IConnected _ x => ma_peer (s_addr x) <> None
      | IDisconnected x _ | IReceived x _ _ => ma_peer (s_addr x) <> None /\ isopen (s_id x) r
      | INotify _ => True
      end
  end.
Fixpoint i_isopen (s : N) (h : list ievent) : Prop :=
  match h with
  | [] => False
  | IConnected _ x :: r => s_id x = s \/ i_isopen s r
  | IDisconnected x _ :: r => s_id x <> s /\ i_isopen s r
  | _ :: r => i_isopen s r
  end.

Section Identify.
  Context (parse : bytes -> option maddr) (to_vec : maddr -> bytes) (reachable : ip -> bool).
  Context (chain : bytes) (listening : list maddr) (me : N).
  Notation run := (id_run parse to_vec reachable chain listening me).
  Notation step := (istep parse to_vec reachable chain listening me).

  (** an address with an ip that can be reached from anywhere *)
  Definition reach (a : maddr) : Prop := exists i p, ma_sock a = Some (i, p) /\ reachable i = true.

  Lemma public_reach a : public reachable a = true <-> reach a.
  Proof.
    unfold public, reach. destruct (ma_sock a) as [[i p]|]; cbn [fst].
    - split; [eauto|]. intros (i' & p' & H & R). injection H as <- _. exact R.
    - split; [discriminate|]. intros (i & p & H & _). discriminate.
  Qed.

  Lemma List_filter_le {A} (p : A -> bool) (l : list A) : (length (List.filter p l) <= length l)%nat.
  Proof. induction l as [|a l IH]; cbn; [lia|]. destruct (p a); cbn; lia. Qed.

  Definition i_inv (m : gmap N rinfo) (tr : itrace) : Prop :=
    forall s, i_view s tr = (fun i => (ri_at i, ri_received i)) <$> m !! s.

  Lemma run_cons e h m' tr' :
    run (e :: h) = Ok (m', tr') ->
    exists m tr fs, run h = Ok (m, tr) /\ tr' = (e, fs) :: tr /\ step m e = Ok (m', fs).
  Proof.
    unfold id_run. cbn [p2p_run]. destruct (p2p_run _ _ h) as [[m0 tr0]| |] eqn:R; try discriminate.
    destruct (step m0 e) as [[m1 fs]| |] eqn:S; try discriminate. intros H. injection H as <- <-. eauto 10.
  Qed.

  (** what [received] does to the table *)
  Lemma received_map m x d f m' fs :
    id_received parse reachable chain listening me m x d f = Ok (m', fs) ->
    forall s, m' !! s = match m !! s with
                        | Some i => Some (if (s_id x =? s) && introduces d then RInfo (ri_at i) true else i)
                        | None => None
                        end.
  Proof.
    unfold id_received, introduces. intros E s.
    destruct (dec_identity d) as [[c [ai|]]|]; cbn [id_info id_chain] in E.
    - destruct (m !! s_id x) as [i|] eqn:L; [|discriminate].
      assert (K : m' = <[s_id x := RInfo (ri_at i) true]> m).
      { destruct (ri_received i) eqn:B.
        - injection E as <- _. symmetry. apply insert_id. rewrite L. destruct i; cbn in *; congruence.
        - destruct (beqb chain c).
          + destruct (process_listens _ _ _) as [[[] fs1]| |]; try discriminate.
            * injection E as <- _. reflexivity.
            * destruct (process_observed _ _ _ _ _ _); try discriminate. injection E as <- _. reflexivity.
          + injection E as <- _. reflexivity. }
      subst m'. destruct (N.eqb_spec (s_id x) s) as [<-|Ne].
      + rewrite lookup_insert, L. reflexivity.
      + rewrite lookup_insert_ne by exact Ne. destruct (m !! s); reflexivity.
    - injection E as <- _. rewrite andb_false_r. destruct (m !! s); reflexivity.
    - destruct (m !! s_id x); [|discriminate]. injection E as <- _. rewrite andb_false_r. destruct (m !! s); reflexivity.
  Qed.

  Lemma run_inv h m tr : run h = Ok (m, tr) -> i_inv m tr.
  Proof.
    revert m tr. induction h as [|e h IH]; intros m tr R.
    - injection R as <- <-. intros s. rewrite lookup_empty. reflexivity.
    - destruct (run_cons _ _ _ _ R) as (m0 & tr0 & fs & R0 & -> & E). specialize (IH _ _ R0). intros s. specialize (IH s).
      destruct e as [now x|x b|x d f|now]; cbn [istep] in E; cbn [i_view].
      + unfold id_connected, with_peer in E. destruct (ma_peer (s_addr x)); [|discriminate]. injection E as <- <-.
        destruct (N.eqb_spec (s_id x) s) as [<-|Ne]; [rewrite lookup_insert; reflexivity|rewrite lookup_insert_ne by exact Ne; exact IH].
      + unfold id_disconnected, with_peer in E. destruct (m0 !! s_id x); [|discriminate].
        destruct (ma_peer (s_addr x)); [|discriminate]. injection E as <- <-.
        destruct (N.eqb_spec (s_id x) s) as [<-|Ne]; [rewrite lookup_delete; reflexivity|rewrite lookup_delete_ne by exact Ne; exact IH].
      + rewrite (received_map _ _ _ _ _ _ E s), IH. destruct (m0 !! s) as [i|]; [|reflexivity]. cbn [fmap option_fmap option_map].
        destruct ((s_id x =? s) && introduces d); [rewrite orb_true_r|rewrite orb_false_r]; reflexivity.
      + injection E as <- <-. exact IH.
  Qed.

  (* -------------------------------------------------------------------- *)
  (** * C74 *)

  (** unreadable data, or an identity without addresses, closes the session and does nothing else *)
  Theorem C74_bad_data x d f h m' tr fs :
    run (IReceived x d f :: h) = Ok (m', (IReceived x d f, fs) :: tr) ->
    introduces d = false -> fs = [IClose (s_id x)].
  Proof.
    intros R B. destruct (run_cons _ _ _ _ R) as (m & tr0 & fs0 & R0 & E & S). injection E as <- <-. cbn [istep] in S.
    unfold id_received in S. unfold introduces in B. destruct (dec_identity d) as [[c [ai|]]|]; [discriminate| |]; cbn [id_info] in S.
    - injection S as _ <-. reflexivity.
    - destruct (m !! s_id x); [|discriminate]. injection S as _ <-. reflexivity.
  Qed.

  (** a second introduction, or one for another chain, closes the session and does nothing else *)
  Theorem C74_refused x d f h m' tr fs t b c ai :
    run (IReceived x d f :: h) = Ok (m', (IReceived x d f, fs) :: tr) ->
    i_view (s_id x) tr = Some (t, b) -> dec_identity d = Some (Identity c (Some ai)) ->
    b = true \/ c <> chain -> fs = [IClose (s_id x)].
  Proof.
    intros R V D H. destruct (run_cons _ _ _ _ R) as (m & tr0 & fs0 & R0 & E & S). injection E as <- <-. cbn [istep] in S.
    pose proof (run_inv _ _ _ R0 (s_id x)) as I. rewrite V in I. unfold id_received in S. rewrite D in S. cbn [id_info id_chain] in S.
    destruct (m !! s_id x) as [i|]; [|discriminate]. injection I as -> ->.
    destruct (ri_received i); [injection S as _ <-; reflexivity|].
    destruct (beqb chain c) eqn:Bc; [apply beqb_eq in Bc; destruct H; congruence|]. injection S as _ <-. reflexivity.
  Qed.

  (** the first introduction of a peer of this chain *)
  Theorem C74_accepted x d f h m' tr fs t ai :
    run (IReceived x d f :: h) = Ok (m', (IReceived x d f, fs) :: tr) ->
    i_view (s_id x) tr = Some (t, false) -> dec_identity d = Some (Identity chain (Some ai)) ->
    let l := omap parse (a_listen ai) in
    (forall s b, IOpen s b ∈ fs <-> s = s_id x /\ b = f /\ s_out x = true) /\
    ((10 < length l)%nat -> IClose (s_id x) ∈ fs /\ forall a, IStore a ∉ fs) /\
    ((length l <= 10)%nat ->
       (forall s, IClose s ∉ fs) /\
       (forall a, IStore a ∈ fs <-> a ∈ l /\ reach a) /\
       (forall p r, IListens p r ∈ fs -> ma_peer (s_addr x) = Some p /\ forall a, a ∈ r <-> a ∈ l /\ reach a)) /\
    (forall a, IDial a ∈ fs ->
       s_out x = true /\ ma_peer a <> None /\
       exists o i p q, parse (a_observed ai) = Some o /\ ma_sock o = Some (i, p) /\ reachable i = true /\ ma_sock a = Some (i, q)).
  Proof.
    intros R V D l. destruct (run_cons _ _ _ _ R) as (m & tr0 & fs0 & R0 & E & S). injection E as <- <-. cbn [istep] in S.
    pose proof (run_inv _ _ _ R0 (s_id x)) as I. rewrite V in I. unfold id_received in S. rewrite D in S. cbn [id_info id_chain] in S.
    destruct (m !! s_id x) as [i|] eqn:L; [|discriminate]. injection I as _ HB. rewrite <- HB in S.
    rewrite (proj2 (beqb_eq chain chain) eq_refl) in S. fold l in S. unfold process_listens, ID_MAX_ADDRS in S.
    destruct (N.ltb_spec 10 (N.of_nat (length l))) as [Big|Small].
    - injection S as _ <-.
      assert (IN_spec : forall g, g ∈ (if s_out x then [IOpen (s_id x) f] else []) ++ [IClose (s_id x)] <->
                (s_out x = true /\ g = IOpen (s_id x) f) \/ g = IClose (s_id x)).
      { intros g. rewrite elem_of_app, elem_of_list_singleton.
        assert (A : g ∈ (if s_out x then [IOpen (s_id x) f] else []) <-> s_out x = true /\ g = IOpen (s_id x) f).
        { destruct (s_out x); [rewrite elem_of_list_singleton; tauto|]. split; [intros H; inversion H|intros [H _]; discriminate]. }
        rewrite A. reflexivity. }
      split; [|split; [intros _; split|split; [lia|]]].
      + intros s b. rewrite IN_spec. split; [intros [[H1 H2]|H2]; [injection H2 as -> ->; auto|discriminate]|intros (-> & -> & H); auto].
      + apply IN_spec. auto.
      + intros a H. apply IN_spec in H as [[_ H]|H]; discriminate.
      + intros a H. apply IN_spec in H as [[_ H]|H]; discriminate.
    - destruct (ma_peer (s_addr x)) as [pid|] eqn:P; [|discriminate].
      destruct (process_observed _ _ _ _ _ _) as [fo| |] eqn:O; try discriminate. injection S as _ <-.
      (* what the observed address adds *)
      assert (OB : forall g, g ∈ fo -> exists a, g = IDial a /\ s_out x = true /\ ma_peer a <> None /\
                  exists o i p q, parse (a_observed ai) = Some o /\ ma_sock o = Some (i, p) /\ reachable i = true /\ ma_sock a = Some (i, q)).
      { unfold process_observed in O. destruct (parse (a_observed ai)) as [o|] eqn:PO; [|injection O as <-; intros g IN; inversion IN].
        rewrite lookup_insert in O. destruct (public reachable o) eqn:PB; [|injection O as <-; intros g IN; inversion IN].
        cbn [negb] in O. destruct (s_out x) eqn:SO; [|injection O as <-; intros g IN; inversion IN]. cbn [negb] in O.
        injection O as <-. intros g IN. apply elem_of_list_fmap in IN as (a & -> & IN).
        apply public_reach in PB as (i0 & p0 & So & Ri).
        set (o' := match ma_peer o with Some _ => o | None => MAddr (ma_sock o) (Some me) (ma_rest o) end) in *.
        assert (So' : ma_sock o' = Some (i0, p0) /\ ma_peer o' <> None).
        { unfold o'. destruct (ma_peer o) eqn:Q; cbn [ma_sock ma_peer]; split; congruence. }
        destruct So' as [So' Po']. exists a. split; [reflexivity|]. split; [reflexivity|].
        apply elem_of_app in IN as [IN|IN].
        - apply elem_of_list_omap in IN as (la & _ & IN). destruct (ma_sock la) as [[li lp]|]; [|discriminate].
          cbn [mbind option_bind] in IN. injection IN as <-. unfold with_port. rewrite So'. cbn [ma_peer ma_sock fst snd].
          split; [exact Po'|]. exists o, i0, p0, lp. auto.
        - apply elem_of_list_singleton in IN as ->. split; [exact Po'|]. exists o, i0, p0, p0. auto. }
      assert (IN_spec : forall g, g ∈ (if s_out x then [IOpen (s_id x) f] else []) ++ (map IStore (List.filter (public reachable) l) ++
                               [IListens pid (List.filter (public reachable) l)]) ++ fo <->
                (s_out x = true /\ g = IOpen (s_id x) f) \/ (exists a, g = IStore a /\ a ∈ l /\ reach a) \/
                g = IListens pid (List.filter (public reachable) l) \/ g ∈ fo).
      { intros g. rewrite !elem_of_app, elem_of_list_singleton. 
        assert (A : g ∈ (if s_out x then [IOpen (s_id x) f] else []) <-> s_out x = true /\ g = IOpen (s_id x) f).
        { destruct (s_out x); [rewrite elem_of_list_singleton; tauto|]. split; [intros H; inversion H|intros [H _]; discriminate]. }
        assert (B : g ∈ map IStore (List.filter (public reachable) l) <-> exists a, g = IStore a /\ a ∈ l /\ reach a).
        { split.
          - intros H. apply elem_of_list_fmap in H as (a & -> & H). exists a. split; [reflexivity|].
            apply elem_of_list_In, filter_In in H as [H1 H2]. split; [apply elem_of_list_In, H1|apply public_reach, H2].
          - intros (a & -> & H1 & H2). apply elem_of_list_fmap. exists a. split; [reflexivity|].
            apply elem_of_list_In, filter_In. split; [apply elem_of_list_In, H1|apply public_reach, H2]. }
        rewrite A, B. tauto. }
      split; [|split; [lia|split]].
      + intros s b. rewrite IN_spec. split.
        * intros [[H1 H2]|[(a & H & _)|[H|H]]]; [injection H2 as -> ->; auto|discriminate|discriminate|].
          apply OB in H as (a & H & _). discriminate.
        * intros (-> & -> & H). left. auto.
      + intros _. split; [|split].
        * intros s H. apply IN_spec in H as [[_ H]|[(a & H & _)|[H|H]]]; try discriminate. apply OB in H as (a & H & _). discriminate.
        * intros a. rewrite IN_spec. split.
          -- intros [[_ H]|[(a' & H & H')|[H|H]]]; try discriminate; [injection H as ->; exact H'|].
             apply OB in H as (a' & H & _). discriminate.
          -- intros H. right; left. eauto.
        * intros p r H. apply IN_spec in H as [[_ H]|[(a & H & _)|[H|H]]]; try discriminate.
          -- injection H as -> ->. split; [reflexivity|]. intros a. rewrite elem_of_list_In, filter_In, <- elem_of_list_In, public_reach.
             reflexivity.
          -- apply OB in H as (a & H & _). discriminate.
      + intros a H. apply IN_spec in H as [[_ H]|[(a' & H & _)|[H|H]]]; try discriminate.
        apply OB in H as (a' & H & H'). injection H as ->. exact H'.
  Qed.

  (** the timer closes exactly the open sessions whose peer has been silent for eight seconds *)
  Theorem C74_timeout now h m' tr fs :
    run (INotify now :: h) = Ok (m', (INotify now, fs) :: tr) ->
    forall f, f ∈ fs <-> exists s t, f = IClose s /\ i_view s tr = Some (t, false) /\ t + 8 * 10 ^ 9 <= now.
  Proof.
    intros R. destruct (run_cons _ _ _ _ R) as (m & tr0 & fs0 & R0 & E & S). injection E as <- <-.
    pose proof (run_inv _ _ _ R0) as I. cbn [istep] in S. injection S as _ <-. intros f. split.
    - intros IN. apply elem_of_list_fmap in IN as ([s i] & -> & IN). apply elem_of_list_filter in IN as [[B T] IN].
      apply elem_of_map_to_list in IN. exists s, (ri_at i). split; [reflexivity|]. split; [|exact T].
      rewrite (I s), IN. cbn [fmap option_fmap option_map]. rewrite B. reflexivity.
    - intros (s & t & -> & V & T). rewrite (I s) in V. destruct (m !! s) as [i|] eqn:L; [|discriminate]. injection V as <- B.
      apply elem_of_list_fmap. exists (s, i). split; [reflexivity|]. apply elem_of_list_filter.
      split; [split; [exact B|exact T]|apply elem_of_map_to_list, L].
  Qed.

  (** addresses are remembered as ones dialled successfully when a session to them opens, and when it closes unless they are banned *)
  Theorem C74_outbound e h m' tr fs a :
    run (e :: h) = Ok (m', (e, fs) :: tr) ->
    (IOutbound a ∈ fs <-> exists x, s_out x = true /\ a = s_addr x /\ ((exists now, e = IConnected now x) \/ e = IDisconnected x false)).
  Proof.
    intros R. destruct (run_cons _ _ _ _ R) as (m & tr0 & fs0 & R0 & E & S). injection E as <- <-. destruct e as [now x|x b|x d f|now]; cbn [istep] in S.
    - unfold id_connected, with_peer in S. destruct (ma_peer (s_addr x)); [|discriminate S]. injection S as _ <-. rewrite elem_of_app, elem_of_list_singleton. split.
      + intros [H|H]; [|discriminate H]. destruct (s_out x) eqn:O; [|apply elem_of_nil in H; destruct H]. apply elem_of_list_singleton in H. injection H as ->. exists x. eauto 6.
      + intros (y & O & -> & [[now' Q]|Q]); [|discriminate Q]. injection Q as _ <-. left. rewrite O. apply elem_of_list_singleton. reflexivity.
    - unfold id_disconnected, with_peer in S. destruct (m !! s_id x); [|discriminate S]. destruct (ma_peer (s_addr x)); [|discriminate S]. injection S as _ <-. split.
      + intros H. destruct (s_out x && negb b) eqn:O; [|apply elem_of_nil in H; destruct H]. apply andb_prop in O as [O B]. destruct b; [discriminate B|].
        apply elem_of_list_singleton in H. injection H as ->. exists x. eauto 6.
      + intros (y & O & -> & [[now' Q]|Q]); [discriminate Q|]. injection Q as <- ->. rewrite O. apply elem_of_list_singleton. reflexivity.
    - split; [|intros (y & _ & _ & [[now' Q]|Q]); discriminate Q]. intros H. exfalso.
      assert (NL : forall b fs1 l, process_listens reachable x l = Ok (b, fs1) -> IOutbound a ∉ fs1).
      { intros b fs1 l Q I. unfold process_listens in Q. destruct (ID_MAX_ADDRS <? _); [injection Q as _ <-; apply elem_of_nil in I; destruct I|].
        destruct (ma_peer (s_addr x)); [|discriminate Q]. injection Q as _ <-. apply elem_of_app in I as [I|I].
        - apply elem_of_list_fmap in I as (y & I & _). discriminate I.
        - apply elem_of_list_singleton in I. discriminate I. }
      assert (NO : forall m0 o fs1, process_observed reachable listening me m0 x o = Ok fs1 -> IOutbound a ∉ fs1).
      { intros m0 o fs1 Q I. unfold process_observed in Q. destruct o as [o|]; [|injection Q as <-; apply elem_of_nil in I; destruct I].
        destruct (m0 !! s_id x); [|discriminate Q]. destruct (negb (public reachable o)); [injection Q as <-; apply elem_of_nil in I; destruct I|].
        destruct (negb (s_out x)); [injection Q as <-; apply elem_of_nil in I; destruct I|]. injection Q as <-. apply elem_of_list_fmap in I as (y & I & _). discriminate I. }
      assert (C1 : forall s0, IOutbound a ∉ [IClose s0]) by (intros s0 I; apply elem_of_list_singleton in I; discriminate I).
      unfold id_received in S. destruct (dec_identity d) as [[c [ai|]]|]; cbn [id_info id_chain] in S.
      + destruct (m !! s_id x) as [i|]; [|discriminate S]. destruct (ri_received i); [injection S as _ <-; exact (C1 _ H)|].
        destruct (beqb chain c); [|injection S as _ <-; exact (C1 _ H)].
        assert (OP : IOutbound a ∉ (if s_out x then [IOpen (s_id x) f] else [])).
        { intros I. destruct (s_out x); [apply elem_of_list_singleton in I; discriminate I|apply elem_of_nil in I; destruct I]. }
        destruct (process_listens _ _ _) as [[[] fs1]| |] eqn:Q; try discriminate S.
        * injection S as _ <-. rewrite !elem_of_app in H. destruct H as [H|[H|H]]; [exact (OP H)|exact (NL _ _ _ Q H)|exact (C1 _ H)].
        * destruct (process_observed _ _ _ _ _ _) as [fs2| |] eqn:Q2; try discriminate S. injection S as _ <-. rewrite !elem_of_app in H.
          destruct H as [H|[H|H]]; [exact (OP H)|exact (NL _ _ _ Q H)|exact (NO _ _ _ Q2 H)].
      + injection S as _ <-. exact (C1 _ H).
      + destruct (m !! s_id x); [|discriminate S]. injection S as _ <-. exact (C1 _ H).
    - split; [|intros (y & _ & _ & [[now' Q]|Q]); discriminate Q]. intros H. injection S as _ <-. apply elem_of_list_fmap in H as ([y i] & H & _). discriminate H.
  Qed.

  (** the introduction sent on a new session: own chain id, at most ten own reachable addresses, the address the peer has *)
  Theorem C74_introduction now x h m' tr fs s i :
    run (IConnected now x :: h) = Ok (m', (IConnected now x, fs) :: tr) -> ISend s i ∈ fs ->
    s = s_id x /\ id_chain i = chain /\
    exists l, id_info i = Some (AddrInfo (map to_vec l) (to_vec (s_addr x))) /\ (length l <= 10)%nat /\
              forall a, a ∈ l -> a ∈ listening /\ reach a.
  Proof.
    intros R IN. destruct (run_cons _ _ _ _ R) as (m & tr0 & fs0 & R0 & E & S). injection E as <- <-. cbn [istep] in S.
    unfold id_connected, with_peer in S. destruct (ma_peer (s_addr x)); [|discriminate]. injection S as _ <-.
    apply elem_of_app in IN as [IN|IN].
    { destruct (s_out x); [apply elem_of_list_singleton in IN; discriminate|inversion IN]. }
    apply elem_of_list_singleton in IN. injection IN as -> ->. split; [reflexivity|]. split; [reflexivity|].
    exists (take 10 (List.filter (public reachable) listening)). split; [reflexivity|]. split; [rewrite take_length; lia|].
    intros a H. apply elem_of_take in H as (k & H & _). apply elem_of_list_lookup_2, elem_of_list_In, filter_In in H as [H1 H2].
    split; [apply elem_of_list_In, H1|apply public_reach, H2].
  Qed.

  (** over one connection a peer adds at most ten addresses, all of them reachable *)
  Lemma learnt_bound h m tr s :
    run h = Ok (m, tr) ->
    (length (i_learnt s tr) <= 10)%nat /\ Forall reach (i_learnt s tr) /\ (forall t, i_view s tr = Some (t, false) -> i_learnt s tr = []).
  Proof.
    revert m tr. induction h as [|e h IH]; intros m tr R.
    - injection R as <- <-. cbn. split; [lia|]. split; [constructor|reflexivity].
    - destruct (run_cons _ _ _ _ R) as (m0 & tr0 & fs & R0 & -> & E). destruct (IH _ _ R0) as (B & F & V).
      pose proof (run_inv _ _ _ R0) as I. destruct e as [now x|x bn|x d f|now]; cbn [i_learnt i_view].
      + destruct (s_id x =? s); [cbn; split; [lia|split; [constructor|reflexivity]]|auto].
      + split; [exact B|]. split; [exact F|]. destruct (s_id x =? s); [discriminate|exact V].
      + destruct (N.eqb_spec (s_id x) s) as [<-|Ne].
        2: { split; [exact B|]. split; [exact F|]. intros t. destruct (i_view s tr0) as [[t0 b0]|]; [|discriminate].
             cbn [andb]. rewrite orb_false_r. exact (V t). }
        cbn [istep] in E. unfold id_received in E. unfold introduces.
        destruct (dec_identity d) as [[c [ai|]]|]; cbn [id_info id_chain] in E.
        * destruct (m0 !! s_id x) as [i|] eqn:L; [|discriminate]. specialize (I (s_id x)). rewrite L in I. cbn in I.
          destruct (ri_received i) eqn:RB.
          { injection E as <- <-. cbn [stored omap list_omap app]. split; [exact B|]. split; [exact F|].
            rewrite I. intros t H. cbn in H. congruence. }
          rewrite (V _ I), app_nil_r.
          assert (T : forall t, (match i_view (s_id x) tr0 with Some (t0, b) => Some (t0, b || true && true) | None => None end) <> Some (t, false)).
          { intros t. rewrite I. cbn. congruence. }
          assert (ST : (length (stored fs) <= 10)%nat /\ Forall reach (stored fs)).
          { destruct (beqb chain c); [|injection E as <- <-; cbn; split; [lia|constructor]].
            assert (SO : stored (if s_out x then [IOpen (s_id x) f] else []) = []) by (destruct (s_out x); reflexivity).
            unfold process_listens, ID_MAX_ADDRS in E.
            destruct (N.ltb_spec 10 (N.of_nat (length (omap parse (a_listen ai))))) as [Big|Small].
            - injection E as <- <-. unfold stored in *. rewrite omap_app, SO. cbn. split; [lia|constructor].
            - destruct (ma_peer (s_addr x)); [|discriminate]. destruct (process_observed _ _ _ _ _ _) as [fo| |] eqn:O; try discriminate.
              injection E as <- <-. unfold stored in *. rewrite !omap_app, SO. cbn [app].
              assert (FO : omap (fun f => match f with IStore a => Some a | _ => None end) fo = []).
              { unfold process_observed in O. destruct (parse _) as [o|]; [|injection O as <-; reflexivity].
                rewrite lookup_insert in O. destruct (public reachable o); cbn [negb] in O; [|injection O as <-; reflexivity].
                destruct (s_out x); cbn [negb] in O; [|injection O as <-; reflexivity]. injection O as <-.
                match goal with |- omap _ (map IDial ?l) = [] => clear; induction l as [|y ys IHy]; [reflexivity|exact IHy] end. }
              rewrite FO, app_nil_r. cbn [omap list_omap]. rewrite app_nil_r.
              set (l := omap parse (a_listen ai)) in *.
              assert (ID : omap (fun f => match f with IStore a => Some a | _ => None end) (map IStore (List.filter (public reachable) l)) =
                           List.filter (public reachable) l).
              { clear. induction (List.filter (public reachable) l) as [|y ys IHy]; [reflexivity|]. cbn. f_equal. exact IHy. }
              rewrite ID. split.
              + pose proof (List_filter_le (public reachable) l). lia.
              + apply Forall_forall. intros a H. apply elem_of_list_In, filter_In in H as [_ H]. apply public_reach, H. }
          split; [apply ST|]. split; [apply ST|]. intros t H. exfalso. exact (T t H).
        * injection E as <- <-. cbn [stored omap list_omap app]. split; [exact B|]. split; [exact F|]. intros t.
          destruct (i_view (s_id x) tr0) as [[t0 b0]|]; [|discriminate]. rewrite andb_false_r, orb_false_r. exact (V t).
        * destruct (m0 !! s_id x); [|discriminate]. injection E as <- <-. cbn [stored omap list_omap app]. split; [exact B|].
          split; [exact F|]. intros t.
          destruct (i_view (s_id x) tr0) as [[t0 b0]|]; [|discriminate]. rewrite andb_false_r, orb_false_r. exact (V t).
      + auto.
  Qed.

  Theorem C74_learns_little h m tr s :
    run h = Ok (m, tr) -> (length (i_learnt s tr) <= 10)%nat /\ Forall reach (i_learnt s tr).
  Proof. intros R. destruct (learnt_bound _ _ _ s R) as (A & B & _). auto. Qed.

  (** an honest peer of the chain is let in: what it sends on connecting is accepted as the first message *)
  Theorem C74_honest x d f h m' tr fs t l a0 :
    (forall a, parse (to_vec a) = Some a) -> utf8 chain = true ->
    run (IReceived x d f :: h) = Ok (m', (IReceived x d f, fs) :: tr) ->
    i_view (s_id x) tr = Some (t, false) -> (length l <= 10)%nat ->
    d = enc_identity (Identity chain (Some (AddrInfo (map to_vec l) (to_vec a0)))) -> fits d ->
    (forall s, IClose s ∉ fs) /\ (forall a, IStore a ∈ fs <-> a ∈ l /\ reach a) /\ (s_out x = true -> IOpen (s_id x) f ∈ fs).
  Proof.
    intros PV U R V Hl D F.
    assert (DD : dec_identity d = Some (Identity chain (Some (AddrInfo (map to_vec l) (to_vec a0))))).
    { rewrite D, <- (app_nil_r (enc_identity _)). apply (C72_identify _ [] []); [exact U|rewrite D in F; exact F|constructor|intros ? ? []]. }
    destruct (C74_accepted _ _ _ _ _ _ _ _ _ R V DD) as (O & _ & S & _). cbn [a_listen] in *.
    assert (L : omap parse (map to_vec l) = l).
    { clear - PV. induction l as [|a l IH]; [reflexivity|]. cbn. rewrite PV. f_equal. exact IH. }
    rewrite L in S. destruct (S Hl) as (S1 & S2 & _). split; [exact S1|]. split; [exact S2|].
    intros H. apply O. auto.
  Qed.

  (** the handler does not panic when tentacle keeps its promises *)
  Lemma open_view h m tr : run h = Ok (m, tr) -> forall s, i_isopen s h -> exists i, m !! s = Some i.
  Proof.
    revert m tr. induction h as [|e h IH]; intros m tr R s O; [destruct O|].
    destruct (run_cons _ _ _ _ R) as (m0 & tr0 & fs & R0 & -> & E). specialize (IH _ _ R0 s).
    destruct e as [now x|x bn|x d f|now]; cbn [i_isopen istep] in *.
    - unfold id_connected, with_peer in E. destruct (ma_peer (s_addr x)); [|discriminate]. injection E as <- _.
      destruct (N.eq_dec (s_id x) s) as [<-|Ne]; [rewrite lookup_insert; eauto|]. rewrite lookup_insert_ne by exact Ne.
      destruct O as [O|O]; [contradiction|auto].
    - unfold id_disconnected, with_peer in E. destruct (m0 !! s_id x); [|discriminate].
      destruct (ma_peer (s_addr x)); [|discriminate]. injection E as <- _. destruct O as [Ne O].
      rewrite lookup_delete_ne by exact Ne. auto.
    - rewrite (received_map _ _ _ _ _ _ E s). destruct (IH O) as [i ->]. eauto.
    - injection E as <- _. auto.
  Qed.

  Theorem C74_no_panic h : i_orderly h i_isopen -> exists m tr, run h = Ok (m, tr).
  Proof.
    induction h as [|e h IH]; intros Q; [unfold id_run; cbn; eauto|]. destruct Q as [Q Qe].
    destruct (IH Q) as (m & tr & R). pose proof (open_view _ _ _ R) as OV. unfold id_run in *. cbn [p2p_run]. rewrite R.
    assert (X : exists m' fs, step m e = Ok (m', fs)); [|destruct X as (m' & fs & ->); eauto].
    destruct e as [now x|x bn|x d f|now]; cbn [istep].
    - unfold id_connected, with_peer. destruct (ma_peer (s_addr x)); [eauto|congruence].
    - destruct Qe as [P O]. destruct (OV _ O) as [i L]. unfold id_disconnected, with_peer. rewrite L.
      destruct (ma_peer (s_addr x)); [eauto|congruence].
    - destruct Qe as [P O]. destruct (OV _ O) as [i L]. unfold id_received. rewrite L.
      destruct (dec_identity d) as [[c [ai|]]|]; cbn [id_info id_chain]; [|eauto|eauto].
      destruct (ri_received i); [eauto|]. destruct (beqb chain c); [|eauto].
      unfold process_listens. destruct (_ <? _); [eauto|]. destruct (ma_peer (s_addr x)); [|congruence].
      unfold process_observed. destruct (parse (a_observed ai)) as [o|]; [|eauto]. rewrite lookup_insert.
      destruct (negb _); [eauto|]. destruct (negb _); eauto.
    - eauto.
  Qed.
End Identify.

(** session 1 introduces itself on the right chain with one reachable and one private address and is later refused for repeating it;
    session 2 is on another chain; session 3 stays silent *)
Example C74_example :
  let a i := MAddr (Some ((false, i), 8000)) (Some i) 0 in
  let parse b := match b with [i] => Some (a i) | _ => None end in
  let to_vec m := match ma_sock m with Some ((_, i), _) => [i] | None => [] end in
  let reachable (i : ip) := 100 <=? i.2 in
  let s1 := Sess 1 (a 101) true in
  let s2 := Sess 2 (a 102) false in
  let s3 := Sess 3 (a 103) false in
  let msg c := enc_identity (Identity [c] (Some (AddrInfo [[7]; [111]] [200]))) in
  let sec := 1000000000 in
  let h := [INotify (8 * sec); IReceived s1 (msg 65) false; IReceived s2 (msg 66) false; IReceived s1 (msg 65) false;
            IConnected 0 s3; IConnected 0 s2; IConnected 0 s1] in
  i_orderly h i_isopen /\
  exists m tr, id_run parse to_vec reachable [65] [a 104; a 9] 104 h = Ok (m, tr) /\
    map snd tr = [[IClose 3]; [IClose 1]; [IClose 2];
                  [IOpen 1 false; IStore (a 111); IListens 101 [a 111]; IDial (a 200); IDial (a 200); IDial (a 200)];
                  [ISend 3 (Identity [65] (Some (AddrInfo [[104]] [103])))]; [ISend 2 (Identity [65] (Some (AddrInfo [[104]] [102])))];
                  [IOutbound (a 101); ISend 1 (Identity [65] (Some (AddrInfo [[104]] [101])))]] /\
    i_view 1 tr = Some (0, true) /\ i_view 3 tr = Some (0, false) /\ i_learnt 1 tr = [a 111].
Proof.
  cbv zeta. split.
  - cbn. repeat split; try discriminate; auto.
  - eexists _, _. split; [vm_compute; reflexivity|]. split; [vm_compute; reflexivity|]. split; [vm_compute; reflexivity|].
    split; vm_compute; reflexivity.
Qed.

Print Assumptions C74_bad_data.
Print Assumptions C74_refused.
Print Assumptions C74_accepted.
Print Assumptions C74_timeout.
Print Assumptions C74_outbound.
Print Assumptions C74_introduction.
Print Assumptions C74_learns_little.
Print Assumptions C74_honest.
Print Assumptions C74_no_panic.
Print Assumptions C74_example.
