(** C75: the discovery protocol. Misbehaving peers are closed and honest ones are not, and only reachable addresses are learnt and spread. *)
From Verif Require Import Bytes BytesProofs TxModel PeerModel ProtoModel ProtoProps P2pModel.
From stdpp Require Import base gmap list.
From Coq Require Import Lia.
#[local] Open Scope N_scope.

(* ---------------------------------------------------------------------- *)
(** * Specification: what an observer sees of a session *)

Notation dtrace := (list (devent * list deffect)).

(** the open session [s] *)
Fixpoint d_opened (s : N) (tr : dtrace) : option sess :=
  match tr with
  | [] => None
  | (DConnected x _, _) :: r => if s_id x =? s then Some x else d_opened s r
  | (DDisconnected x, _) :: r => if s_id x =? s then None else d_opened s r
  | _ :: r => d_opened s r
  end.

(** the data received on [s] since it was opened, newest first; the messages among it *)
Fixpoint d_raw (s : N) (tr : dtrace) : list bytes :=
  match tr with
  | [] => []
  | (DConnected x _, _) :: r => if s_id x =? s then [] else d_raw s r
  | (DReceived x d _ _, _) :: r => if s_id x =? s then d :: d_raw s r else d_raw s r
  | _ :: r => d_raw s r
  end.
Definition d_got (s : N) (tr : dtrace) : list disc_msg := omap dec_disc (d_raw s tr).

(** the messages sent on [s] since it was opened, newest first *)
Definition d_sends (s : N) (fs : list deffect) : list disc_msg :=
  omap (fun f => match f with DSend s' m => if s' =? s then Some m else None | _ => None end) fs.
Fixpoint d_sent (s : N) (tr : dtrace) : list disc_msg :=
  match tr with
  | [] => []
  | (DConnected x _, fs) :: r => if s_id x =? s then d_sends s fs else d_sent s r
  | (_, fs) :: r => d_sends s fs ++ d_sent s r
  end.

(** the limits of a list of nodes *)
Definition within (n : nodes) : Prop :=
  (length (ns_items n) <= if ns_announce n then 10 else 1000)%nat /\ Forall (fun i => (length i <= 3)%nat) (ns_items n).

(** a question; an answer *)
Definition asks (m : disc_msg) : bool := match m with Some (PGetNodes _) => true | _ => false end.
Definition answers (m : disc_msg) : bool := match m with Some (PNodes n) => negb (ns_announce n) | _ => false end.
Definition polite (m : disc_msg) : Prop := match m with Some (PNodes n) => within n | _ => True end.
Definition count {A} (p : A -> bool) (l : list A) : nat := length (List.filter p l).

(** the same host and peer, possibly on another port *)
Definition same_host (a b : maddr) : Prop := fst <$> ma_sock a = fst <$> ma_sock b /\ ma_peer a = ma_peer b /\ ma_rest a = ma_rest b.

(** the random choice takes at most as many as asked, from the list *)
Definition fair_choice (c : N -> list maddr -> list maddr) : Prop :=
  forall n l, N.of_nat (length (c n l)) <= n /\ c n l ⊆ l.
Definition d_fair (e : devent) : Prop := match e with DReceived _ _ _ c => fair_choice c | _ => True end.
(** tentacle's promise: session addresses carry a peer id; ports are u16 *)
Definition d_named (e : devent) : Prop :=
  match e with DConnected x _ | DDisconnected x => ma_peer (s_addr x) <> None | _ => True end.
Definition d_ports (e : devent) : Prop :=
  match e with DConnected _ l => forall a i p, a ∈ l -> ma_sock a = Some (i, p) -> p < 2 ^ 16 | _ => True end.

Section Discovery.
  Context (parse : bytes -> option maddr) (to_vec : maddr -> bytes) (reachable : ip -> bool).
  Notation run := (disc_run parse to_vec reachable).
  Notation step := (dstep parse to_vec reachable).

  (** an address with an ip that can be reached from anywhere *)
  Definition dreach (a : maddr) : Prop := exists i p, ma_sock a = Some (i, p) /\ reachable i = true.

  (** an address this node may spread: a consensus peer's, or the reachable one of a session open at some timer event *)
  Definition announceable (a : maddr) (tr : dtrace) : Prop :=
    exists tr1 now cs o sh kn fs tr2, tr = tr1 ++ (DNotify now cs o sh kn, fs) :: tr2 /\
      (a ∈ cs \/ exists s x, d_opened s tr2 = Some x /\ same_host a (s_addr x) /\ dreach a).

  Lemma valid_reach a : valid_addr reachable a = true <-> dreach a.
  Proof.
    unfold valid_addr, dreach. destruct (ma_sock a) as [[i p]|]; cbn [fst].
    - split; [eauto|]. intros (i' & p' & H & R). injection H as <- _. exact R.
    - split; [discriminate|]. intros (i & p & H & _). discriminate.
  Qed.

  Lemma misbehaves_within n : misbehaves n = false <-> within n.
  Proof.
    unfold misbehaves, within, ANNOUNCE_THRESHOLD, MAX_ADDR_TO_SEND, MAX_ADDRS. rewrite orb_false_iff.
    assert (A : existsb (fun i : node => 3 <? N.of_nat (length i)) (ns_items n) = false <-> Forall (fun i : node => (length i <= 3)%nat) (ns_items n)).
    { induction (ns_items n) as [|i l IH]; cbn [existsb]; [split; constructor|].
      rewrite orb_false_iff, Forall_cons, IH, N.ltb_ge. split; intros [H1 H2]; (split; [lia|exact H2]). }
    rewrite A. destruct (ns_announce n); rewrite N.ltb_ge; split; intros [H1 H2]; (split; [lia|exact H2]).
  Qed.

  Lemma same_host_refl a : same_host a a.
  Proof. repeat split. Qed.
  Lemma same_host_port a p : same_host (with_port a p) a.
  Proof. unfold with_port. destruct (ma_sock a) as [[i q]|] eqn:E; [|apply same_host_refl]. unfold same_host. rewrite E. repeat split. Qed.
  Lemma same_host_trans a b c : same_host a b -> same_host b c -> same_host a c.
  Proof. intros (A & B & C) (D & E & F). split; [|split]; congruence. Qed.

  Lemma run_cons e h m' tr' :
    run (e :: h) = Ok (m', tr') ->
    exists m tr fs, run h = Ok (m, tr) /\ tr' = (e, fs) :: tr /\ step m e = Ok (m', fs).
  Proof.
    unfold disc_run. cbn [p2p_run]. destruct (p2p_run _ _ h) as [[m0 tr0]| |] eqn:R; try discriminate.
    destruct (step m0 e) as [[m1 fs]| |] eqn:S; try discriminate. intros H. injection H as <- <-. eauto 10.
  Qed.

  Lemma announceable_more a e tr : announceable a tr -> announceable a (e :: tr).
  Proof. intros (tr1 & now & cs & o & sh & kn & fs & tr2 & -> & H). exists (e :: tr1). eauto 10. Qed.

  (* -------------------------------------------------------------------- *)
  (** * What the timer does *)

  Definition kept (st st' : dstate) : Prop :=
    d_remote st' = d_remote st /\ d_got_get st' = d_got_get st /\ d_got_nodes st' = d_got_nodes st.

  Lemma visit_spec now order m l fs m' l' fs' :
    fold_left (d_visit to_vec reachable now) order (m, l, fs) = (m', l', fs') ->
    (forall s, match m !! s, m' !! s with
               | Some st, Some st' => kept st st' /\ (d_announce st' = d_announce st \/ d_announce st' = [])
               | None, None => True
               | _, _ => False
               end) /\
    (forall a, a ∈ l' -> a ∈ l \/ exists s st, m !! s = Some st /\ d_remote st = RListen a /\ dreach a) /\
    (forall f, f ∈ fs' -> f ∈ fs \/ exists s st, m !! s = Some st /\ d_announce st <> [] /\
        f = DSend s (Some (PNodes (Nodes true (map (one_node to_vec) (d_announce st)))))).
  Proof.
    revert m l fs. induction order as [|s0 order IH]; intros m l fs E.
    - injection E as <- <- <-. split; [intros s; destruct (m !! s); unfold kept; auto|]. auto.
    - cbn [fold_left] in E. unfold d_visit at 2 in E. destruct (m !! s0) as [st0|] eqn:L0; [|exact (IH _ _ _ E)].
      set (due := match d_last st0 with Some t => ANNOUNCE_INTERVAL <? now - t | None => true end) in E.
      destruct (IH _ _ _ E) as (A & B & C). clear IH E.
      set (m0 := <[s0 := _]> m) in *.
      assert (BK : forall s st, m0 !! s = Some st -> exists st1, m !! s = Some st1 /\ kept st1 st /\ (d_announce st = d_announce st1 \/ d_announce st = [])).
      { intros s st H. unfold m0 in H. destruct (N.eq_dec s0 s) as [<-|Ne].
        - rewrite lookup_insert in H. injection H as <-. exists st0. cbn. unfold kept. auto.
        - rewrite lookup_insert_ne in H by exact Ne. exists st. unfold kept. auto. }
      split; [|split].
      + intros s. specialize (A s). unfold m0 in A. destruct (N.eq_dec s0 s) as [<-|Ne].
        * rewrite lookup_insert in A. rewrite L0. destruct (m' !! s0) as [st'|]; [|exact A].
          destruct A as [(A1 & A2 & A3) A4]. cbn in A1, A2, A3, A4. split; [split; [|split]; assumption|]. right. destruct A4; assumption.
        * rewrite lookup_insert_ne in A by exact Ne. exact A.
      + intros a H. destruct (B a H) as [H1|(s & st & H1 & H2 & H3)].
        * apply elem_of_app in H1 as [H1|H1]; [auto|]. destruct due; [|inversion H1]. destruct (d_remote st0) as [b|b] eqn:RM; [inversion H1|].
          destruct (valid_addr reachable b) eqn:VA; [|inversion H1]. apply elem_of_list_singleton in H1 as ->.
          right. exists s0, st0. apply valid_reach in VA. auto.
        * destruct (BK _ _ H1) as (st1 & H4 & (H5 & _) & _). right. exists s, st1. split; [exact H4|]. split; [congruence|exact H3].
      + intros f H. destruct (C f H) as [H1|(s & st & H1 & H2 & H3)].
        * apply elem_of_app in H1 as [H1|H1]; [auto|]. destruct (d_announce st0) as [|b bs] eqn:AN; [inversion H1|].
          apply elem_of_list_singleton in H1 as ->. right. exists s0, st0. rewrite AN. split; [exact L0|]. split; [discriminate|reflexivity].
        * destruct (BK _ _ H1) as (st1 & H4 & _ & H5). right. exists s, st1. split; [exact H4|]. destruct H5 as [H5|H5]; [|contradiction].
          rewrite <- H5. auto.
  Qed.

  Definition grown (l : list maddr) (m m' : gmap N dstate) : Prop :=
    forall s, match m !! s, m' !! s with
              | Some st, Some st' => kept st st' /\ ((length (d_announce st) <= 10)%nat -> (length (d_announce st') <= 10)%nat) /\
                                     (forall a, a ∈ d_announce st' -> a ∈ d_announce st \/ a ∈ l)
              | None, None => True
              | _, _ => False
              end.
  Lemma grown_refl l m : grown l m m.
  Proof. intros s. destruct (m !! s); unfold kept; auto 10. Qed.
  Lemma grown_trans l m1 m2 m3 : grown l m1 m2 -> grown l m2 m3 -> grown l m1 m3.
  Proof.
    intros A B s. specialize (A s). specialize (B s). destruct (m1 !! s), (m2 !! s), (m3 !! s); try contradiction; [|auto].
    destruct A as ((A1 & A2 & A3) & A4 & A5), B as ((B1 & B2 & B3) & B4 & B5).
    split; [split; [|split]; congruence|]. split; [auto|]. intros a H. destruct (B5 a H); auto.
  Qed.
  Lemma grown_weaken l l' m m' : l ⊆ l' -> grown l m m' -> grown l' m m'.
  Proof.
    intros S A s. specialize (A s). destruct (m !! s), (m' !! s); try contradiction; [|auto].
    destruct A as (A1 & A2 & A3). split; [exact A1|]. split; [exact A2|]. intros a H. destruct (A3 a H); auto.
  Qed.

  Lemma offer_grown kn a m s0 : grown [a] m (d_offer kn a m s0).
  Proof.
    unfold d_offer. destruct (m !! s0) as [st|] eqn:L; [|apply grown_refl].
    destruct (N.ltb_spec (N.of_nat (length (d_announce st))) ANNOUNCE_THRESHOLD) as [Hl|]; cbn [andb]; [|apply grown_refl].
    destruct (kn s0 a); cbn [negb]; [apply grown_refl|]. intros s. destruct (N.eq_dec s0 s) as [<-|Ne].
    - rewrite lookup_insert, L. cbn [d_announce]. split; [unfold kept; auto|]. split.
      + intros _. rewrite app_length. cbn. unfold ANNOUNCE_THRESHOLD in Hl. lia.
      + intros b H. apply elem_of_app in H. exact H.
    - rewrite lookup_insert_ne by exact Ne. apply (grown_refl [a]).
  Qed.
  Lemma spread_grown kn sh i l m : grown l m (d_spread kn sh i l m).
  Proof.
    revert i m. induction l as [|a l IH]; intros i m; [apply grown_refl|]. cbn [d_spread].
    apply (grown_trans _ _ (fold_left (d_offer kn a) (take 3 (sh i)) m)).
    - apply (grown_weaken [a]); [intros b H; apply elem_of_list_singleton in H as ->; left|].
      clear IH. revert m. induction (take 3 (sh i)) as [|k ks IHk]; intros m; [apply grown_refl|]. cbn [fold_left].
      eapply grown_trans; [apply offer_grown|apply IHk].
    - apply (grown_weaken l); [intros b H; right; exact H|apply IH].
  Qed.

  (* -------------------------------------------------------------------- *)
  (** * The invariant *)

  Definition s_inv (s : N) (st : dstate) (x : sess) (tr : dtrace) : Prop :=
    (d_got_get st = true <-> exists g, Some (PGetNodes g) ∈ d_got s tr) /\
    (d_got_nodes st = true <-> exists n, Some (PNodes n) ∈ d_got s tr /\ ns_announce n = false /\ within n) /\
    same_host (ra_inner (d_remote st)) (s_addr x) /\ ma_peer (s_addr x) <> None /\
    (length (d_announce st) <= 10)%nat /\ (forall a, a ∈ d_announce st -> announceable a tr) /\
    count asks (d_sent s tr) = (if s_out x then 1 else 0)%nat /\
    count answers (d_sent s tr) = (if d_got_get st then 1 else 0)%nat /\
    Forall polite (d_sent s tr).

  Definition d_inv (m : gmap N dstate) (tr : dtrace) : Prop :=
    forall s, match m !! s, d_opened s tr with
              | Some st, Some x => s_inv s st x tr
              | None, None => True
              | _, _ => False
              end.

  Lemma count_app {A} (p : A -> bool) l l' : count p (l ++ l') = (count p l + count p l')%nat.
  Proof. unfold count. rewrite List.filter_app, app_length. reflexivity. Qed.
  Lemma count_none {A} (p : A -> bool) l : (forall a, a ∈ l -> p a = false) -> count p l = O.
  Proof.
    unfold count. induction l as [|a l IH]; intros H; [reflexivity|]. cbn [List.filter]. rewrite (H a) by left.
    apply IH. intros b Hb. apply H. right. exact Hb.
  Qed.

  Lemma sends_in s fs m : m ∈ d_sends s fs -> DSend s m ∈ fs.
  Proof.
    unfold d_sends. intros H. apply elem_of_list_omap in H as (f & H & E). destruct f as [s' m'| | |]; try discriminate.
    destruct (N.eqb_spec s' s) as [->|]; [|discriminate]. injection E as ->. exact H.
  Qed.
  Lemma sends_app s fs fs' : d_sends s (fs ++ fs') = d_sends s fs ++ d_sends s fs'.
  Proof. apply omap_app. Qed.
  Lemma sends_none s fs : (forall s' m, DSend s' m ∉ fs) -> d_sends s fs = [].
  Proof.
    intros H. destruct (d_sends s fs) as [|m l] eqn:E; [reflexivity|]. exfalso. apply (H s m), sends_in. rewrite E. left.
  Qed.

  (** a step which sends nothing on [s] and leaves its state alone keeps the invariant of [s] *)
  Lemma s_inv_quiet s st x tr e fs :
    s_inv s st x tr -> d_sends s fs = [] ->
    match e with DReceived y d _ _ => s_id y <> s \/ dec_disc d = None \/ dec_disc d = Some None \/ 
                                      (exists g, dec_disc d = Some (Some (PGetNodes g)) /\ d_got_get st = true) \/
                                      (exists n, dec_disc d = Some (Some (PNodes n)) /\ (within n -> ns_announce n = true \/ d_got_nodes st = true))
    | DConnected y _ | DDisconnected y => s_id y <> s | DNotify _ _ _ _ _ => True end ->
    s_inv s st x ((e, fs) :: tr).
  Proof.
    intros (A & B & C & D & F & G & H & I & J) S Q.
    assert (SE : d_sent s ((e, fs) :: tr) = d_sent s tr).
    { cbn [d_sent]. destruct e; rewrite ?S; try reflexivity. destruct (N.eqb_spec (s_id s0) s); [contradiction|reflexivity]. }
    assert (GG : (forall g, Some (PGetNodes g) ∈ d_got s ((e, fs) :: tr) -> d_got_get st = true) /\
                 (forall n, Some (PNodes n) ∈ d_got s ((e, fs) :: tr) -> ns_announce n = false -> within n -> d_got_nodes st = true) /\
                 (forall m, m ∈ d_got s tr -> m ∈ d_got s ((e, fs) :: tr))).
    { assert (OLD : d_got s ((e, fs) :: tr) = d_got s tr -> 
                    (forall g, Some (PGetNodes g) ∈ d_got s ((e, fs) :: tr) -> d_got_get st = true) /\
                    (forall n, Some (PNodes n) ∈ d_got s ((e, fs) :: tr) -> ns_announce n = false -> within n -> d_got_nodes st = true) /\
                    (forall m, m ∈ d_got s tr -> m ∈ d_got s ((e, fs) :: tr))).
      { intros ->. split; [intros g Hg; apply A; eauto|]. split; [intros n Hn N1 N2; apply B; eauto|]. auto. }
      unfold d_got in *. cbn [d_raw] in *. destruct e as [y l|y|y d rn ch|]; auto.
      { destruct (N.eqb_spec (s_id y) s); [contradiction|auto]. }
      destruct (N.eqb_spec (s_id y) s) as [Es|]; [|auto]. cbn [omap list_omap] in *.
      destruct (dec_disc d) as [m0|]; [|auto]. 
      split; [|split].
      - intros g Hg. apply elem_of_cons in Hg as [Hg|Hg]; [|apply A; eauto]. subst m0.
        destruct Q as [Q|[Q|[Q|[(g' & Q & Q')|(n' & Q & Q')]]]]; try contradiction; try discriminate. exact Q'.
      - intros n Hn N1 N2. apply elem_of_cons in Hn as [Hn|Hn]; [|apply B; eauto]. subst m0.
        destruct Q as [Q|[Q|[Q|[(g' & Q & Q')|(n' & Q & Q')]]]]; try contradiction; try discriminate. injection Q as <-.
        destruct (Q' N2); congruence.
      - intros m Hm. right. exact Hm. }
    destruct GG as (G1 & G2 & G3). unfold s_inv. rewrite SE.
    split. { split; [intros Hg; destruct (proj1 A Hg) as [g Hg']; eauto|intros [g Hg]; eauto]. }
    split. { split; [intros Hg; destruct (proj1 B Hg) as (n & N1 & N2 & N3); eauto|intros (n & N1 & N2 & N3); eauto]. }
    split; [exact C|]. split; [exact D|]. split; [exact F|]. split; [intros a Ha; apply announceable_more, G, Ha|]. auto.
  Qed.

  Lemma one_node_short (l : list maddr) : Forall (fun i : node => (length i <= 3)%nat) (map (one_node to_vec) l).
  Proof. induction l; cbn; constructor; [cbn; lia|assumption]. Qed.

  Lemma run_inv h m tr : run h = Ok (m, tr) -> Forall d_fair h -> d_inv m tr.
  Proof.
    revert m tr. induction h as [|e h IH]; intros m tr R FR.
    - injection R as <- <-. intros s. rewrite lookup_empty. exact I.
    - destruct (run_cons _ _ _ _ R) as (m0 & tr0 & fs & R0 & -> & E). inversion FR as [|? ? FE FH]; subst.
      specialize (IH _ _ R0 FH). clear R R0 FR FH. intros s. pose proof (IH s) as IHs.
      destruct e as [x listens|x|x d rn ch|now cs o sh kn]; cbn [dstep] in E.
      + (* connected *)
        unfold d_connected, with_peer in E. destruct (ma_peer (s_addr x)) as [p|] eqn:P; [|discriminate].
        cbn [d_opened]. destruct (N.eqb_spec (s_id x) s) as [<-|Ne].
        * destruct (s_out x) eqn:SO; injection E as <- <-; rewrite lookup_insert; unfold s_inv, d_got; cbn [d_sent d_raw].
          all: rewrite N.eqb_refl; cbn [omap list_omap d_got_get d_got_nodes d_remote d_announce ra_inner].
          all: split; [split; [discriminate|intros (g & Hg); inversion Hg]|].
          all: split; [split; [discriminate|intros (n & Hn & _); inversion Hn]|].
          all: split; [apply same_host_refl|]; split; [congruence|]; split; [cbn; lia|].
          all: split; [intros a Ha; inversion Ha|]; rewrite SO.
          -- unfold d_sends. cbn [omap list_omap]. rewrite N.eqb_refl. split; [reflexivity|]. split; [reflexivity|]. constructor; [exact I|constructor].
          -- split; [reflexivity|]. split; [reflexivity|]. constructor.
        * assert (M : m !! s = m0 !! s) by (destruct (s_out x); injection E as <- _; apply lookup_insert_ne, Ne).
          rewrite M. destruct (m0 !! s) as [st|], (d_opened s tr0) as [y|]; try contradiction; [|exact I].
          apply s_inv_quiet; [exact IHs| |exact Ne].
          destruct (s_out x); injection E as _ <-; [|reflexivity]. unfold d_sends. cbn [omap list_omap].
          destruct (N.eqb_spec (s_id x) s); [contradiction|reflexivity].
      + (* disconnected *)
        unfold with_peer in E. destruct (ma_peer (s_addr x)) as [p|]; [|discriminate]. injection E as <- <-. cbn [d_opened].
        destruct (N.eqb_spec (s_id x) s) as [<-|Ne]; [rewrite lookup_delete; exact I|]. rewrite lookup_delete_ne by exact Ne.
        destruct (m0 !! s) as [st|], (d_opened s tr0) as [y|]; try contradiction; [|exact I].
        apply s_inv_quiet; [exact IHs|reflexivity|exact Ne].
      + (* received *)
        cbn [d_opened]. unfold d_received in E.
        assert (KEEP : m = m0 -> (forall s' msg, DSend s' msg ∉ fs) ->
                 (forall st, m0 !! s_id x = Some st -> dec_disc d = None \/ dec_disc d = Some None \/
                    (exists g, dec_disc d = Some (Some (PGetNodes g)) /\ d_got_get st = true) \/
                    (exists n, dec_disc d = Some (Some (PNodes n)) /\ (within n -> ns_announce n = true \/ d_got_nodes st = true))) ->
                 match m !! s, d_opened s tr0 with
                 | Some st, Some y => s_inv s st y ((DReceived x d rn ch, fs) :: tr0) | None, None => True | _, _ => False end).
        { intros -> NS Q. destruct (m0 !! s) as [st|] eqn:L, (d_opened s tr0) as [y|]; try contradiction; [|exact I].
          apply s_inv_quiet; [exact IHs|apply sends_none, NS|]. destruct (N.eq_dec (s_id x) s) as [<-|Ne]; [|auto]. right. exact (Q st L). }
        destruct (dec_disc d) as [[[g|n]|]|] eqn:D.
        * unfold d_get_nodes in E. destruct (m0 !! s_id x) as [st|] eqn:L.
          2: { injection E as <- <-. apply KEEP; [reflexivity|intros ? ? Hs; inversion Hs|intros st H; discriminate]. }
          destruct (d_got_get st) eqn:GG.
          { injection E as <- <-. apply KEEP; [reflexivity|intros ? ? Hs; apply elem_of_list_singleton in Hs; discriminate|].
            intros st' H. injection H as <-. right. right. left. eauto. }
          clear KEEP.
          destruct (match listen_port (gn_port g) with Some port => _ | None => _ end) as [r1 fs1] eqn:L1.
          assert (R1 : same_host (ra_inner r1) (ra_inner (d_remote st)) /\ forall s' msg, DSend s' msg ∉ fs1).
          { destruct (listen_port (gn_port g)) as [port|].
            - injection L1 as <- <-. split.
              + destruct (d_remote st); cbn [update_port ra_inner]; [apply same_host_port|apply same_host_refl].
              + intros s' msg Hs. destruct (update_port _ _) as [|a]; [inversion Hs|]. destruct (valid_addr reachable a); [|inversion Hs].
                apply elem_of_list_singleton in Hs. discriminate.
            - injection L1 as <- <-. split; [apply same_host_refl|intros ? ? Hs; inversion Hs]. }
          destruct R1 as [R1 NS1].
          set (r2 := if REUSE_PORT_VERSION <=? gn_version g then change_to_listen r1 else r1) in E.
          assert (R2 : ra_inner r2 = ra_inner r1) by (unfold r2; destruct (_ <=? _); reflexivity).
          set (items := List.filter (valid_addr reachable) rn) in E. set (mx := N.min MAX_ADDR_TO_SEND (gn_count g)) in E.
          set (items' := if mx <? N.of_nat (length items) then ch mx items else items) in E.
          assert (LI : (length items' <= 1000)%nat).
          { assert (MX : mx <= 1000) by (unfold mx, MAX_ADDR_TO_SEND; lia). unfold items'.
            destruct (N.ltb_spec mx (N.of_nat (length items))) as [H|H]; [destruct (FE mx items) as [K _]|]; lia. }
          assert (XX : exists fs2, m = <[s_id x := DState r2 (d_last st) (d_announce st) true (d_got_nodes st)]> m0 /\
                    fs = fs2 ++ [DSend (s_id x) (Some (PNodes (Nodes false (map (one_node to_vec) items'))))] /\ forall s' msg, DSend s' msg ∉ fs2).
          { destruct (REUSE_PORT_VERSION <=? gn_version g).
            - destruct (ma_peer (ra_inner r2)); [|discriminate]. injection E as <- <-. exists (fs1 ++ [DReuse (ra_inner r2)]).
              split; [reflexivity|]. rewrite <- app_assoc. split; [reflexivity|]. intros s' msg Hs. apply elem_of_app in Hs as [Hs|Hs].
              + exact (NS1 _ _ Hs).
              + apply elem_of_list_singleton in Hs. discriminate.
            - injection E as <- <-. exists fs1. auto. }
          destruct XX as (fs2 & -> & -> & NS2). clear E.
          destruct (N.eq_dec (s_id x) s) as [<-|Ne].
          2: { rewrite lookup_insert_ne by exact Ne. destruct (m0 !! s) as [st'|], (d_opened s tr0) as [y|]; try contradiction; [|exact I].
               apply s_inv_quiet; [exact IHs| |left; exact Ne]. rewrite sends_app, (sends_none s fs2 NS2). unfold d_sends. cbn [omap list_omap app].
               destruct (N.eqb_spec (s_id x) s); [contradiction|reflexivity]. }
          rewrite lookup_insert. rewrite L in IHs. destruct (d_opened (s_id x) tr0) as [y|]; [|contradiction].
          destruct IHs as (A & B & C & PP & F & G & H & J & K). unfold s_inv, d_got. cbn [d_raw d_sent]. rewrite N.eqb_refl.
          cbn [omap list_omap]. rewrite D. cbn [d_got_get d_got_nodes d_remote d_announce].
          split; [split; [intros _; exists g; left|reflexivity]|].
          split. { rewrite B. split; intros (n & N1 & N2 & N3); exists n; (split; [|auto]); [right; exact N1|].
                   apply elem_of_cons in N1 as [N1|N1]; [discriminate|exact N1]. }
          split; [rewrite R2; eapply same_host_trans; eassumption|]. split; [exact PP|]. split; [exact F|].
          split; [intros a Ha; apply announceable_more, G, Ha|].
          rewrite sends_app, (sends_none _ fs2 NS2). unfold d_sends. cbn [omap list_omap app]. rewrite N.eqb_refl.
          cbn [app]. unfold count in *. cbn [List.filter asks answers ns_announce negb length]. rewrite H, J, GG.
          split; [reflexivity|]. split; [reflexivity|]. constructor; [|exact K].
          split; [cbn [ns_items ns_announce]; rewrite map_length; exact LI|apply one_node_short].
        * injection E as E. unfold d_nodes in E. destruct (misbehaves n) eqn:MB.
          { injection E as <- <-. apply KEEP; [reflexivity|intros ? ? Hs; apply elem_of_list_singleton in Hs; discriminate|].
            intros st H. right. right. right. exists n. split; [reflexivity|]. intros W. apply misbehaves_within in W. congruence. }
          destruct (m0 !! s_id x) as [st|] eqn:L.
          2: { injection E as <- <-. apply KEEP; [reflexivity|intros ? ? Hs; inversion Hs|intros st H; discriminate]. }
          destruct (negb (ns_announce n) && d_got_nodes st) eqn:DUP.
          { injection E as <- <-. apply KEEP; [reflexivity|intros ? ? Hs; apply elem_of_list_singleton in Hs; discriminate|].
            intros st' H. injection H as <-. apply andb_true_iff in DUP as [_ DUP]. right. right. right. exists n. auto. }
          clear KEEP. injection E as <- <-.
          assert (NS : forall s' msg, DSend s' msg ∉ map DStore (List.filter (valid_addr reachable) (node_addrs parse n))).
          { intros s' msg Hs. apply elem_of_list_fmap in Hs as (a & Hs & _). discriminate. }
          destruct (N.eq_dec (s_id x) s) as [<-|Ne].
          2: { rewrite lookup_insert_ne by exact Ne. destruct (m0 !! s) as [st'|], (d_opened s tr0) as [y|]; try contradiction; [|exact I].
               apply s_inv_quiet; [exact IHs|apply sends_none, NS|left; exact Ne]. }
          rewrite lookup_insert. rewrite L in IHs. destruct (d_opened (s_id x) tr0) as [y|]; [|contradiction].
          destruct IHs as (A & B & C & PP & F & G & H & J & K). unfold s_inv, d_got. cbn [d_raw d_sent]. rewrite N.eqb_refl.
          cbn [omap list_omap]. rewrite D. cbn [d_got_get d_got_nodes d_remote d_announce].
          split. { rewrite A. split; intros [g Hg]; exists g; [right; exact Hg|]. apply elem_of_cons in Hg as [Hg|Hg]; [discriminate|exact Hg]. }
          split. { rewrite orb_true_iff, B. split.
                   - intros [(n' & N1 & N2 & N3)|AN].
                     + exists n'. split; [right; exact N1|]. auto.
                     + exists n. split; [left|]. split; [destruct (ns_announce n); [discriminate|reflexivity]|]. apply misbehaves_within, MB.
                   - intros (n' & N1 & N2 & N3). apply elem_of_cons in N1 as [N1|N1]; [|eauto]. injection N1 as ->. right. rewrite N2. reflexivity. }
          split; [exact C|]. split; [exact PP|]. split; [exact F|]. split; [intros a Ha; apply announceable_more, G, Ha|].
          rewrite (sends_none _ _ NS). auto.
        * injection E as <- <-. apply KEEP; [reflexivity|intros ? ? Hs; inversion Hs|auto].
        * injection E as <- <-. apply KEEP; [reflexivity|intros ? ? Hs; apply elem_of_list_singleton in Hs; discriminate|auto].
      + (* the timer *)
        injection E as E. unfold d_notify in E. destruct (fold_left _ o (m0, cs, [])) as [[m1 l] fs1] eqn:V. injection E as <- <-.
        destruct (visit_spec _ _ _ _ _ _ _ _ V) as (VA & VB & VC). pose proof (spread_grown kn sh 0 l m1 s) as SG. specialize (VA s).
        cbn [d_opened]. destruct (m0 !! s) as [st|] eqn:L, (m1 !! s) as [st1|], (d_spread kn sh 0 l m1 !! s) as [st2|], (d_opened s tr0) as [y|] eqn:O;
          try contradiction; [|exact I].
        destruct IHs as (A & B & C & PP & F & G & H & J & K). destruct VA as ((V1 & V2 & V3) & V4), SG as ((S1 & S2 & S3) & S4 & S5).
        unfold s_inv, d_got. cbn [d_raw d_sent]. rewrite S1, S2, S3, V1, V2, V3.
        split; [exact A|]. split; [exact B|]. split; [exact C|]. split; [exact PP|].
        split. { apply S4. destruct V4 as [->| ->]; [exact F|cbn; lia]. }
        split.
        { intros a Ha. destruct (S5 a Ha) as [Hb|Hb].
          - destruct V4 as [V4|V4]; rewrite V4 in Hb; [|inversion Hb]. apply announceable_more, G, Hb.
          - exists [], now, cs, o, sh, kn, fs1, tr0. split; [reflexivity|]. destruct (VB a Hb) as [Hc|(s' & st' & Hc & Hd & He)]; [left; exact Hc|].
            right. specialize (IH s'). rewrite Hc in IH. destruct (d_opened s' tr0) as [x'|] eqn:O'; [|contradiction].
            exists s', x'. destruct IH as (_ & _ & SH & _). rewrite Hd in SH. auto. }
        assert (SENT : forall msg, msg ∈ d_sends s fs1 -> asks msg = false /\ answers msg = false /\ polite msg).
        { intros msg Hm. apply sends_in in Hm. destruct (VC _ Hm) as [Hn|(s' & st' & Hn & _ & He)]; [inversion Hn|]. injection He as -> ->.
          split; [reflexivity|]. split; [reflexivity|]. split; [|apply one_node_short]. cbn [ns_items ns_announce]. rewrite map_length.
          specialize (IH s'). rewrite Hn in IH. destruct (d_opened s' tr0); [|contradiction]. apply IH. }
        rewrite !count_app, (count_none asks), (count_none answers) by (intros msg Hm; apply SENT, Hm).
        split; [exact H|]. split; [exact J|]. apply Forall_app. split; [|exact K]. apply Forall_forall. intros msg Hm. apply SENT, Hm.
  Qed.

  (* -------------------------------------------------------------------- *)
  (** * C75 *)

  (** on one connection a node sends one question when it dialed and none otherwise, at most one answer, and only lists within the limits *)
  Theorem C75_polite h m tr s x :
    run h = Ok (m, tr) -> Forall d_fair h -> d_opened s tr = Some x ->
    count asks (d_sent s tr) = (if s_out x then 1 else 0)%nat /\ (count answers (d_sent s tr) <= 1)%nat /\ Forall polite (d_sent s tr).
  Proof.
    intros R F O. pose proof (run_inv _ _ _ R F s) as V. rewrite O in V. destruct (m !! s) as [st|]; [|contradiction].
    destruct V as (_ & _ & _ & _ & _ & _ & A & B & C). split; [exact A|]. split; [|exact C]. rewrite B. destruct (d_got_get st); lia.
  Qed.

  (** sessions are closed for unreadable data, a repeated question, a list beyond the limits and a repeated answer, and nothing else *)
  Theorem C75_close x d rn ch h m' tr fs y s :
    run (DReceived x d rn ch :: h) = Ok (m', (DReceived x d rn ch, fs) :: tr) -> Forall d_fair h -> d_opened (s_id x) tr = Some y ->
    DClose s ∈ fs <->
    s = s_id x /\
    match dec_disc d with
    | None => True
    | Some None => False
    | Some (Some (PGetNodes _)) => exists g, Some (PGetNodes g) ∈ d_got (s_id x) tr
    | Some (Some (PNodes n)) =>
        ~ within n \/ ns_announce n = false /\ exists n', Some (PNodes n') ∈ d_got (s_id x) tr /\ ns_announce n' = false /\ within n'
    end.
  Proof.
    intros R F O. destruct (run_cons _ _ _ _ R) as (m & tr0 & fs0 & R0 & E & S). injection E as <- <-.
    pose proof (run_inv _ _ _ R0 F (s_id x)) as V. rewrite O in V. cbn [dstep] in S. unfold d_received in S.
    assert (ONE : forall P : Prop, P -> DClose s ∈ [DClose (s_id x)] <-> s = s_id x /\ P).
    { intros P HP. rewrite elem_of_list_singleton. split; [intros H; injection H as ->; auto|intros [-> _]; reflexivity]. }
    destruct (dec_disc d) as [[[g|n]|]|].
    - unfold d_get_nodes in S. destruct (m !! s_id x) as [st|]; [|contradiction]. destruct V as (A & _).
      destruct (d_got_get st) eqn:GG.
      { injection S as _ <-. apply ONE, A. reflexivity. }
      split; [|intros [_ H]; apply A in H; discriminate]. intros H. exfalso. revert H.
      destruct (match listen_port (gn_port g) with Some port => _ | None => _ end) as [r1 fs1] eqn:L1.
      assert (N1 : DClose s ∉ fs1).
      { destruct (listen_port (gn_port g)); injection L1 as _ <-; [|intros H; inversion H].
        destruct (update_port _ _) as [|a]; [intros H; inversion H|]. destruct (valid_addr _ a); [|intros H; inversion H].
        intros H. apply elem_of_list_singleton in H. discriminate. }
      destruct (_ <=? _); [destruct (ma_peer _); [|discriminate]|]; injection S as _ <-; intros H;
        apply elem_of_app in H as [H|H]; try (exact (N1 H)).
      + apply elem_of_cons in H as [H|H]; [discriminate|]. apply elem_of_list_singleton in H. discriminate.
      + apply elem_of_list_singleton in H. discriminate.
    - injection S as S. unfold d_nodes in S. destruct (misbehaves n) eqn:MB.
      { injection S as _ <-. apply ONE. left. intros W. apply misbehaves_within in W. congruence. }
      apply misbehaves_within in MB. destruct (m !! s_id x) as [st|]; [|contradiction]. destruct V as (_ & B & _).
      destruct (negb (ns_announce n) && d_got_nodes st) eqn:DUP.
      { injection S as _ <-. apply ONE. right. apply andb_true_iff in DUP as [D1 D2]. split; [destruct (ns_announce n); [discriminate|reflexivity]|].
        apply B, D2. }
      injection S as _ <-. split.
      + intros H. apply elem_of_list_fmap in H as (a & H & _). discriminate.
      + intros [_ [H|[H1 H2]]]; [contradiction|]. apply B in H2. rewrite H1, H2 in DUP. discriminate.
    - injection S as _ <-. split; [intros H; inversion H|intros [_ []]].
    - injection S as _ <-. apply ONE, I.
  Qed.
  (** … and never by the timer or when sessions come and go *)
  Theorem C75_close_only_received e h m' tr fs s :
    run (e :: h) = Ok (m', (e, fs) :: tr) -> DClose s ∈ fs -> exists x d rn ch, e = DReceived x d rn ch /\ s_id x = s.
  Proof.
    intros R H. destruct (run_cons _ _ _ _ R) as (m & tr0 & fs0 & R0 & E & S). injection E as <- <-. clear R R0.
    destruct e as [x listens|x|x d rn ch|now cs o sh kn]; cbn [dstep] in S.
    - unfold d_connected, with_peer in S. destruct (ma_peer _); [|discriminate].
      destruct (s_out x); injection S as _ <-; [apply elem_of_list_singleton in H; discriminate|inversion H].
    - unfold with_peer in S. destruct (ma_peer _); [|discriminate]. injection S as _ <-. inversion H.
    - exists x, d, rn, ch. split; [reflexivity|]. unfold d_received in S. destruct (dec_disc d) as [[[g|n]|]|].
      + unfold d_get_nodes in S. destruct (m !! s_id x) as [st|]; [|injection S as _ <-; inversion H].
        destruct (d_got_get st); [injection S as _ <-; apply elem_of_list_singleton in H; congruence|].
        destruct (match listen_port (gn_port g) with Some port => _ | None => _ end) as [r1 fs1] eqn:L1.
        assert (N1 : DClose s ∉ fs1).
        { destruct (listen_port (gn_port g)); injection L1 as _ <-; [|intros Q; inversion Q].
          destruct (update_port _ _) as [|a]; [intros Q; inversion Q|]. destruct (valid_addr _ a); [|intros Q; inversion Q].
          intros Q. apply elem_of_list_singleton in Q. discriminate. }
        exfalso. destruct (_ <=? _); [destruct (ma_peer _); [|discriminate]|]; injection S as _ <-;
          apply elem_of_app in H as [H|H]; try (exact (N1 H)).
        * apply elem_of_cons in H as [H|H]; [discriminate|]. apply elem_of_list_singleton in H. discriminate.
        * apply elem_of_list_singleton in H. discriminate.
      + injection S as S. unfold d_nodes in S. destruct (misbehaves n); [injection S as _ <-; apply elem_of_list_singleton in H; congruence|].
        destruct (m !! s_id x) as [st|]; [|injection S as _ <-; inversion H].
        destruct (_ && _); injection S as _ <-; [apply elem_of_list_singleton in H; congruence|].
        apply elem_of_list_fmap in H as (a & H & _). discriminate.
      + injection S as _ <-. inversion H.
      + injection S as _ <-. apply elem_of_list_singleton in H. congruence.
    - injection S as S. unfold d_notify in S. destruct (fold_left _ o (m, cs, [])) as [[m1 l] fs1] eqn:V. injection S as _ <-.
      destruct (visit_spec _ _ _ _ _ _ _ _ V) as (_ & _ & VC). destruct (VC _ H) as [K|(s' & st' & _ & _ & K)]; [inversion K|discriminate].
  Qed.

  (** the answer to a question: at most as many as asked and 1000, each with one reachable address of the peer store *)
  Theorem C75_answer x d rn ch h m' tr fs s n :
    run (DReceived x d rn ch :: h) = Ok (m', (DReceived x d rn ch, fs) :: tr) -> fair_choice ch -> DSend s (Some (PNodes n)) ∈ fs ->
    exists g l, s = s_id x /\ dec_disc d = Some (Some (PGetNodes g)) /\ ns_announce n = false /\ ns_items n = map (fun a => [to_vec a]) l /\
      N.of_nat (length l) <= N.min 1000 (gn_count g) /\ forall a, a ∈ l -> a ∈ rn /\ dreach a.
  Proof.
    intros R FC H. destruct (run_cons _ _ _ _ R) as (m & tr0 & fs0 & R0 & E & S). injection E as <- <-. clear R R0. cbn [dstep] in S.
    unfold d_received in S. destruct (dec_disc d) as [[[g|n0]|]|].
    - unfold d_get_nodes in S. destruct (m !! s_id x) as [st|]; [|injection S as _ <-; inversion H].
      destruct (d_got_get st); [injection S as _ <-; apply elem_of_list_singleton in H; congruence|].
      destruct (match listen_port (gn_port g) with Some port => _ | None => _ end) as [r1 fs1] eqn:L1.
      assert (N1 : forall q, DSend s q ∉ fs1).
      { intros q. destruct (listen_port (gn_port g)); injection L1 as _ <-; [|intros Q; inversion Q].
        destruct (update_port _ _) as [|a]; [intros Q; inversion Q|]. destruct (valid_addr _ a); [|intros Q; inversion Q].
        intros Q. apply elem_of_list_singleton in Q. discriminate. }
      set (items := List.filter (valid_addr reachable) rn) in S. set (mx := N.min MAX_ADDR_TO_SEND (gn_count g)) in S.
      set (items' := if mx <? N.of_nat (length items) then ch mx items else items) in S.
      assert (K : s = s_id x /\ n = Nodes false (map (one_node to_vec) items')).
      { destruct (_ <=? _); [destruct (ma_peer _); [|discriminate]|]; injection S as _ <-;
          apply elem_of_app in H as [H|H]; try (exfalso; exact (N1 _ H)).
        - apply elem_of_cons in H as [H|H]; [discriminate|]. apply elem_of_list_singleton in H. injection H as -> ->. auto.
        - apply elem_of_list_singleton in H. injection H as -> ->. auto. }
      destruct K as [-> ->]. exists g, items'. split; [reflexivity|]. split; [reflexivity|]. split; [reflexivity|]. split; [reflexivity|].
      assert (IT : forall a, a ∈ items -> a ∈ rn /\ dreach a).
      { intros a Ha. apply elem_of_list_In, filter_In in Ha as [Ha Hb]. split; [apply elem_of_list_In, Ha|apply valid_reach, Hb]. }
      unfold items'. fold mx. change (N.min 1000 (gn_count g)) with mx.
      destruct (N.ltb_spec mx (N.of_nat (length items))) as [Hm|Hm]; [|auto].
      destruct (FC mx items) as [F1 F2]. split; [exact F1|]. intros a Ha. apply IT, F2, Ha.
    - injection S as S. unfold d_nodes in S. destruct (misbehaves n0); [injection S as _ <-; apply elem_of_list_singleton in H; discriminate|].
      destruct (m !! s_id x) as [st|]; [|injection S as _ <-; inversion H].
      destruct (_ && _); injection S as _ <-; [apply elem_of_list_singleton in H; discriminate|].
      apply elem_of_list_fmap in H as (a & H & _). discriminate.
    - injection S as _ <-. inversion H.
    - injection S as _ <-. apply elem_of_list_singleton in H. discriminate.
  Qed.
  (** the first question of an open session is always answered *)
  Theorem C75_answered x d rn ch h m' tr fs y g :
    run (DReceived x d rn ch :: h) = Ok (m', (DReceived x d rn ch, fs) :: tr) -> Forall d_fair h -> d_opened (s_id x) tr = Some y ->
    dec_disc d = Some (Some (PGetNodes g)) -> (forall g', Some (PGetNodes g') ∉ d_got (s_id x) tr) ->
    exists n, DSend (s_id x) (Some (PNodes n)) ∈ fs.
  Proof.
    intros R F O D NG. destruct (run_cons _ _ _ _ R) as (m & tr0 & fs0 & R0 & E & S). injection E as <- <-.
    pose proof (run_inv _ _ _ R0 F (s_id x)) as V. rewrite O in V. cbn [dstep] in S. unfold d_received in S. rewrite D in S.
    unfold d_get_nodes in S. destruct (m !! s_id x) as [st|]; [|contradiction]. destruct V as (A & _).
    destruct (d_got_get st); [destruct (proj1 A eq_refl) as [g' Hg]; exfalso; exact (NG g' Hg)|].
    destruct (match listen_port (gn_port g) with Some port => _ | None => _ end) as [r1 fs1] eqn:L1.
    destruct (_ <=? _); [destruct (ma_peer _); [|discriminate]|]; injection S as _ <-; eexists; apply elem_of_app; right;
      [right|]; left.
  Qed.

  (** what is learnt: the reachable addresses of a list, or the sender's own address with the port it named *)
  Theorem C75_learn e h m' tr fs a :
    run (e :: h) = Ok (m', (e, fs) :: tr) -> Forall d_fair h -> DStore a ∈ fs ->
    dreach a /\
    exists x d rn ch, e = DReceived x d rn ch /\
      ((exists n i v, dec_disc d = Some (Some (PNodes n)) /\ within n /\ i ∈ ns_items n /\ v ∈ i /\ parse v = Some a) \/
       (exists g p y, dec_disc d = Some (Some (PGetNodes g)) /\ gn_port g = Some p /\ p < 2 ^ 16 /\
                      d_opened (s_id x) tr = Some y /\ same_host a (s_addr y))).
  Proof.
    intros R F H. destruct (run_cons _ _ _ _ R) as (m & tr0 & fs0 & R0 & E & S). injection E as <- <-.
    pose proof (run_inv _ _ _ R0 F) as V. clear R R0. destruct e as [x listens|x|x d rn ch|now cs o sh kn]; cbn [dstep] in S.
    - unfold d_connected, with_peer in S. destruct (ma_peer _); [|discriminate].
      destruct (s_out x); injection S as _ <-; [apply elem_of_list_singleton in H; discriminate|inversion H].
    - unfold with_peer in S. destruct (ma_peer _); [|discriminate]. injection S as _ <-. inversion H.
    - specialize (V (s_id x)). unfold d_received in S. destruct (dec_disc d) as [[[g|n]|]|] eqn:D.
      + unfold d_get_nodes in S. destruct (m !! s_id x) as [st|]; [|injection S as _ <-; inversion H].
        destruct (d_opened (s_id x) tr) as [y|] eqn:O; [|contradiction]. destruct V as (_ & _ & SH & _).
        destruct (d_got_get st); [injection S as _ <-; apply elem_of_list_singleton in H; congruence|].
        destruct (match listen_port (gn_port g) with Some port => _ | None => _ end) as [r1 fs1] eqn:L1.
        assert (H1 : DStore a ∈ fs1).
        { destruct (_ <=? _); [destruct (ma_peer _); [|discriminate]|]; injection S as _ <-;
            apply elem_of_app in H as [H|H]; try exact H.
          - apply elem_of_cons in H as [H|H]; [discriminate|]. apply elem_of_list_singleton in H. discriminate.
          - apply elem_of_list_singleton in H. discriminate. }
        unfold listen_port in L1. destruct (gn_port g) as [p|] eqn:GP; [|injection L1 as _ <-; inversion H1].
        destruct (N.leb_spec p 65535) as [Hp|]; [|injection L1 as _ <-; inversion H1]. injection L1 as _ <-.
        destruct (update_port (d_remote st) p) as [|b] eqn:UP; [inversion H1|]. destruct (valid_addr reachable b) eqn:VA; [|inversion H1].
        apply elem_of_list_singleton in H1. injection H1 as ->. split; [apply valid_reach, VA|].
        exists x, d, rn, ch. split; [reflexivity|]. right. exists g, p, y. split; [exact D|]. split; [exact GP|]. split; [lia|]. split; [exact O|].
        destruct (d_remote st); injection UP as <-; cbn [ra_inner] in SH; [|exact SH]. eapply same_host_trans; [apply same_host_port|exact SH].
      + injection S as S. unfold d_nodes in S. destruct (misbehaves n) eqn:MB; [injection S as _ <-; apply elem_of_list_singleton in H; discriminate|].
        destruct (m !! s_id x) as [st|]; [|injection S as _ <-; inversion H].
        destruct (_ && _); injection S as _ <-; [apply elem_of_list_singleton in H; discriminate|].
        apply elem_of_list_fmap in H as (b & Hb & H). injection Hb as <-. apply elem_of_list_In, filter_In in H as [H VA].
        split; [apply valid_reach, VA|]. exists x, d, rn, ch. split; [reflexivity|]. left.
        unfold node_addrs in H. apply in_concat in H as (l & Hl & H). apply in_map_iff in Hl as (i & <- & Hi).
        apply elem_of_list_In, elem_of_list_omap in H as (v & Hv & PV). exists n, i, v. split; [exact D|].
        split; [apply misbehaves_within, MB|]. split; [apply elem_of_list_In, Hi|]. auto.
      + injection S as _ <-. inversion H.
      + injection S as _ <-. apply elem_of_list_singleton in H. discriminate.
    - injection S as S. unfold d_notify in S. destruct (fold_left _ o (m, cs, [])) as [[m1 l] fs1] eqn:VV. injection S as _ <-.
      destruct (visit_spec _ _ _ _ _ _ _ _ VV) as (_ & _ & VC). destruct (VC _ H) as [K|(s' & st' & _ & _ & K)]; [inversion K|discriminate].
  Qed.
  (** … and every reachable address of an accepted list is learnt *)
  Theorem C75_learn_all x d rn ch h m' tr fs y n i v a :
    run (DReceived x d rn ch :: h) = Ok (m', (DReceived x d rn ch, fs) :: tr) -> Forall d_fair h -> d_opened (s_id x) tr = Some y ->
    dec_disc d = Some (Some (PNodes n)) -> (forall s, DClose s ∉ fs) -> i ∈ ns_items n -> v ∈ i -> parse v = Some a -> dreach a ->
    DStore a ∈ fs.
  Proof.
    intros R F O D NC Hi Hv PV RA. destruct (run_cons _ _ _ _ R) as (m & tr0 & fs0 & R0 & E & S). injection E as <- <-.
    pose proof (run_inv _ _ _ R0 F (s_id x)) as V. rewrite O in V. cbn [dstep] in S. unfold d_received in S. rewrite D in S.
    injection S as S. unfold d_nodes in S.
    destruct (misbehaves n); [injection S as _ <-; exfalso; apply (NC (s_id x)); left|].
    destruct (m !! s_id x) as [st|]; [|contradiction].
    destruct (_ && _); injection S as _ <-; [exfalso; apply (NC (s_id x)); left|].
    apply elem_of_list_fmap. exists a. split; [reflexivity|]. apply elem_of_list_In, filter_In. split; [|apply valid_reach, RA].
    apply in_concat. exists (omap parse i). split; [apply in_map, elem_of_list_In, Hi|]. apply elem_of_list_In, elem_of_list_omap. eauto.
  Qed.

  (** what is spread: one to ten addresses, each of a consensus peer or of a session open at some earlier timer event *)
  Theorem C75_spread e h m' tr fs s n :
    run (e :: h) = Ok (m', (e, fs) :: tr) -> Forall d_fair h -> DSend s (Some (PNodes n)) ∈ fs -> ns_announce n = true ->
    exists l, ns_items n = map (fun a => [to_vec a]) l /\ l <> [] /\ (length l <= 10)%nat /\ forall a, a ∈ l -> announceable a tr.
  Proof.
    intros R F H AN. destruct (run_cons _ _ _ _ R) as (m & tr0 & fs0 & R0 & E & S). injection E as <- <-.
    pose proof (run_inv _ _ _ R0 F) as V. destruct e as [x listens|x|x d rn ch|now cs o sh kn].
    - cbn [dstep] in S. unfold d_connected, with_peer in S. destruct (ma_peer _); [|discriminate].
      destruct (s_out x); injection S as _ <-; [apply elem_of_list_singleton in H; discriminate|inversion H].
    - cbn [dstep] in S. unfold with_peer in S. destruct (ma_peer _); [|discriminate]. injection S as _ <-. inversion H.
    - exfalso. cbn [dstep] in S. unfold d_received in S. destruct (dec_disc d) as [[[g|n0]|]|].
      + unfold d_get_nodes in S. destruct (m !! s_id x) as [st|]; [|injection S as _ <-; inversion H].
        destruct (d_got_get st); [injection S as _ <-; apply elem_of_list_singleton in H; congruence|].
        destruct (match listen_port (gn_port g) with Some port => _ | None => _ end) as [r1 fs1] eqn:L1.
        assert (N1 : forall q, DSend s q ∉ fs1).
        { intros q. destruct (listen_port (gn_port g)); injection L1 as _ <-; [|intros Q; inversion Q].
          destruct (update_port _ _) as [|a]; [intros Q; inversion Q|]. destruct (valid_addr _ a); [|intros Q; inversion Q].
          intros Q. apply elem_of_list_singleton in Q. discriminate. }
        destruct (_ <=? _); [destruct (ma_peer _); [|discriminate]|]; injection S as _ <-;
          apply elem_of_app in H as [H|H]; try (exact (N1 _ H)).
        * apply elem_of_cons in H as [H|H]; [discriminate|]. apply elem_of_list_singleton in H. injection H as -> ->. discriminate.
        * apply elem_of_list_singleton in H. injection H as -> ->. discriminate.
      + injection S as S. unfold d_nodes in S. destruct (misbehaves n0); [injection S as _ <-; apply elem_of_list_singleton in H; discriminate|].
        destruct (m !! s_id x) as [st|]; [|injection S as _ <-; inversion H].
        destruct (_ && _); injection S as _ <-; [apply elem_of_list_singleton in H; discriminate|].
        apply elem_of_list_fmap in H as (a & H & _). discriminate.
      + injection S as _ <-. inversion H.
      + injection S as _ <-. apply elem_of_list_singleton in H. discriminate.
    - cbn [dstep] in S. injection S as S. unfold d_notify in S. destruct (fold_left _ o (m, cs, [])) as [[m1 l] fs1] eqn:VV. injection S as _ <-.
      destruct (visit_spec _ _ _ _ _ _ _ _ VV) as (_ & _ & VC). destruct (VC _ H) as [K|(s' & st' & L & NE & K)]; [inversion K|].
      injection K as -> ->. exists (d_announce st'). specialize (V s'). rewrite L in V. destruct (d_opened s' tr); [|contradiction].
      destruct V as (_ & _ & _ & _ & B & A & _). split; [reflexivity|]. auto.
  Qed.

  (** no panic when session addresses carry peer ids *)
  Theorem C75_no_panic h : Forall d_named h -> Forall d_fair h -> exists m tr, run h = Ok (m, tr).
  Proof.
    induction h as [|e h IH]; intros Q F; [unfold disc_run; cbn; eauto|]. inversion Q as [|? ? Qe Q']; subst. inversion F as [|? ? Fe F']; subst.
    destruct (IH Q' F') as (m & tr & R). pose proof (run_inv _ _ _ R F') as V. unfold disc_run in *. cbn [p2p_run]. rewrite R.
    assert (X : exists m' fs, step m e = Ok (m', fs)); [|destruct X as (m' & fs & ->); eauto].
    destruct e as [x listens|x|x d rn ch|now cs o sh kn]; cbn [dstep d_named] in *.
    - unfold d_connected, with_peer. destruct (ma_peer (s_addr x)); [|congruence]. destruct (s_out x); eauto.
    - unfold with_peer. destruct (ma_peer (s_addr x)); [eauto|congruence].
    - unfold d_received. destruct (dec_disc d) as [[[g|n]|]|]; [| |eauto|eauto].
      + unfold d_get_nodes. specialize (V (s_id x)). destruct (m !! s_id x) as [st|]; [|eauto]. destruct (d_opened (s_id x) tr) as [y|]; [|contradiction].
        destruct (d_got_get st); [eauto|]. destruct V as (_ & _ & SH & PP & _).
        destruct (match listen_port (gn_port g) with Some port => _ | None => _ end) as [r1 fs1] eqn:L1.
        assert (R1 : ma_peer (ra_inner r1) = ma_peer (s_addr y)).
        { destruct (listen_port (gn_port g)) as [port|]; injection L1 as <- _; [|apply SH].
          destruct (d_remote st); cbn [update_port ra_inner] in *; [|apply SH].
          destruct (same_host_trans _ _ _ (same_host_port _ port) SH) as (_ & H & _). exact H. }
        destruct (_ <=? _) eqn:LE; [|eauto]. cbn [change_to_listen ra_inner]. rewrite R1. destruct (ma_peer (s_addr y)); [eauto|congruence].
      + destruct (d_nodes _ _ _ _ _); eauto.
    - destruct (d_notify _ _ _ _ _ _ _ _); eauto.
  Qed.

  (* -------------------------------------------------------------------- *)
  (** * Two honest nodes *)

  Lemma sent_ok h m tr s : run h = Ok (m, tr) -> Forall d_ports h -> Forall disc_ok (d_sent s tr).
  Proof.
    revert m tr. induction h as [|e h IH]; intros m tr R P.
    - injection R as <- <-. constructor.
    - destruct (run_cons _ _ _ _ R) as (m0 & tr0 & fs & R0 & -> & E). inversion P as [|? ? Pe P']; subst. specialize (IH _ _ R0 P').
      assert (K : forall msg, msg ∈ d_sends s fs -> disc_ok msg).
      { intros msg Hm. apply sends_in in Hm. destruct msg as [[g|n]|]; [|exact I|exact I].
        destruct e as [x listens|x|x d rn ch|now cs o sh kn]; cbn [dstep] in E.
        - unfold d_connected, with_peer in E. destruct (ma_peer _); [|discriminate]. destruct (s_out x); injection E as _ <-; [|inversion Hm].
          apply elem_of_list_singleton in Hm. injection Hm as _ ->. unfold disc_ok. cbn [gn_version gn_count gn_port].
          split; [reflexivity|]. split; [reflexivity|]. intros p Hp.
          assert (IN : p ∈ omap (fun a => if valid_addr reachable a then sk ← ma_sock a; Some sk.2 else None) listens).
          { destruct (omap _ listens) as [|q l]; [discriminate|]. injection Hp as ->. left. }
          apply elem_of_list_omap in IN as (a & Ha & IN). destruct (valid_addr reachable a); [|discriminate].
          destruct (ma_sock a) as [[i q]|] eqn:SK; [|discriminate]. cbn in IN. injection IN as ->. specialize (Pe a i p Ha SK). unfold u32. lia.
        - unfold with_peer in E. destruct (ma_peer _); [|discriminate]. injection E as _ <-. inversion Hm.
        - exfalso. unfold d_received in E. destruct (dec_disc d) as [[[g0|n0]|]|].
          + unfold d_get_nodes in E. destruct (m0 !! s_id x) as [st|]; [|injection E as _ <-; inversion Hm].
            destruct (d_got_get st); [injection E as _ <-; apply elem_of_list_singleton in Hm; discriminate|].
            destruct (match listen_port (gn_port g0) with Some port => _ | None => _ end) as [r1 fs1] eqn:L1.
            assert (N1 : forall q, DSend s q ∉ fs1).
            { intros q. destruct (listen_port (gn_port g0)); injection L1 as _ <-; [|intros Q; inversion Q].
              destruct (update_port _ _) as [|a]; [intros Q; inversion Q|]. destruct (valid_addr _ a); [|intros Q; inversion Q].
              intros Q. apply elem_of_list_singleton in Q. discriminate. }
            destruct (_ <=? _); [destruct (ma_peer _); [|discriminate]|]; injection E as _ <-;
              apply elem_of_app in Hm as [Hm|Hm]; try (exact (N1 _ Hm)).
            * apply elem_of_cons in Hm as [Hm|Hm]; [discriminate|]. apply elem_of_list_singleton in Hm. discriminate.
            * apply elem_of_list_singleton in Hm. discriminate.
          + injection E as E. unfold d_nodes in E. destruct (misbehaves n0); [injection E as _ <-; apply elem_of_list_singleton in Hm; discriminate|].
            destruct (m0 !! s_id x) as [st|]; [|injection E as _ <-; inversion Hm].
            destruct (_ && _); injection E as _ <-; [apply elem_of_list_singleton in Hm; discriminate|].
            apply elem_of_list_fmap in Hm as (a & Hm & _). discriminate.
          + injection E as _ <-. inversion Hm.
          + injection E as _ <-. apply elem_of_list_singleton in Hm. discriminate.
        - injection E as E. unfold d_notify in E. destruct (fold_left _ o (m0, cs, [])) as [[m1 l] fs1] eqn:VV. injection E as _ <-.
          destruct (visit_spec _ _ _ _ _ _ _ _ VV) as (_ & _ & VC). destruct (VC _ Hm) as [Q|(s' & st' & _ & _ & Q)]; [inversion Q|discriminate]. }
      cbn [d_sent]. destruct e as [x listens| | |]; try (apply Forall_app; split; [apply Forall_forall, K|exact IH]).
      destruct (s_id x =? s); [apply Forall_forall, K|exact IH].
  Qed.

  Lemma omap_submseteq {A B} (f : A -> option B) l k : l ⊆+ k -> omap f l ⊆+ omap f k.
  Proof.
    induction 1 as [|a l k H IH|a b l|a l k H IH|l1 l2 l3 H1 IH1 H2 IH2]; cbn [omap list_omap].
    - constructor.
    - destruct (f a); [constructor|]; exact IH.
    - destruct (f a), (f b); try reflexivity. constructor.
    - destruct (f a); [constructor|]; exact IH.
    - etransitivity; eassumption.
  Qed.
  Lemma submseteq_nil_l_elem {A} (a : A) l k : a :: l ⊆+ k -> a ∈ k.
  Proof. intros H. apply (elem_of_submseteq (a :: l) k a); [left|exact H]. Qed.
  Lemma count_submseteq {A} (p : A -> bool) l k : l ⊆+ k -> (count p l <= count p k)%nat.
  Proof.
    unfold count. induction 1; cbn [List.filter]; repeat match goal with |- context[p ?a] => destruct (p a); cbn [length] end; lia.
  Qed.
  Lemma omap_map_back (l : list disc_msg) : Forall (fun m => dec_disc (enc_disc m) = Some m) l -> omap dec_disc (map enc_disc l) = l.
  Proof. induction 1 as [|m l H _ IH]; [reflexivity|]. cbn. rewrite H. f_equal. exact IH. Qed.
  Lemma count_pos {A} (p : A -> bool) l a : a ∈ l -> p a = true -> (1 <= count p l)%nat.
  Proof.
    intros H P. induction l as [|b l IH]; [inversion H|]. unfold count in *. cbn [List.filter]. apply elem_of_cons in H as [<-|H]; [rewrite P; cbn; lia|].
    specialize (IH H). destruct (p b); cbn [length]; lia.
  Qed.
End Discovery.

(** no session between two honest nodes is closed: when all that node B got on the session since it was opened was sent by node A on
    one connection, in any order and with losses but without repetition, B does not close it *)
Theorem C75_honest parse to_vec reachable parse' to_vec' reachable' hA mA trA sA xA x d rn ch hB mB trB fs y s :
  disc_run parse to_vec reachable hA = Ok (mA, trA) -> Forall d_fair hA -> Forall d_ports hA -> d_opened sA trA = Some xA ->
  (forall m, m ∈ d_sent sA trA -> fits (enc_disc m)) ->
  disc_run parse' to_vec' reachable' (DReceived x d rn ch :: hB) = Ok (mB, (DReceived x d rn ch, fs) :: trB) -> Forall d_fair hB ->
  d_opened (s_id x) trB = Some y -> d :: d_raw (s_id x) trB ⊆+ map enc_disc (d_sent sA trA) ->
  DClose s ∉ fs.
Proof.
  intros RA FA PA OA FT RB FB OB SUB H.
  destruct (C75_polite _ _ _ _ _ _ _ _ RA FA OA) as (Q1 & Q2 & Q3).
  assert (BACK : omap dec_disc (map enc_disc (d_sent sA trA)) = d_sent sA trA).
  { apply omap_map_back. pose proof (sent_ok _ _ _ _ _ _ sA RA PA) as OK. rewrite Forall_forall in OK. apply Forall_forall. intros m Hm.
    rewrite <- (app_nil_r (enc_disc m)). apply (C72_discovery m [] []); [exact (OK m Hm)|exact (FT m Hm)|constructor|intros ? ? []]. }
  assert (DD : exists m, dec_disc d = Some m).
  { assert (IN : d ∈ map enc_disc (d_sent sA trA)) by (apply (submseteq_nil_l_elem _ _ _ SUB)).
    apply elem_of_list_fmap in IN as (m & -> & IN). exists m. rewrite <- (app_nil_r (enc_disc m)).
    pose proof (sent_ok _ _ _ _ _ _ sA RA PA) as OK. rewrite Forall_forall in OK.
    apply (C72_discovery m [] []); [exact (OK m IN)|exact (FT m IN)|constructor|intros ? ? []]. }
  destruct DD as [m DD].
  apply (omap_submseteq dec_disc) in SUB. rewrite BACK in SUB. cbn [omap list_omap] in SUB. rewrite DD in SUB. fold (d_got (s_id x) trB) in SUB.
  apply (C75_close _ _ _ _ _ _ _ _ _ _ _ _ _ RB FB OB) in H as [_ H]. rewrite DD in H.
  destruct m as [[g|n]|]; [| |exact H].
  - destruct H as [g' H]. pose proof (count_submseteq asks _ _ SUB) as K. rewrite Q1 in K. unfold count in K. cbn [List.filter asks length] in K.
    pose proof (count_pos asks _ _ H eq_refl) as K'. unfold count in K'. destruct (s_out xA); lia.
  - assert (IN : Some (PNodes n) ∈ d_sent sA trA) by (apply (submseteq_nil_l_elem _ _ _ SUB)).
    rewrite Forall_forall in Q3. specialize (Q3 _ IN). cbn [polite] in Q3.
    destruct H as [H|(AN & n' & H & AN' & _)]; [contradiction|].
    pose proof (count_submseteq answers _ _ SUB) as K. unfold count in K. cbn [List.filter answers] in K. rewrite AN in K. cbn [negb length] in K.
    pose proof (count_pos answers _ (Some (PNodes n')) H) as K'. cbn [answers] in K'. rewrite AN' in K'. specialize (K' eq_refl). unfold count in K', Q2. lia.
Qed.

(** node A dials node B: A asks, B answers with the two reachable addresses it knows, A learns them; B's timer then queues A's address
    and its next one announces it to another peer; a second question closes the session *)
Example C75_example :
  let a i := MAddr (Some ((false, i), 8000)) (Some i) 0 in
  let parse b := match b with [i] => Some (a i) | _ => None end in
  let to_vec m := match ma_sock m with Some ((_, i), _) => [i] | None => [] end in
  let reachable (i : ip) := 100 <=? i.2 in
  let ask := Some (PGetNodes (GetNodes 1 1000 (Some 8000))) in
  let answer := Some (PNodes (Nodes false [[[120]]; [[121]]])) in
  let news := Some (PNodes (Nodes true [[[101]]])) in
  let ch := (fun (n : N) (l : list maddr) => take (N.to_nat n) l) in
  let hA := [DReceived (Sess 7 (a 102) true) (enc_disc answer) [] ch; DConnected (Sess 7 (a 102) true) [a 101]] in
  let tick now := DNotify now [] [5; 6] (fun _ => [6]) (fun _ _ => false) in
  let s5 := Sess 5 (MAddr (Some ((false, 101), 49152)) (Some 101) 0) false in
  let hB := [DReceived s5 (enc_disc ask) [] ch; tick 60; tick 0; DReceived s5 (enc_disc ask) [a 120; a 3; a 121] ch;
             DConnected (Sess 6 (a 103) false) []; DConnected s5 []] in
  fair_choice ch /\ Forall d_named hA /\ Forall d_ports hA /\
  (exists m tr, disc_run parse to_vec reachable hA = Ok (m, tr) /\ map snd tr = [[DStore (a 120); DStore (a 121)]; [DSend 7 ask]]) /\
  (exists m tr, disc_run parse to_vec reachable hB = Ok (m, tr) /\
     map snd tr = [[DClose 5]; [DSend 6 news]; []; [DStore (a 101); DReuse (a 101); DSend 5 answer]; []; []]).
Proof.
  cbv zeta. split.
  { intros n l. split; [rewrite take_length; lia|]. intros x H. apply elem_of_take in H as (i & H & _). apply elem_of_list_lookup_2 in H. exact H. }
  split; [repeat constructor; discriminate|]. split.
  { repeat constructor. intros x i p H. apply elem_of_list_singleton in H as ->. intros E. injection E as _ <-. reflexivity. }
  split; (eexists _, _; split; [vm_compute; reflexivity|vm_compute; reflexivity]).
Qed.

Print Assumptions C75_polite.
Print Assumptions C75_close.
Print Assumptions C75_close_only_received.
Print Assumptions C75_answer.
Print Assumptions C75_answered.
Print Assumptions C75_learn.
Print Assumptions C75_learn_all.
Print Assumptions C75_spread.
Print Assumptions C75_no_panic.
Print Assumptions C75_honest.
Print Assumptions C75_example.
