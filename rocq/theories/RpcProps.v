(** C45: responses reach exactly their caller, in every interleaving of calls, responses and time-outs. *)
From Verif Require Import Bytes TxModel NetModel.
From stdpp Require Import base gmap list.
From Coq Require Import Lia.
#[local] Open Scope N_scope.

Definition ckey (k : call) : N * N := (c_sid k, c_rid k).
Definition rkey (t : resp) : N * N := (r_sid t, r_rid t).

(* ---- lookups in updated lists ---- *)
Lemma alter_inv {A} (f : A -> A) i (l : list A) j y :
  alter f i l !! j = Some y -> exists x, l !! j = Some x /\ y = (if decide (i = j) then f x else x).
Proof.
  destruct (decide (i = j)) as [->|Hne].
  - rewrite list_lookup_alter. destruct (l !! j) as [x|] eqn:E; cbn; [|done]. intros [= <-]. by exists x.
  - rewrite list_lookup_alter_ne by done. intros H. by exists y.
Qed.
Lemma alter_at {A} (f : A -> A) i (l : list A) j x :
  l !! j = Some x -> alter f i l !! j = Some (if decide (i = j) then f x else x).
Proof.
  intros H. destruct (decide (i = j)) as [->|Hne].
  - by rewrite list_lookup_alter, H.
  - by rewrite list_lookup_alter_ne by done.
Qed.
Lemma drop_inv o calls c k' :
  drop_sender o calls !! c = Some k' ->
  exists k, calls !! c = Some k /\ k' = (if decide (o = Some c) then set_res Dropped k else k).
Proof.
  destruct o as [c0|]; cbn [drop_sender].
  - intros (k & Hk & ->)%alter_inv. exists k. split; [done|].
    destruct (decide (c0 = c)) as [->|]; [by rewrite decide_True|]. rewrite decide_False; congruence.
  - intros H. exists k'. split; [done|]. by rewrite decide_False.
Qed.
Lemma drop_at o calls c k :
  calls !! c = Some k ->
  drop_sender o calls !! c = Some (if decide (o = Some c) then set_res Dropped k else k).
Proof.
  intros H. destruct o as [c0|]; cbn [drop_sender].
  - rewrite (alter_at _ _ _ _ _ H). destruct (decide (c0 = c)) as [->|]; [by rewrite decide_True|].
    rewrite decide_False; congruence.
  - by rewrite decide_False.
Qed.
Lemma drop_length o calls : length (drop_sender o calls) = length calls.
Proof. destruct o; [apply alter_length|done]. Qed.

Lemma set_res_key x k : ckey (set_res x k) = ckey k.
Proof. unfold set_res. by destruct (c_res k). Qed.
Lemma set_res_pc x k : c_pc (set_res x k) = c_pc k.
Proof. unfold set_res. by destruct (c_res k). Qed.
Lemma set_res_some x k : c_res (set_res x k) <> None.
Proof. unfold set_res. destruct (c_res k) eqn:E; [by rewrite E|done]. Qed.
Lemma set_res_val x k : c_res (set_res x k) = match c_res k with Some y => Some y | None => Some x end.
Proof. unfold set_res. destruct (c_res k) eqn:E; [by rewrite E|done]. Qed.

(* ---- the invariant ---- *)
Record rinv (s : rstate) : Prop := {
  i_map : forall key c, rs_map s !! key = Some c ->
            exists k, rs_calls s !! c = Some k /\ ckey k = key /\ c_pc k <> PNew;
  i_wait : forall c k, rs_calls s !! c = Some k -> c_pc k = PWait -> c_res k = None ->
            rs_map s !! ckey k = Some c;
  i_got : forall c k r, rs_calls s !! c = Some k -> c_res k = Some (Got r) ->
            exists t, rs_resps s !! r = Some t /\ rkey t = ckey k /\ r_pc t = RFinished;
  i_new : forall c k, rs_calls s !! c = Some k -> c_pc k = PNew -> c_res k = None;
  i_past : forall c k, rs_calls s !! c = Some k -> c_pc k <> PNew -> c_pc k <> PWait -> c_res k <> None;
  i_once : forall c1 c2 k1 k2 r, rs_calls s !! c1 = Some k1 -> rs_calls s !! c2 = Some k2 ->
            c_res k1 = Some (Got r) -> c_res k2 = Some (Got r) -> c1 = c2;
  i_next : rs_next s = N.of_nat (length (rs_calls s)) mod 2 ^ 64;
  i_rid : forall c k, rs_calls s !! c = Some k -> c_rid k = N.of_nat c mod 2 ^ 64 }.

Lemma rinv_init : rinv rinit.
Proof. split; cbn; try done; intros; set_solver. Qed.

(** Steps that change only the position of one call, which keep its key and result. *)
Lemma rinv_pc s c k p :
  rinv s -> rs_calls s !! c = Some k -> p <> PNew ->
  (p = PWait -> c_pc k = PWait) -> (p <> PWait -> c_res k <> None) ->
  rinv (RState (rs_next s) (rs_map s) (alter (set_cpc p) c (rs_calls s)) (rs_resps s)).
Proof.
  intros H Hc Hp Hw Hr. split; cbn [rs_calls rs_map rs_resps rs_next].
  - intros key c' Hm. destruct (i_map s H _ _ Hm) as (k' & Hk' & Hkey & Hn).
    exists (if decide (c = c') then set_cpc p k' else k').
    split; [by apply alter_at|]. by destruct (decide (c = c')).
  - intros c' k' (k0 & Hk0 & ->)%alter_inv. destruct (decide (c = c')) as [<-|]; cbn [set_cpc c_pc c_res ckey c_sid c_rid].
    + intros -> Hn. replace k0 with k in * by congruence. change (rs_map s !! ckey k = Some c). apply (i_wait s H); auto.
    + apply (i_wait s H); done.
  - intros c' k' r (k0 & Hk0 & ->)%alter_inv Hg.
    assert (Hg' : c_res k0 = Some (Got r)) by (by destruct (decide (c = c'))).
    destruct (i_got s H _ _ _ Hk0 Hg') as (t & ? & E & ?). exists t. split; [done|]. split; [|done].
    rewrite E. by destruct (decide (c = c')).
  - intros c' k' (k0 & Hk0 & ->)%alter_inv. destruct (decide (c = c')); [done|]. apply (i_new s H _ _ Hk0).
  - intros c' k' (k0 & Hk0 & ->)%alter_inv. destruct (decide (c = c')) as [<-|]; cbn [set_cpc c_pc c_res].
    + replace k0 with k in * by congruence. auto.
    + apply (i_past s H _ _ Hk0).
  - intros c1 c2 k1 k2 r (k1' & Hk1 & ->)%alter_inv (k2' & Hk2 & ->)%alter_inv H1 H2.
    apply (i_once s H c1 c2 k1' k2' r); [done|done| |]; [by destruct (decide (c = c1))|by destruct (decide (c = c2))].
  - rewrite alter_length. apply (i_next s H).
  - intros c' k' (k0 & Hk0 & ->)%alter_inv. rewrite <- (i_rid s H _ _ Hk0). by destruct (decide (c = c')).
Qed.

(** Steps that change only the position of one response. *)
Lemma rinv_rpc s r t p :
  rinv s -> rs_resps s !! r = Some t -> r_pc t <> RFinished ->
  rinv (RState (rs_next s) (rs_map s) (rs_calls s) (alter (set_rpc p) r (rs_resps s))).
Proof.
  intros H Hr Hp. split; cbn [rs_calls rs_map rs_resps rs_next]; try apply H.
  intros c k r' Hk Hg. destruct (i_got s H _ _ _ Hk Hg) as (t' & Ht & E & Hf).
  exists t'. split; [|done]. rewrite (alter_at _ _ _ _ _ Ht). rewrite decide_False; [done|]. intros ->. congruence.
Qed.

(** Removing a key from the map while the call that held it gets the result [x]. *)
Lemma rinv_take s key x :
  rinv s ->
  (forall r, x = Got r -> exists t, rs_resps s !! r = Some t /\ rkey t = key /\ r_pc t = RFinished) ->
  (forall r c k, x = Got r -> rs_calls s !! c = Some k -> c_res k <> Some (Got r)) ->
  rinv (RState (rs_next s) (delete key (rs_map s))
          (match rs_map s !! key with Some c => alter (set_res x) c (rs_calls s) | None => rs_calls s end) (rs_resps s)).
Proof.
  intros H Hx Hfresh. destruct (rs_map s !! key) as [c|] eqn:Em.
  2:{ rewrite delete_notin by done. destruct s; exact H. }
  destruct (i_map s H _ _ Em) as (k & Hk & Hkey & Hn).
  split; cbn [rs_calls rs_map rs_resps rs_next].
  - intros key' c' [Hne Hm]%lookup_delete_Some. destruct (i_map s H _ _ Hm) as (k' & Hk' & Hkey' & Hn').
    exists (if decide (c = c') then set_res x k' else k'). split; [by apply alter_at|].
    destruct (decide (c = c')); [|done]. by rewrite set_res_key, set_res_pc.
  - intros c' k' (k0 & Hk0 & ->)%alter_inv. destruct (decide (c = c')) as [<-|Hne].
    + intros _ Hnone. by apply set_res_some in Hnone.
    + intros Hw Hnone. apply lookup_delete_Some. pose proof (i_wait s H _ _ Hk0 Hw Hnone) as Hm. split; [|done].
      intros ->. rewrite Em in Hm. congruence.
  - intros c' k' r (k0 & Hk0 & ->)%alter_inv. destruct (decide (c = c')) as [<-|Hne].
    + rewrite set_res_val, set_res_key. destruct (c_res k0) as [y|] eqn:Ey.
      * intros [= ->]. apply (i_got s H _ _ _ Hk0 Ey).
      * intros [= ->]. destruct (Hx r eq_refl) as (t & Ht & E & Hf). exists t. split; [done|]. split; [|done].
        rewrite E. by replace k0 with k in * by congruence.
    + apply (i_got s H _ _ _ Hk0).
  - intros c' k' (k0 & Hk0 & ->)%alter_inv. destruct (decide (c = c')) as [<-|Hne].
    + rewrite set_res_pc. intros Hp. replace k0 with k in * by congruence. done.
    + apply (i_new s H _ _ Hk0).
  - intros c' k' (k0 & Hk0 & ->)%alter_inv. destruct (decide (c = c')) as [<-|Hne].
    + intros _ _. apply set_res_some.
    + apply (i_past s H _ _ Hk0).
  - intros c1 c2 k1 k2 r (k1' & Hk1 & ->)%alter_inv (k2' & Hk2 & ->)%alter_inv.
    assert (Hcase : forall c' k', rs_calls s !! c' = Some k' ->
              c_res (if decide (c = c') then set_res x k' else k') = Some (Got r) ->
              c_res k' = Some (Got r) \/ (c' = c /\ x = Got r)).
    { intros c' k' Hk'. destruct (decide (c = c')) as [<-|]; [|by left]. rewrite set_res_val.
      destruct (c_res k'); [by left|]. intros [= ->]. by right. }
    intros G1 G2. destruct (Hcase _ _ Hk1 G1) as [G1'|[-> E1]], (Hcase _ _ Hk2 G2) as [G2'|[-> E2]].
    + by apply (i_once s H c1 c2 k1' k2' r).
    + by destruct (Hfresh _ _ _ E2 Hk1).
    + by destruct (Hfresh _ _ _ E1 Hk2).
    + done.
  - rewrite alter_length. apply (i_next s H).
  - intros c' k' (k0 & Hk0 & ->)%alter_inv. rewrite <- (i_rid s H _ _ Hk0).
    destruct (decide (c = c')); [|done]. unfold set_res. by destruct (c_res k0).
Qed.

Lemma mod_succ (n : nat) : ((N.of_nat n) mod 2 ^ 64 + 1) mod 2 ^ 64 = N.of_nat (n + 1) mod 2 ^ 64.
Proof. rewrite N.add_mod_idemp_l by done. f_equal. lia. Qed.

Lemma rinv_step s e : rinv s -> rinv (rstep s e).
Proof.
  intros H. destruct e as [sid|c|c|c|c|sid rid body|r]; cbn [rstep].
  - (* ECall *)
    split; cbn [rs_calls rs_map rs_resps rs_next].
    + intros key c Hm. destruct (i_map s H _ _ Hm) as (k & Hk & ? & ?). exists k. split; [|done]. by apply lookup_app_l_Some.
    + intros c k [Hk|[_ Hk]]%lookup_app_Some; [apply (i_wait s H _ _ Hk)|].
      apply list_lookup_singleton_Some in Hk as [_ <-]. done.
    + intros c k r [Hk|[_ Hk]]%lookup_app_Some; [apply (i_got s H _ _ _ Hk)|].
      apply list_lookup_singleton_Some in Hk as [_ <-]. done.
    + intros c k [Hk|[_ Hk]]%lookup_app_Some; [apply (i_new s H _ _ Hk)|].
      apply list_lookup_singleton_Some in Hk as [_ <-]. done.
    + intros c k [Hk|[_ Hk]]%lookup_app_Some; [apply (i_past s H _ _ Hk)|].
      apply list_lookup_singleton_Some in Hk as [_ <-]. done.
    + intros c1 c2 k1 k2 r [Hk1|[_ Hk1]]%lookup_app_Some [Hk2|[_ Hk2]]%lookup_app_Some.
      * apply (i_once s H _ _ _ _ _ Hk1 Hk2).
      * apply list_lookup_singleton_Some in Hk2 as [_ <-]. done.
      * apply list_lookup_singleton_Some in Hk1 as [_ <-]. done.
      * apply list_lookup_singleton_Some in Hk1 as [_ <-]. done.
    + rewrite (i_next s H), app_length. apply mod_succ.
    + intros c k [Hk|[Hl Hk]]%lookup_app_Some; [apply (i_rid s H _ _ Hk)|].
      apply list_lookup_singleton_Some in Hk as [Hc <-]. cbn [c_rid]. rewrite (i_next s H). do 2 f_equal. lia.
  - (* EInsert *)
    destruct (rs_calls s !! c) as [k|] eqn:Hc; [|done]. destruct (c_pc k) eqn:Hp; try done.
    fold (ckey k).
    assert (Hold : rs_map s !! ckey k <> Some c).
    { intros (k' & Hk' & _ & ?)%(i_map s H). congruence. }
    split; cbn [rs_calls rs_map rs_resps rs_next].
    + intros key c' [[<- <-]|[Hne Hm]]%lookup_insert_Some.
      * exists (set_cpc PWait k). split; [|done]. rewrite (alter_at _ _ _ c k); [by rewrite decide_True|].
        rewrite (drop_at _ _ _ _ Hc). by rewrite decide_False.
      * destruct (i_map s H _ _ Hm) as (k' & Hk' & Hkey & Hn).
        assert (c <> c') by (intros <-; congruence).
        exists (if decide (rs_map s !! ckey k = Some c') then set_res Dropped k' else k').
        split.
        { rewrite (alter_at _ _ _ c' _ (drop_at _ _ _ _ Hk')). by rewrite decide_False. }
        destruct (decide (rs_map s !! ckey k = Some c')); [|done]. by rewrite set_res_key, set_res_pc.
    + intros c' k' (k1 & (k0 & Hk0 & ->)%drop_inv & ->)%alter_inv.
      destruct (decide (c = c')) as [<-|Hne].
      * intros _ _. rewrite decide_False by done. replace k0 with k by congruence. apply lookup_insert.
      * destruct (decide (rs_map s !! ckey k = Some c')) as [Hd|Hd].
        { intros _ Hnone. by apply set_res_some in Hnone. }
        intros Hw Hnone. pose proof (i_wait s H _ _ Hk0 Hw Hnone) as Hm.
        rewrite lookup_insert_ne; [done|]. intros E. rewrite E in Hd. done.
    + intros c' k' r (k1 & (k0 & Hk0 & ->)%drop_inv & ->)%alter_inv Hg.
      assert (c_res k0 = Some (Got r) /\ ckey (if decide (c = c') then set_cpc PWait (if decide (rs_map s !! ckey k = Some c') then set_res Dropped k0 else k0) else if decide (rs_map s !! ckey k = Some c') then set_res Dropped k0 else k0) = ckey k0) as [Hg' ->].
      { destruct (decide (c = c')), (decide (rs_map s !! ckey k = Some c')); cbn [set_cpc c_res] in Hg;
          try rewrite set_res_val in Hg; (split; [try (by destruct (c_res k0)); done|]); unfold ckey; cbn [set_cpc c_sid c_rid]; try (fold (ckey (set_res Dropped k0)); rewrite set_res_key); done. }
      apply (i_got s H _ _ _ Hk0 Hg').
    + intros c' k' (k1 & (k0 & Hk0 & ->)%drop_inv & ->)%alter_inv.
      destruct (decide (c = c')); [done|].
      destruct (decide (rs_map s !! ckey k = Some c')) as [Hd|Hd]; [|apply (i_new s H _ _ Hk0)].
      rewrite set_res_pc. intros Hn. destruct (i_map s H _ _ Hd) as (k2 & Hk2 & _ & ?). congruence.
    + intros c' k' (k1 & (k0 & Hk0 & ->)%drop_inv & ->)%alter_inv.
      destruct (decide (c = c')); [done|].
      destruct (decide (rs_map s !! ckey k = Some c')) as [Hd|Hd]; [intros _ _; apply set_res_some|apply (i_past s H _ _ Hk0)].
    + assert (Hback : forall c' k' r, alter (set_cpc PWait) c (drop_sender (rs_map s !! ckey k) (rs_calls s)) !! c' = Some k' ->
               c_res k' = Some (Got r) -> exists k0, rs_calls s !! c' = Some k0 /\ c_res k0 = Some (Got r)).
      { intros c' k' r (k1 & (k0 & Hk0 & ->)%drop_inv & ->)%alter_inv Hg. exists k0. split; [done|].
        destruct (decide (c = c')), (decide (rs_map s !! ckey k = Some c')); cbn [set_cpc c_res] in Hg;
          try rewrite set_res_val in Hg; try (by destruct (c_res k0)); done. }
      intros c1 c2 k1 k2 r H1 H2 G1 G2.
      destruct (Hback _ _ _ H1 G1) as (k1' & ? & ?). destruct (Hback _ _ _ H2 G2) as (k2' & ? & ?).
      by apply (i_once s H c1 c2 k1' k2' r).
    + rewrite alter_length, drop_length. apply (i_next s H).
    + intros c' k' (k1 & (k0 & Hk0 & ->)%drop_inv & ->)%alter_inv. rewrite <- (i_rid s H _ _ Hk0).
      destruct (decide (c = c')), (decide (rs_map s !! ckey k = Some c')); cbn [set_cpc c_rid]; try done; unfold set_res; by destruct (c_res k0).
  - (* ETimeout *)
    destruct (rs_calls s !! c) as [k|] eqn:Hc; [|done]. destruct (c_pc k) eqn:Hp; try done. destruct (c_res k) eqn:Hr; [done|].
    split; cbn [rs_calls rs_map rs_resps rs_next].
    + intros key c' Hm. destruct (i_map s H _ _ Hm) as (k' & Hk' & Hkey & Hn).
      eexists. split; [exact (alter_at _ _ _ _ _ Hk')|]. destruct (decide (c = c')); [|done]. split; [|done].
      rewrite <- Hkey. exact (set_res_key TimedOut k').
    + intros c' k' (k0 & Hk0 & ->)%alter_inv. destruct (decide (c = c')); [done|]. apply (i_wait s H _ _ Hk0).
    + intros c' k' r (k0 & Hk0 & ->)%alter_inv. destruct (decide (c = c')) as [<-|]; [|apply (i_got s H _ _ _ Hk0)].
      cbn [set_cpc c_res]. rewrite set_res_val. replace k0 with k by congruence. by rewrite Hr.
    + intros c' k' (k0 & Hk0 & ->)%alter_inv. destruct (decide (c = c')); [done|]. apply (i_new s H _ _ Hk0).
    + intros c' k' (k0 & Hk0 & ->)%alter_inv. destruct (decide (c = c')); [|apply (i_past s H _ _ Hk0)].
      intros _ _. cbn [set_cpc c_res]. apply set_res_some.
    + assert (Hback : forall c' k' r, alter (fun k0 => set_cpc PGuard (set_res TimedOut k0)) c (rs_calls s) !! c' = Some k' ->
               c_res k' = Some (Got r) -> exists k0, rs_calls s !! c' = Some k0 /\ c_res k0 = Some (Got r)).
      { intros c' k' r (k0 & Hk0 & ->)%alter_inv Hg. exists k0. split; [done|].
        destruct (decide (c = c')); [|done]. cbn [set_cpc c_res] in Hg. rewrite set_res_val in Hg. by destruct (c_res k0). }
      intros c1 c2 k1 k2 r H1 H2 G1 G2.
      destruct (Hback _ _ _ H1 G1) as (k1' & ? & ?). destruct (Hback _ _ _ H2 G2) as (k2' & ? & ?).
      by apply (i_once s H c1 c2 k1' k2' r).
    + rewrite alter_length. apply (i_next s H).
    + intros c' k' (k0 & Hk0 & ->)%alter_inv. rewrite <- (i_rid s H _ _ Hk0).
      destruct (decide (c = c')); [|done]. cbn [set_cpc c_rid]. unfold set_res. by destruct (c_res k0).
  - (* EReturn *)
    destruct (rs_calls s !! c) as [k|] eqn:Hc; [|done]. destruct (c_pc k) eqn:Hp; try done. destruct (c_res k) eqn:Hr; [|done].
    eapply rinv_pc; try done. by rewrite Hr.
  - (* EGuard *)
    destruct (rs_calls s !! c) as [k|] eqn:Hc; [|done]. fold (ckey k). destruct (c_pc k) eqn:Hp; try done.
    + assert (Hr : c_res k <> None) by (apply (i_past s H _ _ Hc); congruence).
      destruct (rs_map s !! ckey k); eapply rinv_pc; done.
    + assert (Hr : c_res k <> None) by (apply (i_past s H _ _ Hc); congruence).
      assert (Ht : rinv (RState (rs_next s) (delete (ckey k) (rs_map s)) (drop_sender (rs_map s !! ckey k) (rs_calls s)) (rs_resps s))).
      { unfold drop_sender. by apply rinv_take. }
      eapply (rinv_pc _ c) in Ht; [exact Ht| |done|done|].
      * cbn [rs_calls]. exact (drop_at _ _ _ _ Hc).
      * intros _. destruct (decide _); [apply set_res_some|done].
  - (* ERecv *)
    split; cbn [rs_calls rs_map rs_resps rs_next]; try apply H.
    intros c k r Hk Hg. destruct (i_got s H _ _ _ Hk Hg) as (t & Ht & ?). exists t. split; [|done]. by apply lookup_app_l_Some.
  - (* EResp *)
    destruct (rs_resps s !! r) as [t|] eqn:Hr; [|done]. fold (rkey t).
    destruct (r_pc t) eqn:Hp; [| | |done].
    + destruct (rs_map s !! rkey t); (eapply rinv_rpc; [done..|congruence]).
    + destruct (rs_map s !! rkey t); (eapply rinv_rpc; [done..|congruence]).
    + assert (Hf : rinv (RState (rs_next s) (rs_map s) (rs_calls s) (alter (set_rpc RFinished) r (rs_resps s)))).
      { eapply rinv_rpc; [done..|congruence]. }
      assert (Hnot : forall c k, rs_calls s !! c = Some k -> c_res k <> Some (Got r)).
      { intros c k Hk Hg. destruct (i_got s H _ _ _ Hk Hg) as (t' & Ht' & _ & ?). congruence. }
      eapply (rinv_take _ (rkey t) (Got r)) in Hf.
      * cbn [rs_next rs_map rs_calls rs_resps] in Hf. destruct (rs_map s !! rkey t) as [c|] eqn:Em; [exact Hf|].
        rewrite delete_notin in Hf by done. exact Hf.
      * intros r' [= <-]. exists (set_rpc RFinished t). cbn [rs_resps]. split; [|done].
        rewrite (alter_at _ _ _ _ _ Hr). by rewrite decide_True.
      * intros r' c k [= <-]. cbn [rs_calls]. apply Hnot.
Qed.

Lemma rinv_run h : rinv (rrun h).
Proof. induction h as [|e h IH]; [apply rinv_init|]. by apply rinv_step. Qed.

(* ---------------------------------------------------------------------- *)
(** * C45 *)

(** A call that returns a response returns one that arrived on its own session under its own id. *)
Theorem C45_same_key h c k r :
  rs_calls (rrun h) !! c = Some k -> c_res k = Some (Got r) ->
  exists t, rs_resps (rrun h) !! r = Some t /\ r_sid t = c_sid k /\ r_rid t = c_rid k.
Proof.
  intros Hk Hg. destruct (i_got _ (rinv_run h) _ _ _ Hk Hg) as (t & Ht & E & _). exists t. split; [done|].
  unfold rkey, ckey in E. by injection E.
Qed.

(** No response is delivered to two calls. *)
Theorem C45_once h c1 c2 k1 k2 r :
  rs_calls (rrun h) !! c1 = Some k1 -> rs_calls (rrun h) !! c2 = Some k2 ->
  c_res k1 = Some (Got r) -> c_res k2 = Some (Got r) -> c1 = c2.
Proof. apply (i_once _ (rinv_run h)). Qed.

(** What a call received is never replaced, and its session and id never change. *)
Lemma rstep_stable s e c k :
  rs_calls s !! c = Some k ->
  exists k', rs_calls (rstep s e) !! c = Some k' /\ ckey k' = ckey k /\ (forall x, c_res k = Some x -> c_res k' = Some x) /\
             (c_pc k <> PNew -> c_pc k' <> PNew) /\ (c_pc k = PWait -> c_res k' = None -> c_pc k' = PWait).
Proof.
  intros Hk.
  assert (Hset : forall x, ckey (set_res x k) = ckey k /\ (forall y, c_res k = Some y -> c_res (set_res x k) = Some y)).
  { intros x. split; [apply set_res_key|]. intros y E. rewrite set_res_val. by rewrite E. }
  destruct e as [sid|c0|c0|c0|c0|sid rid body|r]; cbn [rstep].
  - exists k. split; [|done]. by apply lookup_app_l_Some.
  - destruct (rs_calls s !! c0) as [k0|] eqn:Hc0; [|by exists k]. destruct (c_pc k0) eqn:Hp; try (by exists k).
    cbn [rs_calls]. eexists. split; [by apply alter_at, drop_at|].
    destruct (decide (c0 = c)) as [->|Hne].
    + replace k0 with k in * by congruence. unfold ckey; cbn [set_cpc c_sid c_rid c_res c_pc].
      split; [|split; [|split; [done|done]]].
      * destruct (decide _); [apply (set_res_key Dropped k)|done].
      * intros x E. destruct (decide _); [by apply Hset|done].
    + destruct (decide _); [|done]. split; [apply Hset|]. split; [apply Hset|]. rewrite set_res_pc. done.
  - destruct (rs_calls s !! c0) as [k0|] eqn:Hc0; [|by exists k]. destruct (c_pc k0) eqn:Hp; try (by exists k).
    destruct (c_res k0) eqn:Hr; [by exists k|].
    cbn [rs_calls]. eexists. split; [by apply alter_at|].
    destruct (decide (c0 = c)) as [->|Hne]; [|done].
    split; [apply (set_res_key TimedOut k)|]. cbn [set_cpc c_res c_pc]. split; [apply Hset|]. split; [done|].
    intros _ Hn. by apply set_res_some in Hn.
  - destruct (rs_calls s !! c0) as [k0|] eqn:Hc0; [|by exists k]. destruct (c_pc k0) eqn:Hp; try (by exists k).
    destruct (c_res k0) eqn:Hr; [|by exists k].
    cbn [rs_calls]. eexists. split; [by apply alter_at|].
    destruct (decide (c0 = c)) as [->|Hne]; [|done].
    split; [done|]. cbn [set_cpc c_res c_pc]. split; [done|]. split; [done|]. congruence.
  - destruct (rs_calls s !! c0) as [k0|] eqn:Hc0; [|by exists k]. destruct (c_pc k0) eqn:Hp; try (by exists k).
    + destruct (rs_map s !! _); cbn [rs_calls]; (eexists; split; [by apply alter_at|];
        destruct (decide (c0 = c)) as [->|Hne]; [|done]; split; [done|]; cbn [set_cpc c_res c_pc]; split; [done|]; split; [done|]; congruence).
    + cbn [rs_calls]. eexists. split; [by apply alter_at, drop_at|].
      destruct (decide (c0 = c)) as [->|Hne].
      * replace k0 with k in * by congruence. unfold ckey; cbn [set_cpc c_sid c_rid c_res c_pc].
        split; [|split; [|split; [done|congruence]]].
        { destruct (decide _); [apply (set_res_key Dropped k)|done]. }
        intros x E. destruct (decide _); [by apply Hset|done].
      * destruct (decide _); [|done]. split; [apply Hset|]. split; [apply Hset|]. rewrite set_res_pc. done.
  - by exists k.
  - destruct (rs_resps s !! r) as [t|]; [|by exists k].
    destruct (r_pc t); [..|by exists k]; destruct (rs_map s !! _) as [c0|]; cbn [rs_calls]; try (by exists k).
    eexists. split; [by apply alter_at|].
    destruct (decide (c0 = c)) as [->|Hne]; [|done]. split; [apply Hset|]. split; [apply Hset|]. rewrite set_res_pc. done.
Qed.

Theorem C45_final h1 h2 c k x :
  rs_calls (rrun h1) !! c = Some k -> c_res k = Some x ->
  exists k', rs_calls (rrun (h2 ++ h1)) !! c = Some k' /\ c_res k' = Some x /\ c_sid k' = c_sid k /\ c_rid k' = c_rid k.
Proof.
  intros Hk Hx. induction h2 as [|e h2 (k' & Hk' & Hx' & Hs & Hr)]; [by exists k|].
  destruct (rstep_stable _ e _ _ Hk') as (k2 & Hk2 & E & Hres & _). exists k2. split; [exact Hk2|].
  unfold ckey in E. injection E as E1 E2. rewrite E1, E2. auto.
Qed.

(** A response that is handled while a call with its session and id is waiting ends that wait: once the response's task has finished,
    the call has an outcome. *)
Definition unfinished (s : rstate) (r : nat) : Prop :=
  forall t, rs_resps s !! r = Some t -> r_pc t <> RFinished.

Theorem C45_completed h1 h2 c k r t :
  rs_calls (rrun h1) !! c = Some k -> c_pc k = PWait -> unfinished (rrun h1) r ->
  rs_resps (rrun (h2 ++ h1)) !! r = Some t -> r_sid t = c_sid k -> r_rid t = c_rid k -> r_pc t = RFinished ->
  exists k' x, rs_calls (rrun (h2 ++ h1)) !! c = Some k' /\ c_res k' = Some x.
Proof.
  intros Hk Hw Hu.
  assert (Hgen : forall t, rs_resps (rrun (h2 ++ h1)) !! r = Some t -> r_sid t = c_sid k -> r_rid t = c_rid k ->
            exists k', rs_calls (rrun (h2 ++ h1)) !! c = Some k' /\ ckey k' = ckey k /\
              ((exists x, c_res k' = Some x) \/ (c_res k' = None /\ c_pc k' = PWait /\ r_pc t <> RFinished))).
  2:{ intros Ht Hs Hr Hf. destruct (Hgen t Ht Hs Hr) as (k' & Hk' & _ & [(x & Hx)|(_ & _ & ?)]); [by exists k', x|done]. }
  clear t. induction h2 as [|e h2 IH].
  - intros t Ht _ _. exists k. split; [done|]. split; [done|].
    destruct (c_res k) as [x|]; [left; by exists x|]. right. split; [done|]. split; [done|]. by apply Hu.
  - set (s := rrun (h2 ++ h1)) in *. change (rrun ((e :: h2) ++ h1)) with (rstep s e).
    pose proof (rinv_run (h2 ++ h1)) as Hinv. fold s in Hinv.
    intros t Ht Hs Hr.
    (* the call before this step *)
    assert (Hpre : exists k', rs_calls s !! c = Some k' /\ ckey k' = ckey k /\
               ((exists x, c_res k' = Some x) \/
                (c_res k' = None /\ c_pc k' = PWait /\ forall t0, rs_resps s !! r = Some t0 -> r_sid t0 = c_sid k -> r_rid t0 = c_rid k -> r_pc t0 <> RFinished))).
    { destruct (rs_resps s !! r) as [t0|] eqn:Ht0.
      - assert (Hsame : r_sid t0 = r_sid t /\ r_rid t0 = r_rid t).
        { revert Ht. destruct e as [sid|c0|c0|c0|c0|sid rid body|r0]; cbn [rstep].
          - cbn [rs_resps]. intros Ht. by replace t with t0 by congruence.
          - repeat case_match; cbn [rs_resps]; intros Ht; by replace t with t0 by congruence.
          - repeat case_match; cbn [rs_resps]; intros Ht; by replace t with t0 by congruence.
          - repeat case_match; cbn [rs_resps]; intros Ht; by replace t with t0 by congruence.
          - repeat case_match; cbn [rs_resps]; intros Ht; by replace t with t0 by congruence.
          - cbn [rs_resps]. rewrite (lookup_app_l_Some _ _ _ _ Ht0). by intros [= <-].
          - repeat case_match; cbn [rs_resps]; try (intros Ht; by replace t with t0 by congruence);
              (intros (t1 & Ht1 & ->)%alter_inv; replace t1 with t0 by congruence; by destruct (decide _)). }
        destruct (IH t0 eq_refl) as (k' & ? & ? & [?|(? & ? & ?)]); [by destruct Hsame; congruence..| |].
        { exists k'. auto. }
        exists k'. split; [done|]. split; [done|]. right. split; [done|]. split; [done|]. intros t1 [= <-]. done.
      - (* the response arrives with this step; the call is as it was by stability *)
        assert (Hst : forall h3, rs_resps (rrun (h3 ++ h1)) !! r = None -> exists k', rs_calls (rrun (h3 ++ h1)) !! c = Some k' /\ ckey k' = ckey k /\
                   ((exists x, c_res k' = Some x) \/ (c_res k' = None /\ c_pc k' = PWait))).
        { clear -Hk Hw. induction h3 as [|e3 h3 IH3]; intros Hn.
          - exists k. split; [done|]. split; [done|]. destruct (c_res k) as [x|]; [left; by exists x|by right].
          - assert (Hn3 : rs_resps (rrun (h3 ++ h1)) !! r = None).
            { revert Hn. change (rrun ((e3 :: h3) ++ h1)) with (rstep (rrun (h3 ++ h1)) e3).
              rewrite !lookup_ge_None. intros Hn. apply Nat.le_trans with (2 := Hn).
              destruct e3; cbn [rstep]; repeat case_match; cbn [rs_resps]; rewrite ?app_length, ?alter_length; lia. }
            destruct (IH3 Hn3) as (k' & Hk' & E & Hor).
            destruct (rstep_stable _ e3 _ _ Hk') as (k2 & Hk2 & E2 & Hres & _ & Hwt).
            exists k2. split; [exact Hk2|]. split; [congruence|].
            destruct Hor as [(x & Hx)|[Hx Hpw]]; [left; exists x; auto|].
            destruct (c_res k2) as [x|] eqn:E3; [left; by exists x|]. right. auto. }
        destruct (Hst h2 Ht0) as (k' & ? & ? & [?|[? ?]]); exists k'; (split; [done|]; split; [done|]); [by left|].
        right. split; [done|]. split; [done|]. done. }
    clear IH. destruct Hpre as (k' & Hk' & Hkey & Hor).
    destruct (rstep_stable s e _ _ Hk') as (k2 & Hk2 & E2 & Hres & _ & Hwt).
    exists k2. split; [done|]. split; [congruence|].
    destruct Hor as [(x & Hx)|(Hnone & Hpw & Hnf)]; [left; exists x; auto|].
    destruct (c_res k2) as [x|] eqn:E3; [left; by exists x|]. right. split; [done|]. split; [auto|].
    (* the call is still waiting, so the response cannot have finished in this step *)
    pose proof (i_wait _ Hinv _ _ Hk' Hpw Hnone) as Hm.
    assert (Hkt : rkey t = ckey k') by (rewrite Hkey; unfold rkey, ckey; congruence).
    revert Ht. destruct e as [sid|c0|c0|c0|c0|sid rid body|r0].
    1-5: cbn [rstep]; repeat case_match; cbn [rs_resps]; intros Ht; by apply (Hnf t).
    + cbn [rstep rs_resps]. intros [Ht|[_ Ht]]%lookup_app_Some; [by apply (Hnf t)|].
      apply list_lookup_singleton_Some in Ht as [_ <-]. done.
    + cbn [rstep] in Hk2 |- *. destruct (rs_resps s !! r0) as [t1|] eqn:Ht1.
      2:{ intros Ht. by apply (Hnf t). }
      destruct (decide (r0 = r)) as [->|Hne].
      * intros Ht.
        assert (Hk1 : rkey t1 = ckey k').
        { rewrite <- Hkt. destruct (r_pc t1); repeat case_match; cbn [rs_resps] in Ht;
            try (replace t with t1 by congruence; done);
            (apply alter_inv in Ht as (t2 & Ht2 & ->); replace t2 with t1 by congruence; by destruct (decide _)). }
        assert (Hnf1 : r_pc t1 <> RFinished).
        { apply Hnf; [done| |]; unfold rkey, ckey in *; congruence. }
        fold (rkey t1) in Ht, Hk2. rewrite Hk1, Hm in Ht, Hk2.
        destruct (r_pc t1) eqn:Hp1; cbn [rs_resps rs_calls] in Ht, Hk2; [..|done].
        { apply alter_inv in Ht as (t2 & _ & ->). by rewrite decide_True. }
        { apply alter_inv in Ht as (t2 & _ & ->). by rewrite decide_True. }
        (* taken: the call has the response *)
        apply alter_inv in Hk2 as (k3 & _ & ->). rewrite decide_True in E3 by done. by apply set_res_some in E3.
      * intros Ht. apply (Hnf t); [|done|done]. revert Ht.
        destruct (r_pc t1); repeat case_match; cbn [rs_resps]; try done; rewrite list_lookup_alter_ne by done; done.
Qed.

(** As long as fewer than 2^64 calls have been made, a waiting call is never cut off by another call: it ends with a response or by time-out. *)
Lemma no_drop h :
  N.of_nat (length (rs_calls (rrun h))) <= 2 ^ 64 ->
  forall c k, rs_calls (rrun h) !! c = Some k -> c_res k <> Some Dropped.
Proof.
  induction h as [|e h IH]; [intros _ c k Hk; cbn in Hk; by rewrite lookup_nil in Hk|]. cbn [rrun]. set (s := rrun h) in *.
  pose proof (rinv_run h) as Hinv. fold s in Hinv.
  intros Hlen.
  assert (Hlen' : N.of_nat (length (rs_calls s)) <= 2 ^ 64).
  { apply N.le_trans with (2 := Hlen).
    destruct e; cbn [rstep]; repeat case_match; cbn [rs_calls]; rewrite ?app_length, ?alter_length, ?drop_length; lia. }
  specialize (IH Hlen').
  assert (Huniq : forall c1 c2 k1 k2, rs_calls s !! c1 = Some k1 -> rs_calls s !! c2 = Some k2 -> ckey k1 = ckey k2 -> c1 = c2).
  { intros c1 c2 k1 k2 H1 H2 E. unfold ckey in E. injection E as _ E.
    rewrite (i_rid _ Hinv _ _ H1), (i_rid _ Hinv _ _ H2) in E.
    apply lookup_lt_Some in H1, H2. rewrite !N.mod_small in E by lia. lia. }
  intros c k. destruct e as [sid|c0|c0|c0|c0|sid rid body|r]; cbn [rstep].
  - intros [Hk|[_ Hk]]%lookup_app_Some; [by eapply IH|]. apply list_lookup_singleton_Some in Hk as [_ <-]. done.
  - destruct (rs_calls s !! c0) as [k0|] eqn:Hc0; [|apply IH]. fold (ckey k0). destruct (c_pc k0) eqn:Hp; try (apply IH).
    cbn [rs_calls]. intros (k1 & (k2 & Hk2 & ->)%drop_inv & ->)%alter_inv.
    assert (rs_map s !! ckey k0 <> Some c).
    { intros (k3 & Hk3 & E & Hn)%(i_map _ Hinv). assert (c = c0) as -> by (by eapply Huniq). congruence. }
    destruct (decide (rs_map s !! ckey k0 = Some c)); [done|]. destruct (decide (c0 = c)); cbn [set_cpc c_res]; by eapply IH.
  - destruct (rs_calls s !! c0) as [k0|] eqn:Hc0; [|apply IH]. destruct (c_pc k0) eqn:Hp; try (apply IH).
    destruct (c_res k0); [apply IH|].
    cbn [rs_calls]. intros (k1 & Hk1 & ->)%alter_inv. destruct (decide (c0 = c)); [|by eapply IH].
    cbn [set_cpc c_res]. rewrite set_res_val. destruct (c_res k1) as [y|] eqn:E; [|done]. rewrite <- E. by apply (IH c).
  - destruct (rs_calls s !! c0) as [k0|] eqn:Hc0; [|apply IH]. destruct (c_pc k0) eqn:Hp; try (apply IH).
    destruct (c_res k0); [|apply IH].
    cbn [rs_calls]. intros (k1 & Hk1 & ->)%alter_inv. destruct (decide (c0 = c)); cbn [set_cpc c_res]; by eapply IH.
  - destruct (rs_calls s !! c0) as [k0|] eqn:Hc0; [|apply IH]. fold (ckey k0). destruct (c_pc k0) eqn:Hp; try (apply IH).
    + destruct (rs_map s !! ckey k0); cbn [rs_calls];
        (intros (k1 & Hk1 & ->)%alter_inv; destruct (decide (c0 = c)); cbn [set_cpc c_res]; by eapply IH).
    + cbn [rs_calls]. intros (k1 & (k2 & Hk2 & ->)%drop_inv & ->)%alter_inv.
      assert (Hres : c_res (if decide (rs_map s !! ckey k0 = Some c) then set_res Dropped k2 else k2) <> Some Dropped).
      { destruct (decide _) as [Hd|]; [|by eapply IH].
        destruct (i_map _ Hinv _ _ Hd) as (k3 & Hk3 & E & Hn). assert (c = c0) as -> by (by eapply Huniq).
        replace k2 with k0 by congruence.
        assert (c_res k0 <> None) by (apply (i_past _ Hinv _ _ Hc0); congruence).
        rewrite set_res_val. destruct (c_res k0) as [y|] eqn:Ey; [|done]. rewrite <- Ey. by eapply IH. }
      destruct (decide (c0 = c)); cbn [set_cpc c_res]; exact Hres.
  - apply IH.
  - destruct (rs_resps s !! r) as [t|]; [|apply IH].
    destruct (r_pc t); [..|apply IH]; destruct (rs_map s !! _) as [c0|]; cbn [rs_calls]; try (apply IH).
    intros (k1 & Hk1 & ->)%alter_inv. destruct (decide (c0 = c)); [|by eapply IH].
    rewrite set_res_val. destruct (c_res k1) as [y|] eqn:E; [|done]. rewrite <- E. by eapply IH.
Qed.

Theorem C45_not_cut_off h c k :
  N.of_nat (length (rs_calls (rrun h))) <= 2 ^ 64 -> rs_calls (rrun h) !! c = Some k -> c_res k <> Some Dropped.
Proof. intros H. by apply no_drop. Qed.

(** Consequently an answered call returns a response of its own session and id unless it timed out. *)
Corollary C45_answered h1 h2 c k r t :
  rs_calls (rrun h1) !! c = Some k -> c_pc k = PWait -> unfinished (rrun h1) r ->
  rs_resps (rrun (h2 ++ h1)) !! r = Some t -> r_sid t = c_sid k -> r_rid t = c_rid k -> r_pc t = RFinished ->
  N.of_nat (length (rs_calls (rrun (h2 ++ h1)))) <= 2 ^ 64 ->
  exists k', rs_calls (rrun (h2 ++ h1)) !! c = Some k' /\
    (c_res k' = Some TimedOut \/
     exists r' t', c_res k' = Some (Got r') /\ rs_resps (rrun (h2 ++ h1)) !! r' = Some t' /\ r_sid t' = c_sid k' /\ r_rid t' = c_rid k').
Proof.
  intros Hk Hw Hu Ht Hs Hr Hf Hlen.
  destruct (C45_completed h1 h2 c k r t Hk Hw Hu Ht Hs Hr Hf) as (k' & x & Hk' & Hx).
  exists k'. split; [done|]. destruct x as [r'| |].
  - right. destruct (C45_same_key _ _ _ _ Hk' Hx) as (t' & ? & ? & ?). by exists r', t'.
  - by destruct (C45_not_cut_off _ _ _ Hlen Hk').
  - by left.
Qed.

(** Two calls on two sessions, answered in the opposite order, one late duplicate and one answer from the wrong session. *)
Definition ex_history : list revent :=
  [EResp 3; EResp 2; EResp 2; EResp 2; EResp 1; EResp 1; EResp 1; EResp 0;
   ERecv 5 1 (RSuccess [9]); ERecv 4 0 (RSuccess [7]); ERecv 5 1 (RSuccess [8]); ERecv 5 0 (RSuccess [6]);
   EInsert 1; EInsert 0; ECall 5; ECall 4].
Example C45_nontrivial :
  option_map c_res (rs_calls (rrun ex_history) !! 0%nat) = Some (Some (Got 2)) /\
  option_map c_res (rs_calls (rrun ex_history) !! 1%nat) = Some (Some (Got 1)) /\
  map r_pc (rs_resps (rrun ex_history)) = [RFinished; RFinished; RFinished; RFinished] /\
  map_to_list (rs_map (rrun ex_history)) = [].
Proof. vm_compute. auto. Qed.

(* ---- id wrap-around ---- *)
Lemma many_calls n h sid :
  rs_map (rrun (repeat (ECall sid) n ++ h)) = rs_map (rrun h) /\ rs_resps (rrun (repeat (ECall sid) n ++ h)) = rs_resps (rrun h) /\
  exists l, rs_calls (rrun (repeat (ECall sid) n ++ h)) = rs_calls (rrun h) ++ l /\ length l = n /\
    (forall k, In k l -> c_sid k = sid /\ c_pc k = PNew /\ c_res k = None).
Proof.
  induction n as [|n (IH1 & IH2 & l & IH3 & IH4 & IH5)].
  - cbn [repeat app]. split; [done|]. split; [done|]. exists []. rewrite app_nil_r. done.
  - cbn [repeat app rrun rstep rs_map rs_resps rs_calls]. split; [done|]. split; [done|].
    exists (l ++ [Call sid (rs_next (rrun (repeat (ECall sid) n ++ h))) None PNew]). split; [by rewrite IH3, app_assoc|].
    split; [rewrite app_length, IH4; cbn; lia|].
    intros k [Hk|[<-|[]]]%in_app_or; [by apply IH5|done].
Qed.

Lemma wrap_drops n :
  N.of_nat n = 2 ^ 64 ->
  exists h k, rs_calls (rrun h) !! 0%nat = Some k /\ c_res k = Some Dropped.
Proof.
  intros En. set (h0 := [EInsert 0; ECall 3]).
  assert (Hn0 : n <> 0%nat) by (intros ->; discriminate).
  pose proof (many_calls n h0 3) as (Hmap & _ & l & Hcalls & Hl & Hall).
  set (s := rrun (repeat (ECall 3) n ++ h0)) in *.
  assert (H0 : rs_calls (rrun h0) = [Call 3 0 None PWait]) by reflexivity.
  assert (Hm0 : rs_map (rrun h0) !! (3, 0) = Some 0%nat) by reflexivity.
  rewrite H0 in Hcalls. rewrite <- Hmap in Hm0.
  assert (Hn : exists k, rs_calls s !! n = Some k).
  { apply lookup_lt_is_Some. rewrite Hcalls, app_length, Hl. cbn [length]. lia. }
  destruct Hn as [k Hk].
  assert (Hin : In k l).
  { rewrite Hcalls in Hk. rewrite lookup_app_r in Hk by (cbn [length]; lia).
    apply elem_of_list_lookup_2 in Hk. by apply elem_of_list_In. }
  destruct (Hall k Hin) as (Hsid & Hpc & Hres).
  pose proof (i_rid _ (rinv_run (repeat (ECall 3) n ++ h0)) _ _ Hk) as Hrid.
  rewrite En, N.mod_same in Hrid by done.
  exists (EInsert n :: repeat (ECall 3) n ++ h0), (Call 3 0 (Some Dropped) PWait).
  split; [|done]. cbn [rrun]. fold s. cbn [rstep]. rewrite Hk, Hpc. cbn [rs_calls]. rewrite Hsid, Hrid, Hm0.
  cbn [drop_sender]. rewrite list_lookup_alter_ne by done. rewrite Hcalls. reflexivity.
Qed.

(** Without the bound on the number of calls the statement fails: after 2^64 further calls the id is used again and the new call
    replaces the waiting one, which then ends without a response and without a time-out. *)
Theorem C45_wrap_refuted :
  exists h k, rs_calls (rrun h) !! 0%nat = Some k /\ c_res k = Some Dropped.
Proof. apply (wrap_drops (N.to_nat (2 ^ 64))). apply N2Nat.id. Qed.

Print Assumptions C45_same_key.
Print Assumptions C45_once.
Print Assumptions C45_final.
Print Assumptions C45_completed.
Print Assumptions C45_not_cut_off.
Print Assumptions C45_answered.
Print Assumptions C45_wrap_refuted.
