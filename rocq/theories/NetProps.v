(** C44 (compression), C49 (gossip targets), C60 (endpoints and request ids), C61 (malformed messages). *)
From Verif Require Import Bytes BytesProofs TxModel NetModel.
From stdpp Require Import base gmap list.
From Coq Require Import Lia.
#[local] Open Scope N_scope.

(* ---------------------------------------------------------------------- *)
(** * C44 *)

(** What is assumed of the snappy crate. *)
Record snappy_ok (sn : snappy) : Prop := {
  sn_round : forall x y, sn_compress sn x = Some y -> sn_len sn y = Some (len x) /\ sn_decode sn y (len x) = Some x;
  sn_fills : forall y n b, sn_decode sn y n = Some b -> len b = n }.

(** A format that meets the assumption: eight length bytes and the data. *)
Definition stored : snappy :=
  Snappy (fun x => if len x <? 2 ^ 32 then Some (be_fixed 8 (len x) ++ x) else None)
         (fun y => if len y <? 8 then None else Some (be_val (take 8 y)))
         (fun y n => if (len (drop 8 y) =? n) && (8 <=? len y) then Some (drop 8 y) else None).

Lemma len_app' a b : len (a ++ b) = len a + len b.
Proof. unfold len. rewrite app_length. lia. Qed.

Lemma stored_ok : snappy_ok stored.
Proof.
  split.
  - intros x y. cbn [stored sn_compress sn_len sn_decode].
    destruct (N.ltb_spec (len x) (2 ^ 32)) as [Hx|Hx]; [|discriminate]. intros Hy. apply (inj Some) in Hy as <-.
    assert (H8 : length (be_fixed 8 (len x)) = 8%nat) by apply be_fixed_length.
    assert (Ht : take 8 (be_fixed 8 (len x) ++ x) = be_fixed 8 (len x))
      by (rewrite <- H8 at 1; apply take_app).
    assert (Hd : drop 8 (be_fixed 8 (len x) ++ x) = x)
      by (rewrite <- H8 at 1; apply drop_app).
    assert (Hl : 8 <= len (be_fixed 8 (len x) ++ x)) by (rewrite len_app'; unfold len at 1; rewrite H8; lia).
    unfold bytes in *. rewrite Ht, Hd.
    destruct (N.ltb_spec (len (be_fixed 8 (len x) ++ x)) 8) as [?|_]; [lia|].
    rewrite N.eqb_refl. apply N.leb_le in Hl as ->. cbn [andb].
    rewrite be_val_fixed; [done|]. change (256 ^ N.of_nat 8) with (2 ^ 64). clear -Hx.
    assert (2 ^ 32 < 2 ^ 64) by reflexivity. lia.
  - intros y n b. cbn [stored sn_decode].
    destruct (N.eqb_spec (len (drop 8 y)) n) as [<-|]; cbn [andb]; [|discriminate].
    destruct (8 <=? len y); [|discriminate]. by intros [= <-].
Qed.

Section C44.
  Variable sn : snappy.
  Hypothesis Hsn : snappy_ok sn.

  (** Everything that happens to a message of any size. *)
  Theorem C44_exact data :
    decompress sn (compress sn data) =
      if (COMPRESSION_SIZE_THRESHOLD <=? len data) && (MAX_UNCOMPRESSED_LEN <? len data)
         && (if sn_compress sn data then true else false)
      then Err else Ok data.
  Proof using Hsn.
    unfold compress, msg_compress, from_raw, decompress.
    assert (Hl : len (UNCOMPRESS_FLAG :: data) = len data + 1) by (unfold len; cbn [length]; lia).
    rewrite Hl. cbn [drop].
    destruct (N.ltb_spec COMPRESSION_SIZE_THRESHOLD (len data + 1)) as [H|H].
    - assert (COMPRESSION_SIZE_THRESHOLD <=? len data = true) as -> by (apply N.leb_le; lia).
      change (drop 0 data) with data.
      destruct (sn_compress sn data) as [y|] eqn:E; cbn [andb].
      + destruct (sn_round sn Hsn _ _ E) as [E1 E2].
        cbn. rewrite E1. destruct (MAX_UNCOMPRESSED_LEN <? len data); cbn [andb]; [done|]. by rewrite E2.
      + rewrite andb_false_r. reflexivity.
    - assert (COMPRESSION_SIZE_THRESHOLD <=? len data = false) as -> by (apply N.leb_gt; lia). reflexivity.
  Qed.

  (** The round trip for all messages up to 8 MiB. *)
  Theorem C44_round_trip data :
    len data <= 8 * 2 ^ 20 -> decompress sn (compress sn data) = Ok data.
  Proof using Hsn.
    intros H. rewrite C44_exact.
    assert (MAX_UNCOMPRESSED_LEN <? len data = false) as ->.
    { apply N.ltb_ge. exact H. }
    by rewrite andb_false_r.
  Qed.

  (** A message is never changed: it arrives as it was or not at all. *)
  Theorem C44_never_altered data d : decompress sn (compress sn data) = Ok d -> d = data.
  Proof using Hsn. rewrite C44_exact. destruct (_ && _ && _); congruence. Qed.

  (** Whatever bytes a peer sends over one of the node's protocols, the result is at most 8 MiB, and reading never panics. *)
  Theorem C44_bound limit frame :
    In limit frame_limits ->
    receive_frame sn limit frame <> Panic /\
    forall d, receive_frame sn limit frame = Ok d -> len d <= 8 * 2 ^ 20.
  Proof using Hsn.
    intros Hin. assert (Hlim : limit <= 4194304).
    { cbn in Hin. repeat (destruct Hin as [<-|Hin]; [lia|]). done. }
    unfold receive_frame. destruct (N.ltb_spec limit (len frame)) as [?|Hf]; [done|].
    unfold decompress, msg_decompress. destruct frame as [|f rest]; [done|].
    assert (Hr : len (f :: rest) = len rest + 1) by (unfold len; cbn [length]; lia).
    change (8 * 2 ^ 20) with 8388608.
    destruct (compress_flag (f :: rest)).
    - destruct (sn_len sn rest) as [n|]; [|done].
      destruct (N.ltb_spec MAX_UNCOMPRESSED_LEN n) as [?|Hn]; [done|].
      destruct (sn_decode sn rest n) as [b|] eqn:E; [|done].
      split; [done|]. intros d [= <-]. rewrite (sn_fills sn Hsn _ _ _ E). exact Hn.
    - split; [done|]. intros d [= <-]. lia.
  Qed.

  (** A message that fits in a frame of its protocol arrives unchanged. *)
  Theorem C44_delivered limit data frame :
    len data <= 8 * 2 ^ 20 -> send_frame sn limit data = Ok frame -> receive_frame sn limit frame = Ok data.
  Proof using Hsn.
    unfold send_frame, receive_frame. intros H.
    destruct (limit <? len (compress sn data)) eqn:E; [discriminate|]. intros [= <-].
    rewrite E. by apply C44_round_trip.
  Qed.
End C44.

Lemma len_repeat n : len (repeat 7 (N.to_nat n)) = n.
Proof. unfold len. rewrite repeat_length. lia. Qed.

(** Finding: larger messages are compressed by the sender and then refused by the receiver. *)
Theorem C44_large_refuted :
  exists sn data, snappy_ok sn /\ decompress sn (compress sn data) = Err.
Proof.
  exists stored, (repeat 7 (N.to_nat 8388609)). split; [apply stored_ok|].
  rewrite (C44_exact stored stored_ok). unfold stored at 1; cbn [sn_compress]. rewrite len_repeat. reflexivity.
Qed.

(** Finding: the size limit covers compressed messages only; [decompress] itself passes longer uncompressed ones (the frame limit
    of the protocols does bound them, see [C44_bound]). *)
Theorem C44_unbounded_refuted :
  exists frame d, decompress stored frame = Ok d /\ MAX_UNCOMPRESSED_LEN < len d.
Proof.
  exists (0 :: repeat 7 (N.to_nat 8388609)), (repeat 7 (N.to_nat 8388609)). split; [reflexivity|].
  rewrite len_repeat. reflexivity.
Qed.

(** The theorems apply to a real compressed message. *)
Example C44_nontrivial :
  let data := repeat 7 2000 in
  compress_flag (compress stored data) = true /\ decompress stored (compress stored data) = Ok data
  /\ receive_frame stored 4194304 (compress stored data) = Ok data.
Proof. vm_compute. auto. Qed.

(* ---------------------------------------------------------------------- *)
(** * C60 *)

Lemma split_slash_cons s : exists h t, split_slash s = h :: t.
Proof.
  induction s as [|c r (h & t & E)]; cbn [split_slash]; [by eexists _, _|].
  rewrite E. destruct (c =? SLASH); by eexists _, _.
Qed.
Lemma split_slash_app a b : split_slash (a ++ SLASH :: b) = split_slash a ++ split_slash b.
Proof.
  induction a as [|c a IH]; cbn [app split_slash].
  - by rewrite N.eqb_refl.
  - rewrite IH. destruct (c =? SLASH); [done|].
    destruct (split_slash_cons a) as (h & t & ->). done.
Qed.
Lemma comps_app a b : comps (a ++ SLASH :: b) = comps a ++ comps b.
Proof. unfold comps. rewrite split_slash_app. apply List.filter_app. Qed.
Lemma split_slash_plain s : ~ In SLASH s -> split_slash s = [s].
Proof.
  induction s as [|c r IH]; intros H; [done|]. cbn [split_slash].
  destruct (N.eqb_spec c SLASH) as [->|_]; [by destruct H; left|].
  rewrite IH; [done|]. intros ?; apply H; by right.
Qed.
Lemma comps_plain s : s <> [] -> ~ In SLASH s -> comps s = [s].
Proof. intros Hn H. unfold comps. rewrite split_slash_plain by done. by destruct s. Qed.
Lemma after_last_none s : ~ In SLASH s -> after_last_slash s = None.
Proof.
  induction s as [|c r IH]; intros H; [done|]. cbn.
  rewrite IH by (intros ?; apply H; by right).
  destruct (N.eqb_spec c SLASH) as [->|_]; [by destruct H; left|done].
Qed.
Lemma after_last_app a b : ~ In SLASH b -> after_last_slash (a ++ SLASH :: b) = Some b.
Proof.
  intros H. induction a as [|c a IH]; cbn [app after_last_slash].
  - rewrite after_last_none by done. by rewrite N.eqb_refl.
  - by rewrite IH.
Qed.

Lemma digit10 d : d < 10 -> digit_val 10 (48 + d) = Some d.
Proof.
  intros H. unfold digit_val.
  assert (48 <=? 48 + d = true) as -> by (apply N.leb_le; lia).
  assert (48 + d <=? 57 = true) as -> by (apply N.leb_le; lia). cbn [andb].
  replace (48 + d - 48) with d by lia. by apply N.ltb_lt in H as ->.
Qed.

Lemma dec_aux_parse fuel : forall n acc,
  n < 10 ^ N.of_nat fuel -> n < 2 ^ 64 ->
  parse_digits 10 0 (dec_aux fuel n acc) = parse_digits 10 n acc.
Proof.
  induction fuel as [|f IH]; intros n acc Hn H64.
  - cbn in Hn. cbn [dec_aux]. by replace n with 0 by lia.
  - cbn [dec_aux].
    pose proof (N.div_mod n 10 ltac:(done)) as Hdm.
    pose proof (N.mod_lt n 10 ltac:(done)) as Hm.
    destruct (N.eqb_spec (n / 10) 0) as [E|E].
    + cbn [parse_digits]. rewrite digit10 by done.
      replace (0 * 10 + n mod 10) with n by lia.
      assert (2 ^ 64 <=? n = false) as -> by (apply N.leb_gt; lia). done.
    + rewrite IH.
      * cbn [parse_digits]. rewrite digit10 by done.
        replace (n / 10 * 10 + n mod 10) with n by lia.
        assert (2 ^ 64 <=? n = false) as -> by (apply N.leb_gt; lia). done.
      * apply N.div_lt_upper_bound; [done|]. rewrite Nat2N.inj_succ, N.pow_succ_r' in Hn. exact Hn.
      * apply N.le_lt_trans with n; [|done]. apply N.div_le_upper_bound; lia.
Qed.

Lemma dec_aux_chars fuel : forall n acc c,
  In c (dec_aux fuel n acc) -> 48 <= c <= 57 \/ In c acc.
Proof.
  induction fuel as [|f IH]; intros n acc c; cbn [dec_aux]; [by right|].
  pose proof (N.mod_lt n 10 ltac:(done)) as Hm.
  destruct (n / 10 =? 0).
  - intros [<-|?]; [left; lia|by right].
  - intros [?|[<-|?]]%IH; [by left|left; lia|by right].
Qed.
Lemma dec_aux_length fuel : forall n acc, (length (dec_aux fuel n acc) <= fuel + length acc)%nat.
Proof.
  induction fuel as [|f IH]; intros n acc; cbn [dec_aux]; [lia|].
  destruct (n / 10 =? 0); [cbn; lia|]. specialize (IH (n / 10) ((48 + n mod 10) :: acc)). cbn [length] in IH. lia.
Qed.
Lemma dec_aux_ne fuel n acc : (fuel <> 0%nat \/ acc <> []) -> dec_aux fuel n acc <> [].
Proof.
  revert n acc. induction fuel as [|f IH]; intros n acc H; cbn [dec_aux]; [by destruct H|].
  destruct (n / 10 =? 0); [done|]. apply IH. by right.
Qed.

Lemma dec_string_parse n : n < 2 ^ 64 -> parse_u64 10 (dec_string n) = Some n.
Proof.
  intros H. unfold parse_u64.
  assert (Hp : parse_digits 10 0 (dec_string n) = Some n).
  { unfold dec_string. rewrite dec_aux_parse; [done| |done].
    apply N.lt_trans with (2 ^ 64); [done|reflexivity]. }
  destruct (dec_string n) as [|c r] eqn:E; [by apply dec_aux_ne in E; [|left]|].
  assert (Hc : 48 <= c <= 57).
  { destruct (dec_aux_chars 20 n [] c) as [?|[]]; [|done]. fold (dec_string n). rewrite E. by left. }
  destruct (N.eqb_spec c 43) as [->|Hne]; [lia|]. exact Hp.
Qed.
Lemma dec_string_noslash n : ~ In SLASH (dec_string n).
Proof. intros [H|[]]%dec_aux_chars. unfold SLASH in H. lia. Qed.
Lemma dec_string_ne n : dec_string n <> [].
Proof. apply dec_aux_ne. by left. Qed.
Lemma dec_string_length n : (length (dec_string n) <= 20)%nat.
Proof. pose proof (dec_aux_length 20 n []) as H. cbn [length] in H. unfold dec_string. lia. Qed.

Lemma starts_with_app p s t : starts_with p s = true -> starts_with p (s ++ t) = true.
Proof.
  revert s. induction p as [|x p IH]; intros s H; [done|]. destruct s as [|y s]; [done|].
  cbn in *. apply andb_true_iff in H as [-> H]. by apply IH.
Qed.

(** A string is an endpoint when: it has one of the three prefixes, is at most 120 bytes, and has three or four
    non-empty components. *)
Lemma ep_parse_ok s e :
  ep_parse s = Ok e ->
  e = s /\ len s <= 120 /\ (3 <= length (comps s) <= 4)%nat /\
  (starts_with GOSSIP_SCHEME s || starts_with RPC_CALL_SCHEME s || starts_with RPC_RESPONSE_SCHEME s) = true.
Proof.
  unfold ep_parse. destruct (len s =? 0); cbn [orb]; [done|].
  destruct (N.ltb_spec MAX_ENDPOINT_LENGTH (len s)) as [?|Hl]; [done|].
  destruct (starts_with GOSSIP_SCHEME s), (starts_with RPC_CALL_SCHEME s), (starts_with RPC_RESPONSE_SCHEME s);
    cbn [negb andb orb]; try done;
  (destruct (Nat.ltb_spec (length (comps s)) 3) as [?|H3]; [done|];
   destruct (Nat.ltb_spec 4 (length (comps s))) as [?|H4]; [done|]; cbn [orb]; intros [= <-]; done).
Qed.

(** Every endpoint the node's messages can name has a scheme and a root: the [unreachable!] and the indexing are safe. *)
Theorem C60_no_panic s e :
  ep_parse s = Ok e ->
  ep_scheme e <> Panic /\ ep_scheme e <> Err /\ ep_root e <> Panic /\ ep_root e <> Err.
Proof.
  intros (-> & _ & Hc & Hp)%ep_parse_ok. unfold ep_scheme, ep_root.
  destruct (comps s) as [|a [|b [|c r]]]; cbn in Hc; try lia.
  destruct (starts_with GOSSIP_SCHEME s); [done|]. destruct (starts_with RPC_CALL_SCHEME s); [done|].
  cbn [orb] in Hp. by rewrite Hp.
Qed.

(** Appending a request id to an endpoint with three components gives an endpoint with the same scheme and routing key from which the id is read back. *)
Theorem C60_round_trip s e rid :
  ep_parse s = Ok e -> length (comps e) = 3%nat -> len e <= 99 -> rid < 2 ^ 64 ->
  exists x, ep_extend e (dec_string rid) = Ok x /\ ep_rpc_id x = Ok rid /\
            ep_root x = ep_root e /\ ep_scheme x = ep_scheme e.
Proof.
  intros He H3 Hlen Hr. destruct (ep_parse_ok _ _ He) as (-> & _ & _ & Hp).
  set (d := dec_string rid).
  pose proof (dec_string_noslash rid) as Hns. pose proof (dec_string_ne rid) as Hne.
  pose proof (dec_string_length rid) as Hdl. fold d in Hns, Hne, Hdl.
  assert (Htrim : trim_slashes d = d).
  { destruct d as [|c r]; [done|]. cbn. destruct (N.eqb_spec c SLASH) as [->|_]; [|done]. destruct Hns. by left. }
  assert (Hcomps : comps (s ++ SLASH :: d) = comps s ++ [d]) by (by rewrite comps_app, (comps_plain d)).
  exists (s ++ SLASH :: d). split; [|split; [|split]].
  - unfold ep_extend. rewrite Htrim. unfold ep_parse.
    assert (Hl : len (s ++ SLASH :: d) = len s + 1 + len d) by (rewrite len_app'; unfold len; cbn [length]; lia).
    assert (len d <= 20) by (unfold len; lia).
    rewrite Hl. assert (len s + 1 + len d =? 0 = false) as -> by (apply N.eqb_neq; lia).
    assert (MAX_ENDPOINT_LENGTH <? len s + 1 + len d = false) as -> by (apply N.ltb_ge; unfold MAX_ENDPOINT_LENGTH; lia).
    cbn [orb]. rewrite Hcomps, app_length, H3. cbn [length Nat.add Nat.ltb Nat.leb orb].
    destruct (starts_with GOSSIP_SCHEME s) eqn:E1; [by rewrite (starts_with_app _ _ _ E1)|].
    destruct (starts_with RPC_CALL_SCHEME s) eqn:E2.
    { rewrite (starts_with_app _ _ _ E2). cbn [negb]. by rewrite andb_false_r. }
    cbn [orb] in Hp. rewrite (starts_with_app _ _ _ Hp). cbn [negb]. by rewrite andb_false_r.
  - unfold ep_rpc_id. rewrite after_last_app by done.
    destruct d as [|c r] eqn:E; [done|]. rewrite <- E. unfold d. by rewrite dec_string_parse.
  - unfold ep_root. rewrite Hcomps. destruct (comps s) as [|a [|b [|c [|]]]]; cbn in H3; try lia. done.
  - assert (Hx : forall p, len p <= 9 -> starts_with p s = false -> starts_with GOSSIP_SCHEME s || starts_with RPC_CALL_SCHEME s || starts_with RPC_RESPONSE_SCHEME s = true ->
             In p [GOSSIP_SCHEME; RPC_CALL_SCHEME; RPC_RESPONSE_SCHEME] -> starts_with p (s ++ SLASH :: d) = false).
    { clear. intros p Hp H0 Hs Hin.
      assert (Hgen : forall q, starts_with q s = true -> starts_with p q = false -> (length p <= length q)%nat \/ starts_with q p = false ->
                starts_with p (s ++ SLASH :: d) = false).
      { clear. intros q. revert p s. induction q as [|y q IH]; intros p s Hq Hpq Hor.
        - destruct p as [|x p]; [done|]. destruct Hor as [H|H]; [cbn in H; lia|done].
        - destruct s as [|z s]; [done|]. cbn in Hq. apply andb_true_iff in Hq as [Hz Hq]. apply N.eqb_eq in Hz as ->.
          destruct p as [|x p]; [done|]. cbn in Hpq |- *.
          destruct (N.eqb_spec x z) as [->|?]; [|done]. cbn [andb] in *.
          apply IH; [done|done|]. destruct Hor as [H|H]; [left; cbn in H; lia|].
          right. cbn in H. rewrite N.eqb_refl in H. exact H. }
      apply orb_true_iff in Hs as [[Hs|Hs]%orb_true_iff|Hs];
        (destruct Hin as [<-|[<-|[<-|[]]]]; try congruence;
         (eapply Hgen; [exact Hs|reflexivity|right; reflexivity])). }
    assert (HG : starts_with GOSSIP_SCHEME s = false -> starts_with GOSSIP_SCHEME (s ++ SLASH :: d) = false).
    { intros H. apply Hx; [vm_compute; discriminate|exact H|exact Hp|by left]. }
    assert (HC : starts_with RPC_CALL_SCHEME s = false -> starts_with RPC_CALL_SCHEME (s ++ SLASH :: d) = false).
    { intros H. apply Hx; [vm_compute; discriminate|exact H|exact Hp|right; by left]. }
    clear Hx. unfold ep_scheme.
    destruct (starts_with GOSSIP_SCHEME s) eqn:E1; [by rewrite (starts_with_app _ _ _ E1)|].
    rewrite HG by done.
    destruct (starts_with RPC_CALL_SCHEME s) eqn:E2; [by rewrite (starts_with_app _ _ _ E2)|].
    rewrite HC by done.
    cbn [orb] in Hp. by rewrite (starts_with_app _ _ _ Hp), Hp.
Qed.

(** The endpoints of the node (protocol/src/constants/endpoints.rs), "/rpc_call/mempool/pull_txs" here, satisfy the hypotheses. *)
Definition pull_txs : bytes :=
  RPC_CALL_SCHEME ++ [47; 109; 101; 109; 112; 111; 111; 108; 47; 112; 117; 108; 108; 95; 116; 120; 115].
Example C60_nontrivial :
  ep_parse pull_txs = Ok pull_txs /\ length (comps pull_txs) = 3%nat /\ len pull_txs = 26 /\
  ep_extend pull_txs (dec_string 18446744073709551615) = Ok (pull_txs ++ SLASH :: dec_string 18446744073709551615) /\
  ep_rpc_id (pull_txs ++ SLASH :: dec_string 18446744073709551615) = Ok 18446744073709551615.
Proof. vm_compute. auto. Qed.

(** Finding: the id is not read strictly.  A sign and leading zeros are accepted, and the third component of a URL without an id
    is taken for one when it is a number. *)
Theorem C60_lenient_refuted :
  exists a b, a <> b /\ ep_rpc_id a = ep_rpc_id b /\ ep_rpc_id a = Ok 5 /\ ep_root a = ep_root b /\
              ep_parse a = Ok a /\ ep_parse b = Ok b.
Proof.
  exists (pull_txs ++ [47; 53]), (pull_txs ++ [47; 43; 48; 53]). vm_compute. split; [discriminate|]. auto.
Qed.

(** Finding: a scheme is a prefix of the string, not of its first component, so "/gossipx/a/b" is a gossip endpoint. *)
Theorem C60_prefix_refuted :
  exists s, ep_parse s = Ok s /\ ep_scheme s = Ok Gossip /\ ~ In (drop 1 GOSSIP_SCHEME) (comps s).
Proof.
  exists (GOSSIP_SCHEME ++ [120; 47; 97; 47; 98]). vm_compute. split; [done|]. split; [done|].
  intros H. repeat (destruct H as [H|H]; [discriminate|]). done.
Qed.

(* ---------------------------------------------------------------------- *)
(** * C61 *)

Section C61.
  Variable utf8 : bytes -> bool.
  Variable registered : bytes -> bool.

  (** Exactly these messages make the handling task panic: a registered endpoint together with an unparsable trace id
      or a span id of fewer than eight bytes. *)
  Theorem C61_panics_exactly m :
    route utf8 registered m = Panic <->
    (exists root, ep_parse (nm_url m) = Ok (nm_url m) /\ ep_root (nm_url m) = Ok root /\ registered root = true) /\
    ((exists t, nm_trace m = Some t /\ utf8 t = true /\ str_to_trace t = None) \/
     (exists p, nm_span m = Some p /\ len p < 8)).
  Proof using.
    unfold route. destruct (ep_parse (nm_url m)) as [e| |] eqn:E.
    2:{ split; [done|]. intros [(? & ? & _) _]. done. }
    2:{ exfalso. revert E. unfold ep_parse. repeat (destruct (_ || _) || destruct (_ && _)); discriminate. }
    pose proof (C60_no_panic _ _ E) as (Hs1 & Hs2 & Hr1 & Hr2).
    destruct (ep_parse_ok _ _ E) as (-> & _ & _ & _).
    destruct (ep_root (nm_url m)) as [root| |] eqn:Er; [|done|done].
    destruct (registered root) eqn:Eg; cbn [negb].
    2:{ split; [done|]. intros [(r & _ & [= <-] & ?) _]. congruence. }
    assert (Hreg : exists root0, Ok (nm_url m) = Ok (nm_url m) /\ Ok root = Ok root0 /\ registered root0 = true) by (by exists root).
    assert (Htail : (match ep_scheme (nm_url m) with
                     | Ok Gossip => Ok (AGossip root (nm_content m))
                     | Ok RpcCall => match ep_rpc_id (nm_url m) with Ok rid => Ok (ACall root (nm_content m) rid) | Err => Err | Panic => Panic end
                     | Ok RpcResponse => match ep_rpc_id (nm_url m) with Ok rid => Ok (AResponse rid (rpc_read (nm_content m))) | Err => Err | Panic => Panic end
                     | Err => Err | Panic => Panic end) <> Panic).
    { assert (Hid : ep_rpc_id (nm_url m) <> Panic).
      { unfold ep_rpc_id. destruct (after_last_slash (nm_url m)) as [[|c r]|]; [done| |done].
        destruct (parse_u64 10 (c :: r)); done. }
      destruct (ep_scheme (nm_url m)) as [[]| |]; try done; destruct (ep_rpc_id (nm_url m)); done. }
    unfold trace_id, span_id.
    assert (Hspan : forall X : outcome action, X <> Panic ->
              (match (match nm_span m with Some id => if len id <? 8 then Panic else Ok (Some (be_val (take 8 id))) | None => Ok None end) with
               | Ok _ => X | Err => Err | Panic => Panic end = Panic <-> exists p, nm_span m = Some p /\ len p < 8)).
    { intros X HX. destruct (nm_span m) as [p|].
      - destruct (N.ltb_spec (len p) 8) as [H|H].
        + split; [|done]. intros _. by exists p.
        + split; [done|]. intros (p' & [= <-] & ?). lia.
      - split; [done|]. by intros (p & [=] & _). }
    destruct (nm_trace m) as [t|].
    - destruct (utf8 t) eqn:Eu.
      + destruct (str_to_trace t) as [x|] eqn:Et.
        * rewrite (Hspan _ Htail). split; [intros H; split; [done|by right]|].
          intros [_ [(t' & [= <-] & _ & ?)|H]]; [congruence|done].
        * split; [|done]. intros _. split; [done|]. left. by exists t.
      + rewrite (Hspan _ Htail). split; [intros H; split; [done|by right]|].
        intros [_ [(t' & [= <-] & ? & _)|H]]; [congruence|done].
    - rewrite (Hspan _ Htail). split; [intros H; split; [done|by right]|].
      intros [_ [(t' & [=] & _)|H]]; done.
  Qed.

  (** Messages without tracing headers, as nodes without tracing send them, never panic. *)
  Theorem C61_plain url content : route utf8 registered (NetMsg None None url content) <> Panic.
  Proof using. rewrite C61_panics_exactly. intros [_ [(? & [=] & _)|(? & [=] & _)]]. Qed.

  (** A call sent by [call] reaches the handler registered for its endpoint, with its id; a response reaches [AResponse] with the
      content that was sent. *)
  Theorem C61_call_arrives s e root rid content :
    ep_parse s = Ok e -> length (comps e) = 3%nat -> len e <= 99 -> rid < 2 ^ 64 ->
    ep_scheme e = Ok RpcCall -> ep_root e = Ok root -> registered root = true ->
    exists url, ep_extend e (dec_string rid) = Ok url /\
      route utf8 registered (NetMsg None None url content) = Ok (ACall root content rid).
  Proof using.
    intros He H3 Hl Hr Hs Hroot Hreg.
    destruct (C60_round_trip s e rid He H3 Hl Hr) as (x & Hx & Hid & Hr' & Hs'). exists x. split; [done|].
    assert (Hp : ep_parse x = Ok x).
    { unfold ep_extend in Hx. destruct (ep_parse_ok _ _ Hx) as (-> & _). exact Hx. }
    unfold route. cbn [nm_url nm_content nm_trace nm_span trace_id span_id].
    by rewrite Hp, Hr', Hroot, Hreg, Hs', Hs, Hid.
  Qed.
  Theorem C61_response_arrives s e root rid r :
    ep_parse s = Ok e -> length (comps e) = 3%nat -> len e <= 99 -> rid < 2 ^ 64 ->
    ep_scheme e = Ok RpcResponse -> ep_root e = Ok root -> registered root = true ->
    exists url, ep_extend e (dec_string rid) = Ok url /\
      route utf8 registered (NetMsg None None url (rpc_encode r)) = Ok (AResponse rid r).
  Proof using.
    intros He H3 Hl Hr Hs Hroot Hreg.
    destruct (C60_round_trip s e rid He H3 Hl Hr) as (x & Hx & Hid & Hr' & Hs'). exists x. split; [done|].
    assert (Hp : ep_parse x = Ok x).
    { unfold ep_extend in Hx. destruct (ep_parse_ok _ _ Hx) as (-> & _). exact Hx. }
    unfold route. cbn [nm_url nm_content nm_trace nm_span trace_id span_id].
    rewrite Hp, Hr', Hroot, Hreg, Hs', Hs, Hid. cbn [negb]. by destruct r.
  Qed.
End C61.

(** Finding: any connected peer can make the handling task panic with one message. *)
Theorem C61_panic_refuted :
  exists m, forall utf8, route utf8 (fun r => beqb r pull_txs) m = Panic.
Proof. exists (NetMsg None (Some [1]) (pull_txs ++ [47; 48]) []). intros utf8. vm_compute. reflexivity. Qed.

Example C61_nontrivial :
  ep_scheme pull_txs = Ok RpcCall /\ ep_root pull_txs = Ok pull_txs /\
  route (fun _ => true) (fun r => beqb r pull_txs) (NetMsg (Some [97; 98]) (Some [0; 0; 0; 0; 0; 0; 0; 9]) (pull_txs ++ [47; 55]) [1; 2])
    = Ok (ACall pull_txs [1; 2] 7).
Proof. vm_compute. auto. Qed.

(* ---------------------------------------------------------------------- *)
(** * C49 *)

(** The sessions a relayed message may go to. *)
Definition eligible (origin : option N) (sessions : list N) : list N :=
  List.filter (fun s => match origin with Some o => negb (o =? s) | None => true end) sessions.

Lemma gossip_step index origin s rest :
  gossip_targets index origin (s :: rest) =
  match origin with
  | Some o => if o =? s then gossip_targets index origin rest
              else if index <? 2 then s :: gossip_targets (index + 1) origin rest else gossip_targets 0 origin rest
  | None => if index <? 2 then s :: gossip_targets (index + 1) origin rest else gossip_targets 0 origin rest
  end.
Proof. cbn [gossip_targets]. unfold next_inner. destruct origin as [o|]; [destruct (o =? s)|]; destruct (index <? 2); done. Qed.

(** A relayed message only goes to open sessions, each at most once, never to the session it came from. *)
Theorem C49_gossip index origin sessions :
  (gossip_targets index origin sessions `sublist_of` sessions)%stdpp /\
  (forall o, origin = Some o -> ~ In o (gossip_targets index origin sessions)).
Proof.
  revert index. induction sessions as [|s rest IH]; intros index.
  - split; [constructor|]. intros o _ [].
  - rewrite gossip_step.
    assert (Hcase : gossip_targets index origin (s :: rest) = gossip_targets index origin (s :: rest)) by done.
    assert (Hgo : (forall o, origin = Some o -> o <> s) ->
       ((if index <? 2 then s :: gossip_targets (index + 1) origin rest else gossip_targets 0 origin rest) `sublist_of` s :: rest)
       /\ (forall o, origin = Some o -> ~ In o (if index <? 2 then s :: gossip_targets (index + 1) origin rest else gossip_targets 0 origin rest))).
    { intros Hne. destruct (index <? 2).
      - destruct (IH (index + 1)) as [H1 H2]. split; [by constructor|].
        intros o Ho [->|Hin]; [by eapply Hne|by eapply H2].
      - destruct (IH 0) as [H1 H2]. split; [by constructor|]. exact H2. }
    destruct origin as [o|].
    + destruct (N.eqb_spec o s) as [->|Hne].
      * destruct (IH index) as [H1 H2]. split; [by constructor|]. exact H2.
      * apply Hgo. by intros o' [= <-].
    + apply Hgo. done.
Qed.

(** Every third eligible session is skipped: of [k] eligible sessions exactly [k - (index + k) / 3] receive the message. *)
Theorem C49_gossip_count index origin sessions :
  index < 3 ->
  N.of_nat (length (gossip_targets index origin sessions)) =
    let k := N.of_nat (length (eligible origin sessions)) in k - (index + k) / 3.
Proof.
  revert index. induction sessions as [|s rest IH]; intros index Hi.
  - cbn [gossip_targets eligible List.filter length]. cbn zeta. change (N.of_nat 0) with 0. lia.
  - rewrite gossip_step. cbn zeta in IH |- *.
    assert (Hle : forall i k, i < 3 -> (i + k) / 3 <= k).
    { intros i k H. assert ((i + k) / 3 < k + 1); [|lia]. apply N.div_lt_upper_bound; lia. }
    assert (Hgo : N.of_nat (length (if index <? 2 then s :: gossip_targets (index + 1) origin rest else gossip_targets 0 origin rest))
                  = N.of_nat (length (s :: eligible origin rest))
                    - (index + N.of_nat (length (s :: eligible origin rest))) / 3).
    { cbn [length]. rewrite Nat2N.inj_succ. set (k := N.of_nat (length (eligible origin rest))) in *.
      destruct (N.ltb_spec index 2) as [H2|H2].
      - cbn [length]. rewrite Nat2N.inj_succ, IH by lia. fold k.
        replace (index + N.succ k) with (index + 1 + k) by lia.
        pose proof (Hle (index + 1) k ltac:(lia)). lia.
      - rewrite IH by lia. fold k. assert (index = 2) as -> by lia.
        replace (2 + N.succ k) with (0 + k + 1 * 3) by lia. rewrite N.div_add by done.
        pose proof (Hle 0 k ltac:(lia)). lia. }
    cbn [eligible List.filter]. destruct origin as [o|]; [destruct (o =? s); cbn [negb]|].
    + apply IH. exact Hi.
    + exact Hgo.
    + exact Hgo.
Qed.

(** At least two thirds, rounded down, of the eligible sessions are reached. *)
Corollary C49_gossip_reaches index origin sessions :
  index < 3 ->
  2 * N.of_nat (length (eligible origin sessions)) / 3 <= N.of_nat (length (gossip_targets index origin sessions)).
Proof.
  intros Hi. rewrite C49_gossip_count by done. cbn zeta.
  set (k := N.of_nat (length (eligible origin sessions))).
  assert (H1 : (index + k) / 3 <= (2 + k) / 3) by (apply N.div_le_mono; lia).
  pose proof (N.div_mod (2 + k) 3 ltac:(done)). pose proof (N.mod_lt (2 + k) 3 ltac:(done)).
  pose proof (N.div_mod (2 * k) 3 ltac:(done)). pose proof (N.mod_lt (2 * k) 3 ltac:(done)). lia.
Qed.

(** A multicast goes exactly to the sessions of those named peers that are registered as online, in the
    order of the names. *)
Theorem C49_multicast online ids s :
  In s (multicast_targets online ids) <-> exists id, In id ids /\ online !! id = Some s.
Proof.
  unfold multicast_targets. rewrite <- elem_of_list_In, elem_of_list_omap.
  split; intros (id & H1 & H2); exists id; (split; [|done]); by apply elem_of_list_In.
Qed.

(** Finding: with a single other peer a third of the relayed messages reach nobody. *)
Theorem C49_nobody_refuted :
  exists index sessions, index < 3 /\ eligible (Some 1) sessions <> [] /\ gossip_targets index (Some 1) sessions = [].
Proof. exists 2, [1; 9]. vm_compute. split; [done|]. split; [discriminate|done]. Qed.

(** Finding: a peer named twice is sent the message twice. *)
Theorem C49_twice_refuted :
  exists online ids s, multicast_targets online ids = [s; s].
Proof. exists {[ 3 := 8 ]}, [3; 4; 3], 8. vm_compute. done. Qed.

Example C49_nontrivial :
  gossip_targets 1 (Some 7) [5; 7; 6; 8; 9; 7; 4] = [5; 8; 9] /\ multicast_targets (<[1 := 11]> {[2 := 22]}) [3; 2; 1] = [22; 11].
Proof. vm_compute. done. Qed.

Print Assumptions C44_exact.
Print Assumptions C44_round_trip.
Print Assumptions C44_never_altered.
Print Assumptions C44_bound.
Print Assumptions C44_delivered.
Print Assumptions C44_large_refuted.
Print Assumptions C44_unbounded_refuted.
Print Assumptions C60_no_panic.
Print Assumptions C60_round_trip.
Print Assumptions C60_lenient_refuted.
Print Assumptions C60_prefix_refuted.
Print Assumptions C61_panics_exactly.
Print Assumptions C61_plain.
Print Assumptions C61_call_arrives.
Print Assumptions C61_response_arrives.
Print Assumptions C61_panic_refuted.
Print Assumptions C49_gossip.
Print Assumptions C49_gossip_count.
Print Assumptions C49_gossip_reaches.
Print Assumptions C49_multicast.
Print Assumptions C49_nobody_refuted.
Print Assumptions C49_twice_refuted.
