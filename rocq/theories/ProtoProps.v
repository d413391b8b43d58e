(** C72: the p2p messages on the wire. *)
From Coq Require Import Permutation.
From Verif Require Import Bytes BytesProofs ProtoModel.

(* ---------------------------------------------------------------------- *)
(** * Specification: the protobuf wire format *)

(** base-128 number, lowest group first, the high bit set in all bytes but the last *)
Inductive leb : N -> bytes -> Prop :=
| leb_last n : n < 128 -> leb n [n]
| leb_more x n b : x < 128 -> leb n b -> leb (x + 128 * n) (x + 128 :: b).
Definition varint_of (n : N) (b : bytes) : Prop := leb n b /\ n < 2 ^ 64 /\ (length b <= 10)%nat.

(** a message is a sequence of fields: a key (tag * 8 + kind), then a number (kind 0), eight bytes (kind 1), a length and that many bytes (kind 2)
    or four bytes (kind 5) *)
Inductive wval := WInt (n : N) | W64 (p : bytes) | WLen (p : bytes) | W32 (p : bytes).
Inductive wire : list (N * wval) -> bytes -> Prop :=
| wire_nil : wire [] []
| wire_int tag n k v fs r :
    varint_of (tag * 8) k -> varint_of n v -> wire fs r -> wire ((tag, WInt n) :: fs) (k ++ v ++ r)
| wire_len tag p k l fs r :
    varint_of (tag * 8 + 2) k -> varint_of (len p) l -> wire fs r -> wire ((tag, WLen p) :: fs) (k ++ l ++ p ++ r)
| wire_64 tag p k fs r :
    varint_of (tag * 8 + 1) k -> length p = 8%nat -> wire fs r -> wire ((tag, W64 p) :: fs) (k ++ p ++ r)
| wire_32 tag p k fs r :
    varint_of (tag * 8 + 5) k -> length p = 4%nat -> wire fs r -> wire ((tag, W32 p) :: fs) (k ++ p ++ r).

Definition u32 (n : N) : Prop := n < 2 ^ 32.
(** a Rust buffer is shorter than 2^64 *)
Definition fits (b : bytes) : Prop := len b < 2 ^ 64.

(** the message values a sender can hold: u32 fields, Rust strings, distinct header names *)
Definition ping_ok (m : ping_msg) : Prop :=
  match m with Some (Ping n) | Some (Pong n) => u32 n | None => True end.
Definition disc_ok (m : disc_msg) : Prop :=
  match m with
  | Some (PGetNodes g) => u32 (gn_version g) /\ u32 (gn_count g) /\ (forall p, gn_port g = Some p -> u32 p)
  | _ => True
  end.
Definition identity_ok (i : identity) : Prop := utf8 (id_chain i) = true.
Definition network_ok (m : network_message) : Prop :=
  utf8 (w_url m) = true /\ (forall k v, In (k, v) (w_headers m) -> utf8 k = true) /\ NoDup (map fst (w_headers m)).

(** the fields of every message *)
Definition opt_int (tag n : N) : list (N * wval) := if n =? 0 then [] else [(tag, WInt n)].
Definition opt_len (tag : N) (b : bytes) : list (N * wval) := match b with [] => [] | _ => [(tag, WLen b)] end.

(* ---------------------------------------------------------------------- *)
(** * Varints and keys *)

Lemma leb_dec k b n r :
  leb n b -> (length b <= k)%nat -> n < 2 * 128 ^ (N.of_nat k - 1) -> unvarint k (b ++ r) = Some (n, r).
Proof.
  intros L. revert k. induction L as [n H|x n b H L IH]; intros [|k] Hl Hn; cbn [length app] in *; try lia.
  - cbn [unvarint]. destruct (N.ltb_spec n 128) as [_|]; [|lia].
    destruct k; cbn [Nat.eqb andb].
    + destruct (N.leb_spec 2 n) as [X|_]; [|reflexivity]. change (N.of_nat 1 - 1) with 0 in Hn. rewrite N.pow_0_r in Hn. lia.
    + reflexivity.
  - cbn [unvarint]. destruct (N.ltb_spec (x + 128) 128) as [X|_]; [lia|].
    destruct k as [|k]; [destruct L; cbn [length] in Hl; lia|].
    rewrite IH; [|lia|].
    + f_equal. f_equal. lia.
    + replace (N.of_nat (S (S k)) - 1) with (N.succ (N.of_nat (S k) - 1)) in Hn by lia.
      rewrite N.pow_succ_r' in Hn. lia.
Qed.

Lemma varint_of_dec n b r : varint_of n b -> dec_varint (b ++ r) = Some (n, r).
Proof. intros (L & Hn & Hl). apply leb_dec; [exact L|exact Hl|exact Hn]. Qed.

Lemma varint_aux_leb k n :
  (0 < k)%nat -> n < 2 * 128 ^ (N.of_nat k - 1) -> leb n (varint_aux k n) /\ (length (varint_aux k n) <= k)%nat.
Proof.
  revert n. induction k as [|k IH]; intros n K Hn; [lia|]. cbn [varint_aux].
  destruct (N.ltb_spec n 128) as [L|L].
  - split; [constructor; exact L|cbn; lia].
  - destruct k as [|k].
    { change (N.of_nat 1 - 1) with 0 in Hn. rewrite N.pow_0_r in Hn. lia. }
    destruct (IH (n / 128)) as [A B]; [lia| |].
    + replace (N.of_nat (S (S k)) - 1) with (N.succ (N.of_nat (S k) - 1)) in Hn by lia.
      rewrite N.pow_succ_r' in Hn. apply N.div_lt_upper_bound; lia.
    + split; [|cbn [length]; lia].
      rewrite (N.div_mod n 128) at 1 by lia. rewrite N.add_comm. constructor; [apply N.mod_lt; lia|exact A].
Qed.

Lemma enc_varint_of n : n < 2 ^ 64 -> varint_of n (enc_varint n).
Proof.
  intros H. destruct (varint_aux_leb 10 n) as [A B]; [lia|exact H|]. split; [exact A|split; [exact H|exact B]].
Qed.

Lemma unvarint_shrinks k b v r : unvarint k b = Some (v, r) -> (length r < length b)%nat.
Proof.
  revert b v r. induction k as [|k IH]; intros [|x b] v r H; cbn [unvarint] in H; try discriminate.
  destruct (x <? 128).
  - destruct (_ && _); [discriminate|]. injection H as _ ->. cbn. lia.
  - destruct (unvarint k b) as [[v' r']|] eqn:E; [|discriminate]. injection H as _ ->.
    apply IH in E. cbn. lia.
Qed.
Lemma varint_shrinks b v r : dec_varint b = Some (v, r) -> (length r < length b)%nat.
Proof. apply unvarint_shrinks. Qed.

Lemma key_shrinks b t w r : dec_key b = Some (t, w, r) -> (length r < length b)%nat.
Proof.
  unfold dec_key. destruct (dec_varint b) as [[k r']|] eqn:E; [|discriminate].
  destruct (_ <=? _); [discriminate|]. destruct (_ <? _); [discriminate|]. destruct (_ =? _); [discriminate|].
  intros H. injection H as _ _ <-. apply varint_shrinks in E. exact E.
Qed.

Lemma advance_shrinks n b r : advance n b = Some r -> (length r <= length b)%nat.
Proof.
  unfold advance. destruct (_ <? _); [discriminate|]. intros H. injection H as <-. rewrite skipn_length. lia.
Qed.

Lemma skip_shrinks d w t b r : skip_field d w t b = Some r -> (length r <= length b)%nat.
Proof.
  revert w t b r. induction d as [|d IH]; intros w t b r; cbn [skip_field]; [discriminate|].
  destruct (w =? 0).
  { destruct (dec_varint b) as [[v r']|] eqn:E; [|discriminate]. intros H. injection H as <-. apply varint_shrinks in E. lia. }
  destruct (w =? 1); [apply advance_shrinks|].
  destruct (w =? 2).
  { destruct (dec_varint b) as [[v r']|] eqn:E; [|discriminate]. intros H. apply advance_shrinks in H. apply varint_shrinks in E.
    lia. }
  destruct (w =? 3).
  - generalize (length b) at 1. intros f. revert b. induction f as [|f IHf]; intros b; [discriminate|].
    destruct (dec_key b) as [[[t' w'] r']|] eqn:K; [|discriminate]. apply key_shrinks in K.
    destruct (w' =? 4).
    + destruct (t' =? t); [|discriminate]. intros H. injection H as <-. lia.
    + destruct (skip_field d w' t' r') as [r2|] eqn:S; [|discriminate]. apply IH in S. intros H. apply IHf in H. lia.
  - destruct (w =? 5); [apply advance_shrinks|discriminate].
Qed.

Lemma dec_key_of tag wt k r :
  varint_of (tag * 8 + wt) k -> wt <= 5 -> 1 <= tag < 2 ^ 29 -> dec_key (k ++ r) = Some (tag, wt, r).
Proof.
  intros V W T. unfold dec_key. rewrite (varint_of_dec _ _ _ V).
  change (2 ^ 29) with 536870912 in T. change (2 ^ 32) with 4294967296.
  destruct (N.leb_spec 4294967296 (tag * 8 + wt)); [lia|].
  replace ((tag * 8 + wt) mod 8) with wt by (symmetry; rewrite N.add_comm, N.mod_add, N.mod_small; lia).
  replace ((tag * 8 + wt) / 8) with tag by (rewrite N.add_comm, N.div_add, N.div_small; lia).
  destruct (N.ltb_spec 5 wt); [lia|]. destruct (N.eqb_spec tag 0); [lia|]. reflexivity.
Qed.

Lemma enc_key_of tag wt : wt <= 5 -> 1 <= tag < 2 ^ 29 -> varint_of (tag * 8 + wt) (enc_key tag wt).
Proof.
  intros W T. apply enc_varint_of. change (2 ^ 29) with 536870912 in T. change (2 ^ 64) with 18446744073709551616. lia.
Qed.

(* ---------------------------------------------------------------------- *)
(** * The merge loop *)

Section Loop.
  Context {M : Type} (step : M -> N -> N -> bytes -> option (M * bytes)).
  Definition shrinks : Prop := forall m t w b m' r, step m t w b = Some (m', r) -> (length r <= length b)%nat.
  Hypothesis S : shrinks.

  Lemma pmerge_fuel f1 f2 m b :
    (length b <= f1)%nat -> (length b <= f2)%nat -> pmerge step f1 m b = pmerge step f2 m b.
  Proof.
    revert f2 m b. induction f1 as [|f1 IH]; intros f2 m [|x b] A B; cbn [length] in *; try lia.
    - destruct f2; reflexivity.
    - destruct f2; reflexivity.
    - destruct f2 as [|f2]; [lia|]. cbn [pmerge].
      destruct (dec_key (x :: b)) as [[[t w] r]|] eqn:K; [|reflexivity]. apply key_shrinks in K. cbn [length] in K.
      destruct (step m t w r) as [[m' r']|] eqn:E; [|reflexivity]. apply S in E. apply IH; lia.
  Qed.

  Lemma pdecode_nil m : pdecode step m [] = Some m.
  Proof. reflexivity. Qed.

  Lemma pdecode_field m tag wt k p r m' :
    varint_of (tag * 8 + wt) k -> wt <= 5 -> 1 <= tag < 2 ^ 29 ->
    step m tag wt (p ++ r) = Some (m', r) -> pdecode step m (k ++ p ++ r) = pdecode step m' r.
  Proof.
    intros V W T E. pose proof (dec_key_of tag wt k (p ++ r) V W T) as K. unfold pdecode.
    assert (NE : exists x q, k ++ p ++ r = x :: q).
    { destruct V as (L & _ & _). destruct L; cbn; eauto. }
    destruct NE as (x & q & NE). rewrite NE in *. cbn [length pmerge]. rewrite K, E.
    apply pmerge_fuel; [|lia]. apply key_shrinks in K. cbn [length] in K. rewrite app_length in K. lia.
  Qed.

  (** what the loop reads is bounded by what it was given *)
  Lemma pdecode_size (sz : M -> nat) m b m' :
    (forall m t w b m' r, step m t w b = Some (m', r) -> (sz m' + length r <= sz m + length b + 1)%nat) ->
    pdecode step m b = Some m' -> (sz m' <= sz m + length b)%nat.
  Proof.
    intros G. unfold pdecode. generalize (length b) at 1. intros f. revert m b.
    induction f as [|f IH]; intros m [|x b] E; cbn [pmerge] in E; try discriminate.
    - injection E as <-. lia.
    - injection E as <-. lia.
    - destruct (dec_key (x :: b)) as [[[t w] r]|] eqn:K; [|discriminate]. apply key_shrinks in K.
      destruct (step m t w r) as [[m1 r1]|] eqn:F; [|discriminate]. apply G in F. apply IH in E. lia.
  Qed.
End Loop.

Lemma d_uint32_shrinks w b v r : d_uint32 w b = Some (v, r) -> (length r < length b)%nat.
Proof.
  unfold d_uint32. destruct (_ =? _); [|discriminate]. destruct (dec_varint b) as [[x y]|] eqn:E; [|discriminate].
  intros H. injection H as _ <-. apply varint_shrinks in E. exact E.
Qed.
Lemma d_bool_shrinks w b v r : d_bool w b = Some (v, r) -> (length r < length b)%nat.
Proof.
  unfold d_bool. destruct (_ =? _); [|discriminate]. destruct (dec_varint b) as [[x y]|] eqn:E; [|discriminate].
  intros H. injection H as _ <-. apply varint_shrinks in E. exact E.
Qed.
Lemma d_bytes_shrinks w b v r : d_bytes w b = Some (v, r) -> (length v + length r < length b)%nat.
Proof.
  unfold d_bytes. destruct (_ =? _); [|discriminate]. destruct (dec_varint b) as [[x y]|] eqn:E; [|discriminate].
  destruct (N.ltb_spec (len y) x) as [|L]; [discriminate|].
  intros H. injection H as <- <-. apply varint_shrinks in E. unfold len in L. rewrite firstn_length, skipn_length. lia.
Qed.
Lemma d_string_shrinks w b v r : d_string w b = Some (v, r) -> (length v + length r < length b)%nat.
Proof.
  unfold d_string. destruct (d_bytes w b) as [[x y]|] eqn:E; [|discriminate]. destruct (utf8 x); [|discriminate].
  intros H. injection H as <- <-. apply d_bytes_shrinks in E. exact E.
Qed.
Lemma d_msg_inv {M} (step : M -> N -> N -> bytes -> option (M * bytes)) m w b m' r :
  d_msg step m w b = Some (m', r) -> exists p, pdecode step m p = Some m' /\ (length p + length r < length b)%nat.
Proof.
  unfold d_msg. destruct (d_bytes w b) as [[p y]|] eqn:E; [|discriminate]. destruct (pdecode step m p) as [x|] eqn:F; [|discriminate].
  intros H. injection H as <- <-. exists p. split; [exact F|]. apply d_bytes_shrinks in E. exact E.
Qed.
Lemma d_skip_inv {M} d (m : M) t w b m' r : d_skip d m t w b = Some (m', r) -> m' = m /\ (length r <= length b)%nat.
Proof.
  unfold d_skip. destruct (skip_field d w t b) as [x|] eqn:E; [|discriminate].
  intros H. injection H as <- <-. split; [reflexivity|]. apply skip_shrinks in E. exact E.
Qed.
Lemma d_map_inv {A B} (f : A -> B) o b r : d_map f o = Some (b, r) -> exists a, o = Some (a, r) /\ b = f a.
Proof. destruct o as [[a y]|]; [|discriminate]. cbn. intros H. injection H as <- <-. eauto. Qed.

(** shrinking of a concrete merge_field *)
Ltac field_cases H :=
  repeat match type of H with
         | (if ?c then _ else _) = _ => destruct c
         end.
Ltac field_inv H :=
  field_cases H;
  first [ apply d_skip_inv in H as [-> H]
        | apply d_map_inv in H as (?v & H & ->);
          first [ apply d_uint32_shrinks in H | apply d_bool_shrinks in H | apply d_bytes_shrinks in H | apply d_string_shrinks in H
                | apply d_msg_inv in H as (?p & ?D & H) ] ].

Lemma ping_shrinks : shrinks ping_step.
Proof. intros m t w b m' r H. unfold ping_step in H. field_inv H; lia. Qed.
Lemma get_nodes_shrinks : shrinks get_nodes_step.
Proof. intros m t w b m' r H. unfold get_nodes_step in H. field_inv H; lia. Qed.
Lemma node_shrinks : shrinks node_step.
Proof. intros m t w b m' r H. unfold node_step in H. field_inv H; lia. Qed.
Lemma nodes_shrinks : shrinks nodes_step.
Proof. intros m t w b m' r H. unfold nodes_step in H. field_inv H; lia. Qed.
Lemma disc_shrinks : shrinks disc_step.
Proof. intros m t w b m' r H. unfold disc_step in H. field_inv H; lia. Qed.
Lemma addr_info_shrinks : shrinks addr_info_step.
Proof. intros m t w b m' r H. unfold addr_info_step in H. field_inv H; lia. Qed.
Lemma identity_shrinks : shrinks identity_step.
Proof. intros m t w b m' r H. unfold identity_step in H. field_inv H; lia. Qed.
Lemma entry_shrinks : shrinks entry_step.
Proof. intros m t w b m' r H. unfold entry_step in H. field_inv H; lia. Qed.
Lemma network_shrinks : shrinks network_step.
Proof. intros m t w b m' r H. unfold network_step in H. field_inv H; lia. Qed.

(* ---------------------------------------------------------------------- *)
(** * Reading back one value *)

Lemma d_uint32_back n v r : varint_of n v -> u32 n -> d_uint32 VARINT (v ++ r) = Some (n, r).
Proof. intros V U. unfold d_uint32. cbn [N.eqb VARINT]. rewrite (varint_of_dec _ _ _ V), N.mod_small; [reflexivity|exact U]. Qed.

Lemma d_bytes_back p l r : varint_of (len p) l -> d_bytes LEN (l ++ p ++ r) = Some (p, r).
Proof.
  intros V. unfold d_bytes. cbn [N.eqb LEN Pos.eqb]. rewrite (varint_of_dec _ _ _ V).
  destruct (N.ltb_spec (len (p ++ r)) (len p)) as [L|_]; [rewrite len_app in L; lia|].
  unfold len. rewrite Nat2N.id, firstn_app, skipn_app, Nat.sub_diag, firstn_all, skipn_all. cbn. rewrite app_nil_r. reflexivity.
Qed.

Lemma fits_app a b : fits (a ++ b) -> fits a /\ fits b.
Proof. unfold fits. rewrite len_app. lia. Qed.
Lemma fits_f_len t p : fits (f_len t p) -> fits p.
Proof. unfold f_len. intros H. apply fits_app in H as [_ H]. apply fits_app in H as [_ H]. exact H. Qed.
Lemma fits_f_len_opt t p : fits (f_len_opt t p) -> fits p.
Proof. destruct p; [intros _; unfold fits; cbn; reflexivity|apply fits_f_len]. Qed.
Lemma fits_concat {A} (f : A -> bytes) l x : fits (concat (map f l)) -> In x l -> fits (f x).
Proof.
  induction l as [|y l IH]; [easy|]. cbn. intros F [->|I]; apply fits_app in F as [F1 F2]; auto.
Qed.

Section Back.
  Context {M : Type} (step : M -> N -> N -> bytes -> option (M * bytes)).
  Hypothesis S : shrinks step.

  Lemma pd_uint m tag n r m' :
    1 <= tag < 2 ^ 29 -> step m tag VARINT (enc_varint n ++ r) = Some (m', r) ->
    pdecode step m (f_uint tag n ++ r) = pdecode step m' r.
  Proof.
    intros T E. unfold f_uint. rewrite <- app_assoc.
    apply pdecode_field with (tag := tag) (wt := VARINT); [exact S|apply enc_key_of; [unfold VARINT; lia|exact T]|unfold VARINT; lia
      |exact T|exact E].
  Qed.
  Lemma pd_len m tag p r m' :
    1 <= tag < 2 ^ 29 -> step m tag LEN (enc_varint (len p) ++ p ++ r) = Some (m', r) ->
    pdecode step m (f_len tag p ++ r) = pdecode step m' r.
  Proof.
    intros T E. unfold f_len. rewrite <- app_assoc.
    apply pdecode_field with (tag := tag) (wt := LEN); [exact S|apply enc_key_of; [unfold LEN; lia|exact T]|unfold LEN; lia
      |exact T|]. rewrite <- app_assoc. exact E.
  Qed.
End Back.

Ltac tag_ok := change (2 ^ 29) with 536870912; lia.

Lemma back_uint n r : u32 n -> d_uint32 VARINT (enc_varint n ++ r) = Some (n, r).
Proof.
  intros U. apply d_uint32_back; [apply enc_varint_of|exact U]. unfold u32 in U.
  change (2 ^ 32) with 4294967296 in U. change (2 ^ 64) with 18446744073709551616. lia.
Qed.
Lemma back_bytes p r : fits p -> d_bytes LEN (enc_varint (len p) ++ p ++ r) = Some (p, r).
Proof. intros F. apply d_bytes_back, enc_varint_of. exact F. Qed.
Lemma back_string p r : fits p -> utf8 p = true -> d_string LEN (enc_varint (len p) ++ p ++ r) = Some (p, r).
Proof. intros F U. unfold d_string. rewrite back_bytes, U by exact F. reflexivity. Qed.
Lemma back_msg {M} (step : M -> N -> N -> bytes -> option (M * bytes)) m p r m' :
  fits p -> pdecode step m p = Some m' -> d_msg step m LEN (enc_varint (len p) ++ p ++ r) = Some (m', r).
Proof. intros F E. unfold d_msg. rewrite back_bytes, E by exact F. reflexivity. Qed.

(* ---------------------------------------------------------------------- *)
(** * Reading back a message, followed by any bytes *)

Lemma ping_back m r : ping_ok m -> pdecode ping_step None (enc_ping m ++ r) = pdecode ping_step m r.
Proof.
  destruct m as [[n|n]|]; intros H; cbn [enc_ping]; [| |reflexivity].
  - apply pd_uint; [exact ping_shrinks|tag_ok|]. unfold ping_step. cbn [N.eqb Pos.eqb]. rewrite back_uint by exact H. reflexivity.
  - apply pd_uint; [exact ping_shrinks|tag_ok|]. unfold ping_step. cbn [N.eqb Pos.eqb]. rewrite back_uint by exact H. reflexivity.
Qed.

Lemma get_nodes_back g :
  u32 (gn_version g) -> u32 (gn_count g) -> (forall p, gn_port g = Some p -> u32 p) ->
  pdecode get_nodes_step (GetNodes 0 0 None) (enc_get_nodes g) = Some g.
Proof.
  destruct g as [v c p]. cbn [gn_version gn_count gn_port]. intros V C P. unfold enc_get_nodes. cbn [gn_version gn_count gn_port].
  assert (A : forall r, pdecode get_nodes_step (GetNodes 0 0 None) (f_uint_opt 1 v ++ r) = pdecode get_nodes_step (GetNodes v 0 None) r).
  { intros r. unfold f_uint_opt. destruct (N.eqb_spec v 0) as [->|]; [reflexivity|].
    apply pd_uint; [exact get_nodes_shrinks|tag_ok|]. unfold get_nodes_step. cbn [N.eqb Pos.eqb]. rewrite back_uint by exact V. reflexivity. }
  assert (B : forall r, pdecode get_nodes_step (GetNodes v 0 None) (f_uint_opt 2 c ++ r) = pdecode get_nodes_step (GetNodes v c None) r).
  { intros r. unfold f_uint_opt. destruct (N.eqb_spec c 0) as [->|]; [reflexivity|].
    apply pd_uint; [exact get_nodes_shrinks|tag_ok|]. unfold get_nodes_step. cbn [N.eqb Pos.eqb]. rewrite back_uint by exact C. reflexivity. }
  rewrite A, B. destruct p as [p|]; [|reflexivity].
  rewrite <- (app_nil_r (f_uint 3 p)).
  erewrite pd_uint; [|exact get_nodes_shrinks|tag_ok|]; [apply pdecode_nil|].
  unfold get_nodes_step. cbn [N.eqb Pos.eqb]. rewrite back_uint by (apply P; reflexivity). reflexivity.
Qed.

Lemma node_back l m r :
  fits (concat (map (f_len 1) l)) -> pdecode node_step m (concat (map (f_len 1) l) ++ r) = pdecode node_step (m ++ l) r.
Proof.
  revert m. induction l as [|a l IH]; intros m F; [cbn; rewrite app_nil_r; reflexivity|]. cbn [map concat] in *.
  apply fits_app in F as [Fa Fl]. rewrite <- app_assoc. erewrite pd_len; [|exact node_shrinks|tag_ok|]; cycle 1.
  - unfold node_step. cbn [N.eqb Pos.eqb]. rewrite back_bytes by (apply fits_f_len in Fa; exact Fa). reflexivity.
  - rewrite IH by exact Fl. rewrite <- app_assoc. reflexivity.
Qed.

Lemma nodes_back n : fits (enc_nodes n) -> pdecode nodes_step (Nodes false []) (enc_nodes n) = Some n.
Proof.
  destruct n as [a items]. unfold enc_nodes. cbn [ns_announce ns_items]. intros F. apply fits_app in F as [_ F].
  assert (A : forall r, pdecode nodes_step (Nodes false []) (f_bool_opt 1 a ++ r) = pdecode nodes_step (Nodes a []) r).
  { intros r. destruct a; [|reflexivity]. apply pd_uint; [exact nodes_shrinks|tag_ok|].
    unfold nodes_step. cbn [N.eqb Pos.eqb]. unfold d_bool. cbn [N.eqb VARINT].
    rewrite (varint_of_dec 1) by (apply enc_varint_of; reflexivity). reflexivity. }
  rewrite A. clear A. change (Some (Nodes a items)) with (Some (Nodes a ([] ++ items))). generalize (@nil node) as acc.
  induction items as [|i items IH]; intros acc; [cbn; rewrite app_nil_r; reflexivity|]. cbn [map concat] in *.
  apply fits_app in F as [Fi Fl]. apply fits_f_len in Fi.
  erewrite pd_len; [|exact nodes_shrinks|tag_ok|]; cycle 1.
  - unfold nodes_step. cbn [N.eqb Pos.eqb ns_announce ns_items].
    rewrite (back_msg node_step [] (enc_node i) _ i); [reflexivity|exact Fi|].
    unfold enc_node. rewrite <- (app_nil_r (concat _)), node_back by exact Fi. reflexivity.
  - rewrite (IH Fl). rewrite <- app_assoc. reflexivity.
Qed.

Lemma disc_back m r : disc_ok m -> fits (enc_disc m) -> pdecode disc_step None (enc_disc m ++ r) = pdecode disc_step m r.
Proof.
  destruct m as [[g|n]|]; cbn [disc_ok enc_disc]; intros O F; [| |reflexivity]; apply fits_f_len in F.
  - destruct O as (V & C & P). apply pd_len; [exact disc_shrinks|tag_ok|]. unfold disc_step. cbn [N.eqb Pos.eqb].
    rewrite (back_msg get_nodes_step _ _ _ g); [reflexivity|exact F|]. apply get_nodes_back; assumption.
  - apply pd_len; [exact disc_shrinks|tag_ok|]. unfold disc_step. cbn [N.eqb Pos.eqb].
    rewrite (back_msg nodes_step _ _ _ n); [reflexivity|exact F|]. apply nodes_back; assumption.
Qed.

Lemma addr_info_back a : fits (enc_addr_info a) -> pdecode addr_info_step (AddrInfo [] []) (enc_addr_info a) = Some a.
Proof.
  destruct a as [l o]. unfold enc_addr_info. cbn [a_listen a_observed]. intros F. apply fits_app in F as [Fl Fo].
  assert (A : forall acc r, pdecode addr_info_step (AddrInfo acc []) (concat (map (f_len 1) l) ++ r) =
                            pdecode addr_info_step (AddrInfo (acc ++ l) []) r).
  { clear Fo. induction l as [|a l IH]; intros acc r; [cbn; rewrite app_nil_r; reflexivity|]. cbn [map concat] in *.
    apply fits_app in Fl as [Fa Fl]. apply fits_f_len in Fa. rewrite <- app_assoc.
    erewrite pd_len; [|exact addr_info_shrinks|tag_ok|]; cycle 1.
    - unfold addr_info_step. cbn [N.eqb Pos.eqb]. rewrite back_bytes by exact Fa. reflexivity.
    - rewrite (IH Fl). rewrite <- app_assoc. reflexivity. }
  rewrite A. cbn [app]. apply fits_f_len_opt in Fo. destruct o as [|x o]; [reflexivity|].
  cbn [f_len_opt]. rewrite <- (app_nil_r (f_len 2 _)). erewrite pd_len; [|exact addr_info_shrinks|tag_ok|]; [apply pdecode_nil|].
  unfold addr_info_step. cbn [N.eqb Pos.eqb]. rewrite back_bytes by exact Fo. reflexivity.
Qed.

Lemma identity_back i r :
  identity_ok i -> fits (enc_identity i) ->
  pdecode identity_step (Identity [] None) (enc_identity i ++ r) = pdecode identity_step i r.
Proof.
  destruct i as [c o]. unfold identity_ok, enc_identity. cbn [id_chain id_info]. intros U F. apply fits_app in F as [Fc Fo].
  assert (A : forall r, pdecode identity_step (Identity [] None) (f_len_opt 1 c ++ r) = pdecode identity_step (Identity c None) r).
  { intros r'. apply fits_f_len_opt in Fc. destruct c as [|x c]; [reflexivity|]. cbn [f_len_opt].
    apply pd_len; [exact identity_shrinks|tag_ok|]. unfold identity_step. cbn [N.eqb Pos.eqb].
    rewrite back_string by assumption. reflexivity. }
  rewrite <- app_assoc, A. destruct o as [a|]; [|reflexivity]. apply fits_f_len in Fo.
  apply pd_len; [exact identity_shrinks|tag_ok|]. unfold identity_step. cbn [N.eqb Pos.eqb id_info].
  rewrite (back_msg addr_info_step _ _ _ a); [reflexivity|exact Fo|]. apply addr_info_back, Fo.
Qed.

Lemma entry_back k v : utf8 k = true -> fits (enc_entry (k, v)) -> pdecode entry_step ([], []) (enc_entry (k, v)) = Some (k, v).
Proof.
  unfold enc_entry. cbn [fst snd]. intros U F. apply fits_app in F as [Fk Fv].
  apply fits_f_len_opt in Fk. apply fits_f_len_opt in Fv.
  assert (A : forall r, pdecode entry_step ([], []) (f_len_opt 1 k ++ r) = pdecode entry_step (k, []) r).
  { intros r. destruct k as [|x k]; [reflexivity|]. cbn [f_len_opt].
    apply pd_len; [exact entry_shrinks|tag_ok|]. unfold entry_step. cbn [N.eqb Pos.eqb].
    rewrite back_string by assumption. reflexivity. }
  rewrite A. destruct v as [|x v]; [reflexivity|]. cbn [f_len_opt].
  rewrite <- (app_nil_r (f_len 2 _)). erewrite pd_len; [|exact entry_shrinks|tag_ok|]; [apply pdecode_nil|].
  unfold entry_step. cbn [N.eqb Pos.eqb]. rewrite back_bytes by exact Fv. reflexivity.
Qed.

Lemma h_insert_new e h : ~ In (fst e) (map fst h) -> h_insert e h = h ++ [e].
Proof.
  induction h as [|x h IH]; [reflexivity|]. cbn. intros N. destruct (beqb (fst x) (fst e)) eqn:B.
  - apply beqb_eq in B. tauto.
  - rewrite IH by tauto. reflexivity.
Qed.

Lemma network_back m r :
  network_ok m -> fits (enc_network m) ->
  pdecode network_step (NetworkMessage [] [] []) (enc_network m ++ r) = pdecode network_step m r.
Proof.
  destruct m as [h u c]. unfold network_ok, enc_network. cbn [w_headers w_url w_content]. intros (U & K & ND) F.
  apply fits_app in F as [Fh F]. apply fits_app in F as [Fu Fc].
  assert (A : forall acc r, NoDup (map fst (acc ++ h)) ->
              pdecode network_step (NetworkMessage acc [] []) (concat (map (fun e => f_len 1 (enc_entry e)) h) ++ r) =
              pdecode network_step (NetworkMessage (acc ++ h) [] []) r).
  { clear ND. induction h as [|[k v] h IH]; intros acc r' ND; [cbn; rewrite app_nil_r; reflexivity|]. cbn [map concat] in *.
    apply fits_app in Fh as [Fe Fh]. apply fits_f_len in Fe. rewrite <- app_assoc.
    erewrite pd_len; [|exact network_shrinks|tag_ok|]; cycle 1.
    - unfold network_step. cbn [N.eqb Pos.eqb w_headers w_url w_content].
      rewrite (back_msg entry_step _ _ _ (k, v)); [|exact Fe|].
      + cbn [d_map]. rewrite h_insert_new; [reflexivity|]. cbn [fst].
        rewrite map_app in ND. cbn [map fst] in ND. apply NoDup_remove_2 in ND. intros I. apply ND, in_or_app. left. exact I.
      + apply entry_back; [apply (K k v); left; reflexivity|exact Fe].
    - rewrite (IH (fun k v I => K k v (or_intror I)) Fh (acc ++ [(k, v)])); rewrite <- app_assoc; [reflexivity|exact ND]. }
  rewrite <- !app_assoc, A by exact ND. cbn [app].
  assert (B : forall r, pdecode network_step (NetworkMessage h [] []) (f_len_opt 2 u ++ r) =
                        pdecode network_step (NetworkMessage h u []) r).
  { intros r'. apply fits_f_len_opt in Fu. destruct u as [|x u]; [reflexivity|]. cbn [f_len_opt].
    apply pd_len; [exact network_shrinks|tag_ok|]. unfold network_step. cbn [N.eqb Pos.eqb].
    rewrite back_string by assumption. reflexivity. }
  rewrite B. apply fits_f_len_opt in Fc. destruct c as [|x c]; [reflexivity|]. cbn [f_len_opt].
  apply pd_len; [exact network_shrinks|tag_ok|]. unfold network_step. cbn [N.eqb Pos.eqb].
  rewrite back_bytes by assumption. reflexivity.
Qed.

Lemma advance_app n p r : len p = n -> advance n (p ++ r) = Some r.
Proof.
  intros <-. unfold advance. destruct (N.ltb_spec (len (p ++ r)) (len p)) as [L|_]; [rewrite len_app in L; lia|].
  unfold len. rewrite Nat2N.id, skipn_app, Nat.sub_diag, skipn_all. reflexivity.
Qed.
(** fields with other tags leave a message as it is *)
Lemma unknown_skipped {M} (step : M -> N -> N -> bytes -> option (M * bytes)) (known : N) d fs u m :
  shrinks step -> (0 < d)%nat ->
  (forall m t w b, known < t -> step m t w b = d_skip d m t w b) ->
  wire fs u -> (forall t v, In (t, v) fs -> known < t < 2 ^ 29) ->
  pdecode step m u = Some m.
Proof.
  intros S D K W. destruct d as [|d]; [lia|].
  induction W as [|tag n k v fs r Vk Vn W IH|tag p k l fs r Vk Vl W IH|tag p k fs r Vk Lp W IH|tag p k fs r Vk Lp W IH]; intros T; [reflexivity| | | |].
  - assert (T0 := T tag _ (or_introl eq_refl)).
    rewrite (pdecode_field step S m tag VARINT k v r m); [apply IH; intros; eapply T; right; eassumption|unfold VARINT; rewrite N.add_0_r; exact Vk
      |unfold VARINT; lia|lia|].
    rewrite K by lia. unfold d_skip. cbn [skip_field VARINT N.eqb]. rewrite (varint_of_dec _ _ _ Vn). reflexivity.
  - assert (T0 := T tag _ (or_introl eq_refl)). rewrite (app_assoc l p r).
    rewrite (pdecode_field step S m tag LEN k (l ++ p) r m); [apply IH; intros; eapply T; right; eassumption|exact Vk
      |unfold LEN; lia|lia|].
    rewrite K by lia. unfold d_skip. cbn [skip_field]. change (LEN =? 0) with false. change (LEN =? 1) with false.
    change (LEN =? 2) with true. cbv iota. rewrite <- app_assoc, (varint_of_dec _ _ _ Vl).
    unfold advance. destruct (N.ltb_spec (len (p ++ r)) (len p)) as [L|_]; [rewrite len_app in L; lia|].
    unfold len. rewrite Nat2N.id, skipn_app, Nat.sub_diag, skipn_all. reflexivity.
  - assert (T0 := T tag _ (or_introl eq_refl)).
    rewrite (pdecode_field step S m tag 1 k p r m); [apply IH; intros; eapply T; right; eassumption|exact Vk|lia|lia|].
    rewrite K by lia. unfold d_skip. cbn [skip_field]. change (1 =? 0) with false. change (1 =? 1) with true. cbv iota.
    rewrite (advance_app 8 p r) by (unfold len; rewrite Lp; reflexivity). reflexivity.
  - assert (T0 := T tag _ (or_introl eq_refl)).
    rewrite (pdecode_field step S m tag 5 k p r m); [apply IH; intros; eapply T; right; eassumption|exact Vk|lia|lia|].
    rewrite K by lia. unfold d_skip. cbn [skip_field]. change (5 =? 0) with false. change (5 =? 1) with false. change (5 =? 2) with false.
    change (5 =? 3) with false. change (5 =? 5) with true. cbv iota.
    rewrite (advance_app 4 p r) by (unfold len; rewrite Lp; reflexivity). reflexivity.
Qed.

(** tests that the tag is none of the known ones *)
Ltac unknown_tag := intros ? t ? ? ?; repeat match goal with |- context [t =? ?c] => destruct (N.eqb_spec t c); [lia|] end; reflexivity.

(* ---------------------------------------------------------------------- *)
(** * C72 *)

(** a receiver decodes what was sent, also when the sender added fields this version does not know *)
Theorem C72_ping m fs u :
  ping_ok m -> wire fs u -> (forall t v, In (t, v) fs -> 2 < t < 2 ^ 29) -> dec_ping (enc_ping m ++ u) = Some m.
Proof.
  intros O W T. unfold dec_ping. rewrite ping_back by exact O.
  apply (unknown_skipped ping_step 2 100 fs); [exact ping_shrinks|lia| |exact W|exact T]. unfold ping_step. unknown_tag.
Qed.
Theorem C72_discovery m fs u :
  disc_ok m -> fits (enc_disc m) -> wire fs u -> (forall t v, In (t, v) fs -> 2 < t < 2 ^ 29) ->
  dec_disc (enc_disc m ++ u) = Some m.
Proof.
  intros O F W T. unfold dec_disc. rewrite disc_back by assumption.
  apply (unknown_skipped disc_step 2 100 fs); [exact disc_shrinks|lia| |exact W|exact T]. unfold disc_step. unknown_tag.
Qed.
Theorem C72_identify i fs u :
  identity_ok i -> fits (enc_identity i) -> wire fs u -> (forall t v, In (t, v) fs -> 2 < t < 2 ^ 29) ->
  dec_identity (enc_identity i ++ u) = Some i.
Proof.
  intros O F W T. unfold dec_identity. rewrite identity_back by assumption.
  apply (unknown_skipped identity_step 2 100 fs); [exact identity_shrinks|lia| |exact W|exact T]. unfold identity_step. unknown_tag.
Qed.
Theorem C72_network m fs u :
  network_ok m -> fits (enc_network m) -> wire fs u -> (forall t v, In (t, v) fs -> 3 < t < 2 ^ 29) ->
  dec_network (enc_network m ++ u) = Some m.
Proof.
  intros O F W T. unfold dec_network. rewrite network_back by assumption.
  apply (unknown_skipped network_step 3 100 fs); [exact network_shrinks|lia| |exact W|exact T]. unfold network_step. unknown_tag.
Qed.

(** the fields of an identity may come in either order *)
Theorem C72_identify_order c a : utf8 c = true -> fits c -> fits (enc_addr_info a) -> c <> [] ->
  dec_identity (f_len 2 (enc_addr_info a) ++ f_len 1 c) = Some (Identity c (Some a)).
Proof.
  intros U Fc Fa NE. unfold dec_identity. erewrite (pd_len identity_step) with (m' := Identity [] (Some a)); [|exact identity_shrinks|tag_ok|].
  - rewrite <- (app_nil_r (f_len 1 c)). erewrite (pd_len identity_step) with (m' := Identity c (Some a)); [apply pdecode_nil|exact identity_shrinks|tag_ok|].
    unfold identity_step. cbn [N.eqb Pos.eqb id_info]. rewrite back_string by assumption. reflexivity.
  - unfold identity_step. cbn [N.eqb Pos.eqb id_info id_chain]. rewrite (back_msg addr_info_step _ _ _ a); [reflexivity|exact Fa|]. apply addr_info_back, Fa.
Qed.
(** whatever is received, no header has two values *)
Lemma h_insert_nodup e h : NoDup (map fst h) -> NoDup (map fst (h_insert e h)) /\ forall k, In k (map fst (h_insert e h)) -> k = fst e \/ In k (map fst h).
Proof.
  induction h as [|x h IH]; cbn [h_insert map]; intros ND.
  - split; [constructor; [easy|constructor]|]. cbn. intros k [<-|[]]. left; reflexivity.
  - inversion ND as [|? ? N1 N2]; subst. destruct (beqb (fst x) (fst e)) eqn:B.
    + apply beqb_eq in B. cbn [map]. rewrite <- B. split; [constructor; assumption|]. cbn. intros k [<-|I]; tauto.
    + destruct (IH N2) as [A C]. cbn [map]. split.
      * constructor; [|exact A]. intros I. apply C in I as [I|I]; [|tauto]. rewrite I in B. assert (beqb (fst e) (fst e) = true) by (apply beqb_eq; reflexivity). congruence.
      * cbn. intros k [<-|I]; [tauto|]. apply C in I. tauto.
Qed.
Theorem C72_header_once b m : dec_network b = Some m -> NoDup (map fst (w_headers m)).
Proof.
  unfold dec_network, pdecode. generalize (length b). intros f.
  assert (G : forall f m0 b, NoDup (map fst (w_headers m0)) -> pmerge network_step f m0 b = Some m -> NoDup (map fst (w_headers m))).
  { clear f b. induction f as [|f IH]; intros m0 [|x b] ND E; cbn [pmerge] in E; try discriminate; try (injection E as <-; exact ND).
    destruct (dec_key (x :: b)) as [[[t w] r]|]; [|discriminate]. destruct (network_step m0 t w r) as [[m1 r1]|] eqn:F; [|discriminate].
    apply (IH _ _) in E; [exact E|]. unfold network_step in F. field_cases F.
    - apply d_map_inv in F as (v & _ & ->). apply h_insert_nodup, ND.
    - apply d_map_inv in F as (v & _ & ->). exact ND.
    - apply d_map_inv in F as (v & _ & ->). exact ND.
    - apply d_skip_inv in F as [-> _]. exact ND. }
  apply G. constructor.
Qed.

(** the headers arrive as the same map whatever order the sender's hash map has *)
Lemma h_get_in k v h : NoDup (map fst h) -> h_get k h = Some v <-> In (k, v) h.
Proof.
  induction h as [|[k' v'] h IH]; cbn [map fst h_get In]; intros ND; [easy|]. inversion ND as [|? ? NI ND' E]; subst.
  cbn [snd]. destruct (beqb k' k) eqn:B.
  - apply beqb_eq in B as ->. split.
    + intros H. injection H as ->. left. reflexivity.
    + intros [H|H]; [injection H as ->; reflexivity|]. exfalso. apply NI. apply (in_map fst) in H. exact H.
  - rewrite IH by exact ND'. split; [right; assumption|]. intros [H|H]; [|exact H].
    injection H as -> _. rewrite (proj2 (beqb_eq k k) eq_refl) in B. discriminate.
Qed.

Theorem C72_headers m h :
  network_ok m -> Permutation h (w_headers m) -> fits (enc_network (NetworkMessage h (w_url m) (w_content m))) ->
  exists m', dec_network (enc_network (NetworkMessage h (w_url m) (w_content m))) = Some m' /\
    w_url m' = w_url m /\ w_content m' = w_content m /\ forall k, h_get k (w_headers m') = h_get k (w_headers m).
Proof.
  intros (U & K & ND) P F. exists (NetworkMessage h (w_url m) (w_content m)).
  assert (ND' : NoDup (map fst h)).
  { apply (Permutation_NoDup (l := map fst (w_headers m))); [|exact ND]. symmetry. apply Permutation_map, P. }
  split; [|split; [reflexivity|split; [reflexivity|]]].
  - rewrite <- (app_nil_r (enc_network _)). apply (C72_network _ [] []); [|exact F|constructor|intros ? ? []].
    split; [exact U|]. split; [|exact ND']. intros k v I. apply (K k v). apply (Permutation_in _ P I).
  - intros k. cbn [w_headers]. destruct (h_get k (w_headers m)) as [v|] eqn:E.
    + apply h_get_in; [exact ND'|]. apply h_get_in in E; [|exact ND]. apply (Permutation_in _ (Permutation_sym P) E).
    + destruct (h_get k h) as [v|] eqn:E'; [|reflexivity]. apply h_get_in in E'; [|exact ND'].
      apply (Permutation_in _ P) in E'. apply h_get_in in E'; [|exact ND]. congruence.
Qed.

(** what a peer sends bounds what the node holds after decoding, whatever the bytes are *)
Definition total (l : list bytes) : nat := list_sum (map (fun a => S (length a)) l).
Definition items_total (l : list node) : nat := list_sum (map (fun i => S (total i)) l).
Definition headers_total (h : list (bytes * bytes)) : nat := list_sum (map (fun e => S (length (fst e) + length (snd e))) h).

Lemma list_sum_snoc l x : list_sum (l ++ [x]) = (list_sum l + x)%nat.
Proof. rewrite list_sum_app. cbn. lia. Qed.
Lemma total_snoc l x : total (l ++ [x]) = (total l + S (length x))%nat.
Proof. unfold total. rewrite map_app. apply list_sum_snoc. Qed.
Lemma items_snoc l x : items_total (l ++ [x]) = (items_total l + S (total x))%nat.
Proof. unfold items_total. rewrite map_app. apply list_sum_snoc. Qed.
Lemma h_insert_total e h : (headers_total (h_insert e h) <= headers_total h + S (length (fst e) + length (snd e)))%nat.
Proof.
  unfold headers_total, list_sum. induction h as [|x h IH]; cbn [h_insert map list_sum fold_right]; [unfold bytes in *; lia|].
  destruct (beqb (fst x) (fst e)); cbn [map fold_right] in *; unfold bytes in *; lia.
Qed.

Definition disc_size (m : disc_msg) : nat := match m with Some (PNodes n) => items_total (ns_items n) | _ => 0 end.
Definition info_size (a : addr_info) : nat := total (a_listen a) + length (a_observed a).
Definition identity_size (i : identity) : nat :=
  length (id_chain i) + match id_info i with Some a => info_size a | None => 0 end.
Definition network_size (m : network_message) : nat :=
  headers_total (w_headers m) + length (w_url m) + length (w_content m).

Lemma node_size m b m' : pdecode node_step m b = Some m' -> (total m' <= total m + length b)%nat.
Proof.
  apply pdecode_size. clear m m'. intros m t w b' m' r H. unfold node_step in H. field_inv H; [rewrite total_snoc; lia|lia].
Qed.
Lemma nodes_size m b m' :
  pdecode nodes_step m b = Some m' -> (items_total (ns_items m') <= items_total (ns_items m) + length b)%nat.
Proof.
  apply (pdecode_size nodes_step (fun m => items_total (ns_items m))). clear m m'.
  intros m t w b' m' r H. unfold nodes_step in H. field_inv H; cbn [ns_items]; [lia| |lia].
  apply node_size in D. rewrite items_snoc. cbn in D. lia.
Qed.
Lemma addr_info_size m b m' : pdecode addr_info_step m b = Some m' -> (info_size m' <= info_size m + length b)%nat.
Proof.
  apply pdecode_size. clear m m'. intros m t w b' m' r H. unfold addr_info_step in H.
  unfold info_size. field_inv H; cbn [a_listen a_observed]; [rewrite total_snoc; lia|lia|lia].
Qed.
Lemma entry_size m b m' :
  pdecode entry_step m b = Some m' -> (length (fst m') + length (snd m') <= length (fst m) + length (snd m) + length b)%nat.
Proof.
  apply (pdecode_size entry_step (fun m => (length (fst m) + length (snd m))%nat)). clear m m'.
  intros m t w b' m' r H. unfold entry_step in H. field_inv H; cbn [fst snd]; lia.
Qed.

Theorem C72_bounded b :
  (forall m, dec_disc b = Some m -> (disc_size m <= length b)%nat) /\
  (forall i, dec_identity b = Some i -> (identity_size i <= length b)%nat) /\
  (forall m, dec_network b = Some m -> (network_size m <= length b)%nat).
Proof.
  split; [|split]; intros m H.
  - apply (pdecode_size disc_step disc_size) in H; [exact H|]. clear m H b.
    intros m t w b m' r H. unfold disc_step in H. field_inv H; cbn [disc_size]; [lia| |lia].
    apply nodes_size in D. destruct m as [[g|n]|]; cbn [disc_size ns_items] in *; cbn in D; lia.
  - apply (pdecode_size identity_step identity_size) in H; [exact H|]. clear m H b.
    intros m t w b m' r H. unfold identity_step in H. unfold identity_size. field_inv H; cbn [id_chain id_info]; [lia| |lia].
    apply addr_info_size in D. destruct (id_info m) as [a|]; cbn in D; lia.
  - apply (pdecode_size network_step network_size) in H; [exact H|]. clear m H b.
    intros m t w b m' r H. unfold network_step in H. unfold network_size.
    field_inv H; cbn [w_headers w_url w_content]; [|lia|lia|lia].
    apply entry_size in D. cbn [fst snd length] in D. pose proof (h_insert_total v (w_headers m)). lia.
Qed.

(** the bytes sent are the protobuf form of the message: other implementations of the protocol read them *)
Lemma wire_app fs gs a b : wire fs a -> wire gs b -> wire (fs ++ gs) (a ++ b).
Proof.
  intros W G. induction W as [|tag n k v fs r Vk Vn W IH|tag p k l fs r Vk Vl W IH|tag p k fs r Vk Lp W IH|tag p k fs r Vk Lp W IH]; [exact G|..]; cbn [app];
    rewrite <- !app_assoc; constructor; assumption.
Qed.
Lemma wire_uint tag n : 1 <= tag < 2 ^ 29 -> n < 2 ^ 64 -> wire [(tag, WInt n)] (f_uint tag n).
Proof.
  intros T H. unfold f_uint. rewrite <- (app_nil_r (enc_varint n)). constructor; [|apply enc_varint_of, H|constructor].
  rewrite <- (N.add_0_r (tag * 8)). apply enc_key_of; [unfold VARINT; lia|exact T].
Qed.
Lemma wire_f_len tag p : 1 <= tag < 2 ^ 29 -> fits p -> wire [(tag, WLen p)] (f_len tag p).
Proof.
  intros T H. unfold f_len. replace (enc_varint (len p) ++ p) with (enc_varint (len p) ++ p ++ []) by (rewrite app_nil_r; reflexivity).
  constructor; [|apply enc_varint_of, H|constructor].
  apply enc_key_of; [unfold LEN; lia|exact T].
Qed.
Lemma wire_uint_opt tag n : 1 <= tag < 2 ^ 29 -> n < 2 ^ 64 -> wire (opt_int tag n) (f_uint_opt tag n).
Proof. intros T H. unfold opt_int, f_uint_opt. destruct (n =? 0); [constructor|apply wire_uint; assumption]. Qed.
Lemma wire_len_opt tag p : 1 <= tag < 2 ^ 29 -> fits p -> wire (opt_len tag p) (f_len_opt tag p).
Proof. intros T H. unfold opt_len, f_len_opt. destruct p; [constructor|apply wire_f_len; assumption]. Qed.
Lemma wire_repeated {A} (f : A -> bytes) tag l :
  1 <= tag < 2 ^ 29 -> fits (concat (map (fun a => f_len tag (f a)) l)) ->
  wire (map (fun a => (tag, WLen (f a))) l) (concat (map (fun a => f_len tag (f a)) l)).
Proof.
  intros T. induction l as [|a l IH]; cbn [map concat]; intros F; [constructor|]. apply fits_app in F as [Fa Fl].
  apply (wire_app [_]); [apply wire_f_len; [exact T|apply fits_f_len in Fa; exact Fa]|apply IH, Fl].
Qed.

Lemma u32_u64 n : u32 n -> n < 2 ^ 64.
Proof. unfold u32. change (2 ^ 32) with 4294967296. change (2 ^ 64) with 18446744073709551616. lia. Qed.

Theorem C72_wire_ping n :
  u32 n -> wire [(1, WInt n)] (enc_ping (Some (Ping n))) /\ wire [(2, WInt n)] (enc_ping (Some (Pong n))).
Proof. intros U. split; (apply wire_uint; [tag_ok|apply u32_u64, U]). Qed.

Theorem C72_wire_discovery m :
  disc_ok m -> fits (enc_disc m) ->
  match m with
  | None => enc_disc m = []
  | Some (PGetNodes g) =>
      exists p, wire [(1, WLen p)] (enc_disc m) /\
        wire (opt_int 1 (gn_version g) ++ opt_int 2 (gn_count g) ++ match gn_port g with Some n => [(3, WInt n)] | None => [] end) p
  | Some (PNodes n) =>
      exists p qs, wire [(2, WLen p)] (enc_disc m) /\
        wire ((if ns_announce n then [(1, WInt 1)] else []) ++ map (fun q => (2, WLen q)) qs) p /\
        Forall2 (fun item q => wire (map (fun a => (1, WLen a)) item) q) (ns_items n) qs
  end.
Proof.
  destruct m as [[g|n]|]; cbn [enc_disc disc_ok]; [| |reflexivity].
  - intros (V & C & P) F. apply fits_f_len in F. exists (enc_get_nodes g). split; [apply wire_f_len; [tag_ok|exact F]|].
    unfold enc_get_nodes. apply wire_app; [apply wire_uint_opt; [tag_ok|apply u32_u64, V]|].
    apply wire_app; [apply wire_uint_opt; [tag_ok|apply u32_u64, C]|].
    destruct (gn_port g) as [q|]; [apply wire_uint; [tag_ok|apply u32_u64, P; reflexivity]|constructor].
  - intros _ F. apply fits_f_len in F. exists (enc_nodes n), (map enc_node (ns_items n)).
    split; [apply wire_f_len; [tag_ok|exact F]|]. unfold enc_nodes in *. apply fits_app in F as [_ F]. split.
    + apply wire_app.
      * destruct (ns_announce n); [apply wire_uint; [tag_ok|reflexivity]|constructor].
      * rewrite map_map. apply (wire_repeated enc_node); [tag_ok|exact F].
    + clear - F. induction (ns_items n) as [|i l IH]; cbn [map concat] in *; [constructor|].
      apply fits_app in F as [Fi Fl]. constructor; [|apply IH, Fl]. apply fits_f_len in Fi.
      apply (wire_repeated (fun a => a)); [tag_ok|exact Fi].
Qed.

Theorem C72_wire_identify i :
  fits (enc_identity i) ->
  match id_info i with
  | None => wire (opt_len 1 (id_chain i)) (enc_identity i)
  | Some a =>
      exists p, wire (opt_len 1 (id_chain i) ++ [(2, WLen p)]) (enc_identity i) /\
        wire (map (fun x => (1, WLen x)) (a_listen a) ++ opt_len 2 (a_observed a)) p
  end.
Proof.
  intros F. unfold enc_identity in *. apply fits_app in F as [Fc Fo]. apply fits_f_len_opt in Fc.
  destruct (id_info i) as [a|].
  - exists (enc_addr_info a). apply fits_f_len in Fo. split.
    + apply wire_app; [apply wire_len_opt; [tag_ok|exact Fc]|apply wire_f_len; [tag_ok|exact Fo]].
    + unfold enc_addr_info in *. apply fits_app in Fo as [Fl Fo]. apply wire_app.
      * apply (wire_repeated (fun x => x)); [tag_ok|exact Fl].
      * apply wire_len_opt; [tag_ok|apply fits_f_len_opt in Fo; exact Fo].
  - rewrite app_nil_r. apply wire_len_opt; [tag_ok|exact Fc].
Qed.

Theorem C72_wire_network m :
  fits (enc_network m) ->
  exists qs,
    wire (map (fun q => (1, WLen q)) qs ++ opt_len 2 (w_url m) ++ opt_len 3 (w_content m)) (enc_network m) /\
    Forall2 (fun e q => wire (opt_len 1 (fst e) ++ opt_len 2 (snd e)) q) (w_headers m) qs.
Proof.
  intros F. unfold enc_network in *. apply fits_app in F as [Fh F]. apply fits_app in F as [Fu Fc].
  exists (map enc_entry (w_headers m)). split.
  - apply wire_app; [rewrite map_map; apply (wire_repeated enc_entry); [tag_ok|exact Fh]|].
    apply wire_app; apply wire_len_opt; try tag_ok; [apply fits_f_len_opt in Fu; exact Fu|apply fits_f_len_opt in Fc; exact Fc].
  - induction (w_headers m) as [|e l IH]; cbn [map concat] in *; [constructor|].
    apply fits_app in Fh as [Fe Fl]. apply fits_f_len in Fe. constructor; [|apply IH, Fl].
    unfold enc_entry in *. apply fits_app in Fe as [Fk Fv].
    apply wire_app; apply wire_len_opt; try tag_ok; [apply fits_f_len_opt in Fk; exact Fk|apply fits_f_len_opt in Fv; exact Fv].
Qed.

(* ---------------------------------------------------------------------- *)
(** * Concrete cases *)

(** the message "/gossip/a/b" with one header, a discovery answer with two items, an identity, a ping with nonce 300 *)
Example C72_example :
  let m := NetworkMessage [([115; 112; 97; 110], [0; 0; 0; 0; 0; 0; 0; 7]); ([116], [])]
                          [47; 103; 111; 115; 115; 105; 112; 47; 97; 47; 98] [1; 2; 3] in
  let d := Some (PNodes (Nodes true [[[4; 127; 0; 0; 1]]; [[4; 10; 0; 0; 1]; [6; 31; 144]]])) in
  let i := Identity [48; 120; 51] (Some (AddrInfo [[4; 1; 2; 3; 4]] [4; 5; 6; 7; 8])) in
  network_ok m /\ dec_network (enc_network m) = Some m /\
  dec_disc (enc_disc d) = Some d /\ dec_identity (enc_identity i) = Some i /\
  enc_ping (Some (Ping 300)) = [8; 172; 2] /\ dec_ping [8; 172; 2; 16; 5] = Some (Some (Pong 5)) /\
  dec_ping [8; 172] = None /\ dec_ping [10; 1; 5] = None /\
  dec_ping ([8; 7] ++ [35; 8; 1; 36] ++ [45; 1; 2; 3; 4]) = Some (Some (Ping 7)) /\
  dec_disc (enc_disc (Some (PGetNodes (GetNodes 1 1000 (Some 8080))))) = Some (Some (PGetNodes (GetNodes 1 1000 (Some 8080)))).
Proof.
  cbv zeta. split; [|vm_compute; repeat split].
  split; [reflexivity|]. split.
  - intros k v [H|[H|[]]]; injection H as <- <-; reflexivity.
  - repeat constructor; cbn; intuition discriminate.
Qed.

Print Assumptions C72_ping.
Print Assumptions C72_discovery.
Print Assumptions C72_identify.
Print Assumptions C72_network.
Print Assumptions C72_headers.
Print Assumptions C72_bounded.
Print Assumptions C72_wire_ping.
Print Assumptions C72_wire_discovery.
Print Assumptions C72_wire_identify.
Print Assumptions C72_wire_network.
Print Assumptions C72_example.
Print Assumptions C72_identify_order.
Print Assumptions C72_header_once.
