(** Lemmas about block execution: account updates, totals, the transaction loop. *)
From Verif Require Import Bytes BytesProofs Rlp TxModel BlockModel MempoolModel CellModel MetaModel ExecModel.
From stdpp Require Import base gmap list.
From Coq Require Import Lia.
Local Open Scope N_scope.

(** sum of all balances *)
Definition total (m : accounts) : N := map_fold (fun _ x n => a_balance x + n) 0 m.
Definition balance (m : accounts) (a : bytes) : N := a_balance (get_account m a).

Lemma total_insert_new m a x : m !! a = None -> total (<[a := x]> m) = a_balance x + total m.
Proof.
  intros L. unfold total. rewrite map_fold_insert_L; [done| |done].
  intros. lia.
Qed.
Lemma total_delete m a : total m = balance m a + total (delete a m).
Proof.
  unfold balance, get_account. destruct (m !! a) as [x|] eqn:L; cbn.
  - rewrite <- (insert_delete m a x L) at 1. rewrite total_insert_new; [done|]. apply lookup_delete.
  - by rewrite delete_notin.
Qed.
Lemma total_insert m a x : total (<[a := x]> m) + balance m a = total m + a_balance x.
Proof.
  rewrite <- insert_delete_insert, total_insert_new by apply lookup_delete.
  rewrite (total_delete m a). lia.
Qed.
Lemma balance_le_total m a : balance m a <= total m.
Proof. rewrite (total_delete m a). lia. Qed.

Lemma get_insert m a x : get_account (<[a := x]> m) a = x.
Proof. unfold get_account. by rewrite lookup_insert. Qed.
Lemma get_insert_ne m a b x : a <> b -> get_account (<[a := x]> m) b = get_account m b.
Proof. intros. unfold get_account. by rewrite lookup_insert_ne. Qed.

Section P.
  Variable keccak : bytes -> bytes.
  Notation apply_ops := (apply_ops keccak).
  Notation apply_one := (apply_one keccak).
  Notation modify := (modify keccak).

  (** a plain write of nonce and balance, as the system contracts do *)
  Lemma modify_basic s a n b : fst (modify s a n b None [] false) =
    save_account s a (Acc n b (a_storage (get_account (xs_acc s) a)) (a_code (get_account (xs_acc s) a))).
  Proof. done. Qed.

  Lemma apply_one_basic s a n b : apply_one false s (AModify a n b None [] false) =
    save_account s a (Acc n b (a_storage (get_account (xs_acc s) a)) (a_code (get_account (xs_acc s) a))).
  Proof.
    unfold ExecModel.apply_one, ExecModel.modify. by rewrite andb_false_r.
  Qed.

  (** touching keeps every account's contents *)
  Lemma get_touches s0 l s : (forall b, get_account (xs_acc s) b = get_account (xs_acc s0) b) ->
    forall b, get_account (xs_acc (fold_left (apply_one false) (map (touch s0) l) s)) b = get_account (xs_acc s0) b.
  Proof.
    revert s. induction l as [|a l IH]; intros s H b; [apply H|].
    cbn [map fold_left]. apply IH. intros c. unfold touch at 1. rewrite apply_one_basic.
    unfold save_account, set_acc. cbn [xs_acc]. rewrite H.
    destruct (decide (a = c)) as [<-|N]; [|by rewrite get_insert_ne].
    rewrite get_insert. by destruct (get_account (xs_acc s0) a).
  Qed.

  Lemma update_states_spec s a l s' : update_states keccak s a l = Ok s' ->
    (forall b, get_account (xs_acc s') b =
       if decide (a = b) then
         let x := get_account (xs_acc s) a in Acc (a_nonce x + 1) (a_balance x) (a_storage x) (a_code x)
       else get_account (xs_acc s) b) /\
    a_nonce (get_account (xs_acc s) a) + 1 < U256_MOD.
  Proof.
    unfold update_states. destruct (N.leb_spec U256_MOD (a_nonce (get_account (xs_acc s) a) + 1)) as [|L]; [done|].
    intros [= <-]. split; [|done]. intros b. unfold ExecModel.apply_ops, set_logs. cbn [xs_acc].
    rewrite fold_left_app. cbn [fold_left]. rewrite apply_one_basic.
    unfold save_account, set_acc. cbn [xs_acc].
    rewrite !(get_touches s l s) by done.
    destruct (decide (a = b)) as [<-|N].
    - by rewrite get_insert.
    - rewrite get_insert_ne by done. by apply get_touches.
  Qed.

  (** fields other than accounts, code and logs are not touched by account operations *)
  Lemma apply_one_rest del s op :
    xs_ctx (apply_one del s op) = xs_ctx s /\ xs_meta (apply_one del s op) = xs_meta s /\
    xs_cells (apply_one del s op) = xs_cells s /\ xs_hf (apply_one del s op) = xs_hf s.
  Proof.
    destruct op as [a n b c st r|a]; [|done]. unfold ExecModel.apply_one, ExecModel.modify.
    destruct c as [c|]; [destruct (beqb _ _)|]; cbn zeta iota;
      match goal with |- context [if ?x then _ else _] => destruct x end; done.
  Qed.
  Lemma apply_ops_rest s ops logs del :
    xs_ctx (apply_ops s ops logs del) = xs_ctx s /\ xs_meta (apply_ops s ops logs del) = xs_meta s /\
    xs_cells (apply_ops s ops logs del) = xs_cells s /\ xs_hf (apply_ops s ops logs del) = xs_hf s.
  Proof.
    unfold ExecModel.apply_ops, set_logs. cbn.
    revert s. induction ops as [|op ops IH]; intros s; [done|]. cbn [fold_left].
    destruct (IH (apply_one del s op)) as (A & B & C & D). pose proof (apply_one_rest del s op) as (A' & B' & C' & D').
    by rewrite A, B, C, D, A', B', C', D'.
  Qed.
End P.

(** equal contents give equal totals *)
Lemma total_ext m m' : (forall a, balance m a = balance m' a) -> total m = total m'.
Proof.
  assert (G : forall m m', (forall a, balance m a = balance m' a) -> total m <= total m').
  { clear. intros m. induction m as [|a x m L IH] using map_ind; intros m' H; [unfold total; rewrite map_fold_empty; lia|].
    rewrite total_insert_new by done. rewrite (total_delete m' a).
    assert (E : balance m' a = a_balance x).
    { rewrite <- H. unfold balance. by rewrite get_insert. }
    rewrite E. assert (total m <= total (delete a m')); [|lia]. apply IH. intros b.
    destruct (decide (a = b)) as [<-|N].
    - unfold balance, get_account. by rewrite L, lookup_delete.
    - transitivity (balance m' b).
      + rewrite <- H. unfold balance. by rewrite get_insert_ne.
      + unfold balance, get_account. by rewrite lookup_delete_ne. }
  intros H. apply N.le_antisymm; apply G; [done|]. intros a. by rewrite H.
Qed.

(* ---------------- fee split ---------------- *)
Definition sumN (l : list N) : N := fold_right N.add 0 l.
Lemma fold_left_sum l a : fold_left N.add l a = a + sumN l.
Proof. unfold sumN. revert a. induction l as [|x l IH]; intros a; cbn [fold_left fold_right]; [lia|]. rewrite IH. lia. Qed.

(** what address [a] receives from a list of payments *)
Definition paid_to (l : list (bytes * N)) (a : bytes) : N :=
  sumN (map snd (filter (fun p => fst p = a) l)).

Lemma paid_to_cons b x l a : paid_to ((b, x) :: l) a = (if decide (b = a) then x else 0) + paid_to l a.
Proof.
  unfold paid_to, sumN. rewrite filter_cons. cbn [fst].
  destruct (decide (b = a)) as [E|E]; cbn [map snd fold_right]; lia.
Qed.

Lemma credit_spec m l m' : credit m l = Ok m' ->
  (forall a, balance m' a = balance m a + paid_to l a /\ a_nonce (get_account m' a) = a_nonce (get_account m a) /\
     a_storage (get_account m' a) = a_storage (get_account m a) /\ a_code (get_account m' a) = a_code (get_account m a)).
Proof.
  revert m. induction l as [|[b x] l IH]; intros m E a.
  - cbn in E. injection E as <-. split; [unfold paid_to; cbn; lia|done].
  - rewrite paid_to_cons. cbn [credit] in E. destruct (N.eqb_spec x 0) as [->|NZ].
    + destruct (IH _ E a) as (A & B). split; [|done]. rewrite A. destruct (decide (b = a)); lia.
    + destruct (U256_MOD <=? _) eqn:O; [done|].
      destruct (IH _ E a) as (A & B & C & D). rewrite A, B, C, D. unfold balance.
      destruct (decide (b = a)) as [<-|N].
      * rewrite get_insert. cbn. repeat split; lia.
      * rewrite get_insert_ne by done. repeat split; lia.
Qed.

Lemma credit_total m l m' : credit m l = Ok m' -> total m' = total m + sumN (map snd l).
Proof.
  revert m. induction l as [|[b x] l IH]; intros m E.
  - cbn in E. injection E as <-. unfold sumN. cbn [map fold_right]. lia.
  - cbn [credit] in E. cbn [map sumN fold_right snd]. destruct (N.eqb_spec x 0) as [->|NZ].
    + rewrite (IH _ E). unfold sumN. lia.
    + destruct (U256_MOD <=? _) eqn:O; [done|]. rewrite (IH _ E).
      pose proof (total_insert m b (Acc (a_nonce (get_account m b)) (a_balance (get_account m b) + x)
                    (a_storage (get_account m b)) (a_code (get_account m b)))) as T.
      cbn [a_balance] in T. unfold balance in T. unfold sumN in *. lia.
Qed.

Lemma sumN_scale k l : sumN (map (N.mul k) l) = k * sumN l.
Proof. unfold sumN. induction l as [|x l IH]; cbn [map fold_right]; [lia|]. rewrite IH. lia. Qed.
