(** C51, C63: examples and findings. *)
From stdpp Require Import base gmap list.
From Verif Require Import Bytes TxModel ApiModel ApiProps FilterProps.
From Coq Require Import Lia.
#[local] Open Scope N_scope.

(** the chain of [ApiProps] up to block 0, an empty hub *)
Definition f_init : fstate := ApiModel.FS (Chain [ex_block 0 []] ex_store) hub_empty 0.
Definition g1 := FGrow (ex_block 1 [11; 12]).
Definition g2 := FGrow (ex_block 2 [21]).
Definition g3 := FGrow (ex_block 3 []).
Definition answers (es : list fev) : list (option answer) := map snd (frun 100 f_init es).2.

Lemma ex_wf es : grown es = take (length (grown es)) [ex_block 1 [11; 12]; ex_block 2 [21]; ex_block 3 []] -> wf_chain (fs_chain (frun 100 f_init es).1).
Proof.
  rewrite frun_chain. intros ->. split; [done|]. intros k b. cbn. destruct k as [|k]; cbn; [by intros [= <-]|]. intros H.
  assert (H' : [ex_block 1 [11; 12]; ex_block 2 [21]; ex_block 3 []] !! k = Some b).
  { revert H. generalize (length (grown es)). intros m Hm. by apply lookup_take_Some in Hm as [Hm _]. }
  destruct k as [|[|[|k]]]; cbn in H'; [by injection H' as <-..|done].
Qed.

(** Two filters of each kind polled at different times. *)
Definition ex_lf : lfilter := lfilter_of None None (Some [7]) (Some [Some [Some 1]]).
Example C51_nontrivial :
  let es := [FNewLogs 6 ex_lf false; g1; FPoll 5 false; FNewBlocks 4 false; FTime 1000; FPoll 5 false; g2; FPoll 6 false; g3; FPoll 4 false; FPoll 6 false; FPoll 5 false] in
  fresh 5 es /\ wf_chain (fs_chain (frun 100 f_init (FNewBlocks 5 false :: es)).1) /\
  answers (FNewBlocks 5 false :: es) =
  [Some (AId 5); Some (AId 6); None; Some (ABlocks [101]); Some (AId 4); None; Some (ABlocks []); None;
   Some (ALogs [WLog 7 [1; 2] 0 101 1 11 0 0; WLog 7 [1; 3; 4; 5] 0 101 1 12 1 0; WLog 7 [1; 2; 6] 0 102 2 21 0 1]); None;
   Some (ABlocks [102; 103]); Some (ALogs []); Some (ABlocks [102; 103])].
Proof. cbn zeta. split; [repeat constructor; done|]. split; [by apply ex_wf|]. vm_compute. done. Qed.

(** Finding: a poll that finds no new block does not count as a use.  A client that polls every 10 s while the chain stands still loses
    its filter after 40 s, and with it the block that comes next. *)
Theorem C51_idle_refuted :
  exists es, fresh 5 es /\ wf_chain (fs_chain (frun 100 f_init (FNewBlocks 5 false :: es)).1) /\
    answers (FNewBlocks 5 false :: es) =
    [Some (AId 5); None; Some (ABlocks []); None; Some (ABlocks []); None; Some (ABlocks []); None; Some (ABlocks []); None; None; Some AError].
Proof.
  exists [FTime 10000; FPoll 5 false; FTime 10000; FPoll 5 false; FTime 10000; FPoll 5 false; FTime 10000; FPoll 5 false; FTimer; g1; FPoll 5 false].
  split; [repeat constructor|]. split; [by apply ex_wf|]. vm_compute. done.
Qed.
(** Finding: the hub answers with [sender.send(..).unwrap()]; one client that went away ends it for everybody. *)
Theorem C51_gone_refuted :
  exists es, fresh 5 es /\ wf_chain (fs_chain (frun 100 f_init (FNewBlocks 5 false :: es)).1) /\
    answers (FNewBlocks 5 false :: es) = [Some (AId 5); None; None; Some AError; Some AError].
Proof.
  exists [g1; FPoll 77 true; FPoll 5 false; FNewBlocks 6 false]. split; [repeat constructor; done|]. split; [by apply ex_wf|]. vm_compute. done.
Qed.
(** Finding: a log filter that asks for the whole chain starts at the next block: its first poll is empty, although eth_getLogs with the
    same bounds finds logs. *)
Theorem C63_history_refuted :
  exists f es l, lf_from f = Some BEarliest /\ lf_to f = None /\
    answers es = [None; Some (AId 6); Some (ALogs [])] /\ es = [g1; FNewLogs 6 f false; FPoll 6 false] /\
    get_logs (fs_chain (frun 100 f_init es).1) 100 (WFilter (lf_from f) (lf_to f) None (lf_addr f) (Some (lf_topics f))) = Ok l /\ l <> [].
Proof.
  set (f := lfilter_of (Some BEarliest) None (Some [7]) (Some [Some [Some 1]])).
  exists f, [g1; FNewLogs 6 f false; FPoll 6 false], [WLog 7 [1; 2] 0 101 1 11 0 0; WLog 7 [1; 3; 4; 5] 0 101 1 12 1 0].
  split; [done|]. split; [done|]. split; [vm_compute; done|]. split; [done|]. split; [vm_compute; done|done].
Qed.
(** Finding: a poll after more than log_filter_max_block_range new blocks fails and removes the filter; its logs are lost. *)
Theorem C63_gap_refuted :
  exists es, fresh 6 es /\ map snd (frun 1 f_init (FNewLogs 6 ex_lf false :: es)).2 = [Some (AId 6); None; None; None; Some AError; Some AError].
Proof. exists [g1; g2; g3; FPoll 6 false; FPoll 6 false]. split; [repeat constructor|]. vm_compute. done. Qed.
(** When exactly a poll of an installed log filter is refused. *)
Theorem C63_refused r s id f t :
  wf_chain (fs_chain s) -> fh_alive (fs_hub s) = true -> fh_blocks (fs_hub s) !! id = None -> fh_logs (fs_hub s) !! id = Some (f, t) ->
  (length (lf_topics f) <= 4)%nat ->
  let c := fs_chain s in let k := resolve (tip c) (lf_from f) in let stop := N.min (resolve (tip c) (lf_to f)) (tip c) in
  (fstep r s (FPoll id false)).2 = Some AError <-> k <= tip c /\ r < stop - k.
Proof.
  intros Hwf Ha Hb Hl Hts c k stop. cbn [fstep]. rewrite Ha. unfold poll. rewrite Hb, Hl, filter_logs_spec by done. cbv zeta. fold c. fold k. fold stop.
  destruct (N.ltb_spec (tip c) k); [cbn; split; [done|lia]|]. destruct (N.ltb_spec r (stop - k)); cbn; split; try done. lia.
Qed.

Print Assumptions C51_once.
Print Assumptions C51_answered.
Print Assumptions C51_alive.
Print Assumptions C51_kept.
Print Assumptions C51_idle_refuted.
Print Assumptions C51_gone_refuted.
Print Assumptions C63_once.
Print Assumptions C63_refused.
Print Assumptions C63_kept.
Print Assumptions C63_history_refuted.
Print Assumptions C63_gap_refuted.
