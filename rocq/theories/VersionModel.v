(** The version file of a data directory and the stop options of "run".
    Models /repo/core/cli/src/utils.rs 14-62, /repo/common/version/src/lib.rs 6-50, /repo/src/main.rs 6-16,
    /repo/core/cli/src/args/{init,run}.rs, /repo/core/consensus/src/stop_signal.rs, /repo/core/run/src/lib.rs 145-157, 305-311 and the
    first lines of commit, /repo/core/consensus/src/engine.rs 253-289.
    The crate semver (1.0.20) is not in /repo; its parser, printer and order are written down from its published source.
    A text is the list of its bytes.  Simplifications: errors carry no message; reading and writing the file never fail. *)
From Verif Require Import Bytes Rlp TxModel.
From Coq Require Import NArith List.
Import ListNotations.
Local Open Scope N_scope.

(* ---------------- semver ---------------- *)
(** semver::Version; the identifiers are kept as texts, empty when absent. *)
Record version := mkver { v_major : N; v_minor : N; v_patch : N; v_pre : list N; v_build : list N }.

Definition is_digit (b : N) : bool := (48 <=? b) && (b <=? 57).
(** letters, digits and "-" *)
Definition is_word (b : N) : bool :=
  is_digit b || ((65 <=? b) && (b <=? 90)) || ((97 <=? b) && (b <=? 122)) || (b =? 45).

(** numeric_identifier (semver parse.rs): decimal digits without a leading zero, at most u64::MAX. *)
Fixpoint num_loop (s : list N) (first : bool) (v : N) : option (N * list N) :=
  match s with
  | [] => if first then None else Some (v, [])
  | d :: r =>
      if is_digit d then
        if (v =? 0) && negb first then None
        else let v' := v * 10 + (d - 48) in if v' <? 2 ^ 64 then num_loop r false v' else None
      else if first then None else Some (v, s)
  end.
Definition read_num (s : list N) : option (N * list N) := num_loop s true 0.
(** dot (semver parse.rs), strip_prefix *)
Definition strip (c : N) (s : list N) : option (list N) :=
  match s with
  | b :: r => if b =? c then Some r else None
  | [] => None
  end.
(** str::split('.') *)
Fixpoint split_dot (s : list N) : list (list N) :=
  match s with
  | [] => [[]]
  | b :: r =>
      if b =? 46 then [] :: split_dot r
      else match split_dot r with
           | w :: ws => (b :: w) :: ws
           | [] => [[b]]
           end
  end.
(** the longest start made of word characters and dots *)
Fixpoint span (s : list N) : list N * list N :=
  match s with
  | [] => ([], [])
  | b :: r => if is_word b || (b =? 46) then let '(a, q) := span r in (b :: a, q) else ([], s)
  end.
(** one dot separated word: not empty and, in a pre-release, no number with a leading zero *)
Definition word_ok (pre : bool) (w : list N) : bool :=
  match w with
  | [] => false
  | b :: r => negb (pre && forallb is_digit w && (b =? 48) && negb (match r with [] => true | _ => false end))
  end.
(** identifier (semver parse.rs), its loop written as a span followed by a check of the words. *)
Definition ident_ok (pre : bool) (a : list N) : bool := match a with [] => true | _ => forallb (word_ok pre) (split_dot a) end.
Definition read_ident (pre : bool) (s : list N) : option (list N * list N) :=
  let '(a, r) := span s in if ident_ok pre a then Some (a, r) else None.
(** the "-pre" and "+build" parts: absent, or not empty *)
Definition read_part (c : N) (pre : bool) (s : list N) : option (list N * list N) :=
  match strip c s with
  | None => Some ([], s)
  | Some r =>
      let? (a, q) := read_ident pre r in
      match a with [] => None | _ => Some (a, q) end
  end.
(** Version::from_str (semver parse.rs; common/version/src/lib.rs 11-17). *)
Definition parse (s : list N) : option version :=
  let? (ma, s) := read_num s in
  let? s := strip 46 s in
  let? (mi, s) := read_num s in
  let? s := strip 46 s in
  let? (pa, s) := read_num s in
  let? (pre, s) := read_part 45 true s in
  let? (bu, s) := read_part 43 false s in
  match s with [] => Some (mkver ma mi pa pre bu) | _ => None end.

(** decimal digits of a number *)
Fixpoint dec_digits (f : nat) (n : N) : list N :=
  match f with
  | O => []
  | S f' => if n <? 10 then [48 + n] else dec_digits f' (n / 10) ++ [48 + n mod 10]
  end.
Definition show_num (n : N) : list N := dec_digits (S (N.to_nat (N.log2 n))) n.
(** Display of semver::Version (common/version/src/lib.rs 19-23). *)
Definition show_part (c : N) (a : list N) : list N := match a with [] => [] | _ => c :: a end.
Definition show (v : version) : list N :=
  show_num (v_major v) ++ [46] ++ show_num (v_minor v) ++ [46] ++ show_num (v_patch v)
  ++ show_part 45 (v_pre v) ++ show_part 43 (v_build v).

(** Ord of str: bytewise, a proper start comes first. *)
Fixpoint cmp_text (a b : list N) : comparison :=
  match a, b with
  | [], [] => Eq
  | [], _ => Lt
  | _, [] => Gt
  | x :: a', y :: b' => match x ?= y with Eq => cmp_text a' b' | c => c end
  end.
Definition then_cmp (c d : comparison) : comparison := match c with Eq => d | _ => c end.
(** Ord of Prerelease (semver impls.rs): the words in turn. *)
Definition cmp_word (a b : list N) : comparison :=
  match forallb is_digit a, forallb is_digit b with
  | false, true => Gt
  | true, false => Lt
  | false, false => cmp_text a b
  | true, true => then_cmp (len a ?= len b) (cmp_text a b)
  end.
Fixpoint cmp_words (a b : list (list N)) : comparison :=
  match a, b with
  | [], [] => Eq
  | [], _ => Lt
  | _, [] => Gt
  | x :: a', y :: b' => then_cmp (cmp_word x y) (cmp_words a' b')
  end.
Definition cmp_pre (a b : list N) : comparison :=
  match a, b with
  | [], [] => Eq
  | [], _ => Gt
  | _, [] => Lt
  | _, _ => cmp_words (split_dot a) (split_dot b)
  end.
(** Ord of BuildMetadata (semver impls.rs): as the words of a pre-release, but leading zeroes are cut first and count only when the
    numbers are equal, and an absent build comes first.  Only builds that are equal are ever compared here (see [version_new]), so the
    order of different builds is kept abstract. *)
Definition cmp_version (cmp_build : list N -> list N -> comparison) (v w : version) : comparison :=
  then_cmp (v_major v ?= v_major w)
    (then_cmp (v_minor v ?= v_minor w)
       (then_cmp (v_patch v ?= v_patch w)
          (then_cmp (cmp_pre (v_pre v) (v_pre w)) (cmp_build (v_build v) (v_build w))))).

(* ---------------- common/version ---------------- *)
(** "unknown" (lib.rs 4) *)
Definition UNKNOWN : list N := [117; 110; 107; 110; 111; 119; 110].
(** set_commit_id (43-48): [None] is a panic. *)
Definition set_commit_id (v : version) (c : list N) : option version :=
  let? (a, r) := read_ident false c in
  match r with [] => Some (mkver (v_major v) (v_minor v) (v_patch v) (v_pre v) a) | _ => None end.
(** Version::new (26-31) and new_with_commit_id (33-35): [None] is a panic. *)
Definition version_new (s : list N) : option version := let? v := parse s in set_commit_id v UNKNOWN.
Definition version_new_with (s c : list N) : option version := let? v := version_new s in set_commit_id v c.

(* ---------------- check_version ---------------- *)
(** check_version (core/cli/src/utils.rs 14-37): the file before ([None] when it does not exist) to the result and the file after. *)
Definition check_version (cb : list N -> list N -> comparison) (file : option (list N)) (current least : version)
  : outcome unit * option (list N) :=
  let ver_str := match file with Some s => s | None => [] end in
  match ver_str with
  | [] => (Ok tt, Some (show current))
  | _ =>
      match version_new ver_str with
      | None => (Panic, file)
      | Some prev =>
          match cmp_version cb prev least with
          | Lt => (Err, file)
          | _ => (Ok tt, Some (show current))
          end
      end
  end.
(** "0.1.0-beta.1" (60-62) *)
Definition LEAST_TEXT : list N := [48; 46; 49; 46; 48; 45; 98; 101; 116; 97; 46; 49].
Definition latest_compatible : option version := version_new LEAST_TEXT.

(** atomic_write (45-58): the directory, a new temporary file, its content, its flush, the renaming.  [cut] steps are done when the
    process ends; the value is what a reader finds under the name of the file. *)
Definition atomic_write (file : option (list N)) (content : list N) (cut : nat) : option (list N) :=
  if Nat.ltb cut 5 then file else Some content.
(** check_version interrupted after [cut] of these steps. *)
Definition check_cut (cb : list N -> list N -> comparison) (file : option (list N)) (current least : version) (cut : nat)
  : option (list N) :=
  match check_version cb file current least with
  | (Ok _, Some s) => atomic_write file s cut
  | (_, f) => f
  end.

(** init and run (args/init.rs 29-40, args/run.rs 47-55): the check first, then the rest, which starts only after an accepted check.
    [rest] says how the rest ends; the value is the result, whether the rest was started, and the file. *)
Definition command (cb : list N -> list N -> comparison) (file : option (list N)) (current least : version) (rest : outcome unit)
  : outcome unit * bool * option (list N) :=
  match check_version cb file current least with
  | (Ok _, f) => (rest, true, f)
  | (r, f) => (r, false, f)
  end.

(* ---------------- the stop options ---------------- *)
(** RunArgs (args/run.rs 20-23) and the choice of the option (41-45) *)
Inductive stop_opt := MineNBlocks (n : N) | MineToHeight (h : N).
Definition choose (mine_blocks mine_to_height : option N) : option stop_opt :=
  match mine_blocks, mine_to_height with
  | Some b, None => Some (MineNBlocks b)
  | None, Some h => Some (MineToHeight h)
  | _, _ => None
  end.
(** start (core/run/src/lib.rs 145-157): the height of the signal; additions above u64 panic, the first of them in a log line. *)
Definition stop_height (current : N) (o : option stop_opt) : outcome (option N) :=
  if 2 ^ 64 <=? current + 1 then Panic
  else match o with
       | Some (MineNBlocks n) => if 2 ^ 64 <=? current + n then Panic else Ok (Some (current + n))
       | Some (MineToHeight h) => Ok (Some h)
       | None => Ok None
       end.

(** The signal (stop_signal.rs 12-15) with the status of the node: its last block, the height, whether the sender is still there. *)
Record node := mknode { n_last : N; n_stop : option N; n_open : bool }.
(** check_height_and_send (32-36), send (38-42) *)
Definition check_send (s : node) (h : N) : node :=
  match n_stop s with
  | Some t => if h =? t then mknode (n_last s) (n_stop s) false else s
  | None => s
  end.
(** is_stopped (44-46); once the sender is gone start returns and run ends (core/run/src/lib.rs 305-311). *)
Definition is_stopped (s : node) : bool := negb (n_open s).
(** What may happen: overlord hands a decided block with a number to commit, [locked] says whether synchronisation holds the lock,
    [fine] whether the rest of commit (metadata, transactions, execution, storage) succeeds; or synchronisation stores the next block
    (synchronization.rs, which does not look at the signal). *)
Inductive event := Commit (number : N) (locked fine : bool) | Sync.
Inductive answer := Shutdown | LockInSync | Same | Outdated | Failed | Done.
(** commit (engine.rs 253-289); the additions to numbers are those of N, the code panics at 2^64. *)
Definition commit (s : node) (number : N) (locked fine : bool) : node * answer :=
  let s := check_send s (number - 1) in
  if is_stopped s then (s, Shutdown)
  else if locked then (s, LockInSync)
  else if number =? n_last s then (s, Same)
  else if negb (number =? n_last s + 1) then (s, Outdated)
  else if fine then (mknode number (n_stop s) (n_open s), Done)
  else (s, Failed).
Definition step (s : node) (e : event) : node :=
  match e with
  | Commit k l f => fst (commit s k l f)
  | Sync => mknode (n_last s + 1) (n_stop s) (n_open s)
  end.
Definition steps (s : node) (es : list event) : node := fold_left step es s.
(** run on a chain whose latest block is [current]. *)
Definition started (current : N) (mine_blocks mine_to_height : option N) : outcome node :=
  match stop_height current (choose mine_blocks mine_to_height) with
  | Ok t => Ok (mknode current t true)
  | Err => Err
  | Panic => Panic
  end.
