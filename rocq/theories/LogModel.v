(** Rotation of the log files.
    Models /repo/common/logger/src/date_fixed_roller.rs 46-83 and the two rolling appenders of common/logger/src/lib.rs 60-92.
    The appender itself (log4rs: append the encoded line, then roll when the file is longer than the limit) is external and follows
    its documentation.  Simplified: file operations succeed, and the directory exists. *)
From Coq Require Import NArith List String Ascii.
From Verif Require Import Bytes.
From stdpp Require Import base gmap list.
#[local] Open Scope N_scope.

(** A text as bytes. *)
Definition txt (s : string) : bytes := map N_of_ascii (list_ascii_of_string s).

(** str::starts_with *)
Fixpoint prefix_of (p s : bytes) : bool :=
  match p, s with [], _ => true | a :: p', b :: s' => (a =? b) && prefix_of p' s' | _, _ => false end.

(** str::replace for a pattern that is not empty: from left to right, what was replaced is not looked at again; [skip] bytes of the last match
    are still to be passed over *)
Fixpoint replace (pat sub : bytes) (skip : nat) (s : bytes) : bytes :=
  match s with
  | [] => []
  | c :: s' =>
      match skip with
      | S k => replace pat sub k s'
      | O => if prefix_of pat s then sub ++ replace pat sub (length pat - 1) s' else c :: replace pat sub 0 s'
      end
  end.

(** i64::to_string of a time after 1970 *)
Fixpoint dec_aux (fuel : nat) (n : N) (acc : bytes) : bytes :=
  match fuel with
  | O => acc
  | S f => let acc' := (48 + n mod 10) :: acc in if n <? 10 then acc' else dec_aux f (n / 10) acc'
  end.
Definition dec (n : N) : bytes := dec_aux (S (N.to_nat (N.log2 n))) n [].

(** the name of the archive (54-58) *)
Definition archive (pattern date ts : bytes) : bytes := replace (txt "{timestamp}") ts 0 (replace (txt "{date}") date 0 pattern).

(** builder.build (18-31) *)
Fixpoint contains (p s : bytes) : bool := prefix_of p s || match s with [] => false | _ :: s' => contains p s' end.
Definition build_ok (pattern : bytes) : bool := contains (txt "{date}") pattern && contains (txt "{timestamp}") pattern.

Notation fsys := (gmap (list N) (list N)).

(** roll_file (53-75): rename replaces a file of that name; a missing file is no error *)
Definition roll_file (pattern cur : bytes) (fs : fsys) (date ts : bytes) : fsys :=
  match fs !! cur with
  | Some x => <[archive pattern date ts := x]> (delete cur fs)
  | None => fs
  end.

(** The two appenders with rolling files (lib.rs 60-74, 81-92), in a directory *)
Inductive which := Axon | Metrics.
Definition pattern_of (dir : bytes) (w : which) : bytes :=
  dir ++ match w with Axon => txt "/{date}.axon.{timestamp}.log" | Metrics => txt "/{date}.metrics.{timestamp}.log" end.
Definition current_of (dir : bytes) (w : which) : bytes :=
  dir ++ match w with Axon => txt "/axon.log" | Metrics => txt "/metrics.log" end.

(** A line logged at a time, given by its date (%Y-%m-%d) and its second. *)
Record entry := Entry { e_to : which; e_line : bytes; e_date : bytes; e_second : N }.

(** one line: written to the current file, which is then rolled when it is longer than the limit (roll, 78-85); second component: whether it
    was rolled, only looked at by the theorems *)
Definition log_line (dir : bytes) (limit : N) (fs : fsys) (e : entry) : fsys * bool :=
  let cur := current_of dir (e_to e) in
  let content := default [] (fs !! cur) ++ e_line e in
  let fs' := <[cur := content]> fs in
  if limit <? len content then (roll_file (pattern_of dir (e_to e)) cur fs' (e_date e) (dec (e_second e)), true) else (fs', false).

Fixpoint log_all (dir : bytes) (limit : N) (fs : fsys) (es : list entry) : fsys * list entry :=
  match es with
  | [] => (fs, [])
  | e :: es' =>
      let '(fs1, rolled) := log_line dir limit fs e in
      let '(fs2, rs) := log_all dir limit fs1 es' in
      (fs2, if rolled then e :: rs else rs)
  end.
