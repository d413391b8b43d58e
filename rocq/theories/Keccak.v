(** Keccak-256, the function behind [Hasher::digest]
    (/repo/protocol/src/types/primitive.rs: Hasher; /repo/common/crypto and the
    tiny-keccak crate).  Only used to instantiate the abstract hash of the
    other models in concrete examples and witnesses; no theorem relies on a
    cryptographic property of it.  Follows FIPS-202's Keccak-f[1600], rate 1088,
    padding 0x01 ... 0x80. *)
From Verif Require Import Bytes.

Definition mask64 : N := 2^64 - 1.
Definition rotl64 (x : N) (n : N) : N :=
  N.lor (N.land (N.shiftl x n) mask64) (N.shiftr x (64 - n)).

Definition getl (s : list N) (i : nat) : N := nth i s 0.

Definition round_consts : list N :=
  [0x0000000000000001; 0x0000000000008082; 0x800000000000808A; 0x8000000080008000;
   0x000000000000808B; 0x0000000080000001; 0x8000000080008081; 0x8000000000008009;
   0x000000000000008A; 0x0000000000000088; 0x0000000080008009; 0x000000008000000A;
   0x000000008000808B; 0x800000000000008B; 0x8000000000008089; 0x8000000000008003;
   0x8000000000008002; 0x8000000000000080; 0x000000000000800A; 0x800000008000000A;
   0x8000000080008081; 0x8000000000008080; 0x0000000080000001; 0x8000000080008008].

(** Rotation offsets, lane index x + 5*y. *)
Definition rho_offsets : list N :=
  [0; 1; 62; 28; 27; 36; 44; 6; 55; 20; 3; 10; 43; 25; 39; 41; 45; 15; 21; 8; 18; 2; 61; 56; 14].

Definition theta (a : list N) : list N :=
  let c := map (fun x => N.lxor (getl a x) (N.lxor (getl a (x + 5)) (N.lxor (getl a (x + 10))
                 (N.lxor (getl a (x + 15)) (getl a (x + 20)))))) (seq 0 5) in
  let d := map (fun x => N.lxor (getl c ((x + 4) mod 5)) (rotl64 (getl c ((x + 1) mod 5)) 1)) (seq 0 5) in
  map (fun i => N.lxor (getl a i) (getl d (i mod 5))) (seq 0 25).

(** B[y, 2x+3y] = rot(A[x,y]): the lane at destination (X,Y) comes from x = X+3Y, y = X. *)
Definition rho_pi (a : list N) : list N :=
  map (fun i => let X := (i mod 5)%nat in let Y := (i / 5)%nat in
                let x := ((X + 3 * Y) mod 5)%nat in let y := X in
                rotl64 (getl a (x + 5 * y)) (getl rho_offsets (x + 5 * y))) (seq 0 25).

Definition chi (b : list N) : list N :=
  map (fun i => let X := (i mod 5)%nat in let Y := (i / 5)%nat in
                N.lxor (getl b i)
                  (N.land (N.lxor (getl b ((X + 1) mod 5 + 5 * Y)) mask64) (getl b ((X + 2) mod 5 + 5 * Y))))
      (seq 0 25).

Definition iota (rc : N) (a : list N) : list N :=
  match a with [] => [] | x :: r => N.lxor x rc :: r end.

Definition keccak_f (a : list N) : list N :=
  fold_left (fun s rc => iota rc (chi (rho_pi (theta s)))) round_consts a.

Fixpoint lanes (k : nat) (b : bytes) : list N :=
  match k with O => [] | S k' => le_val (firstn 8 b) :: lanes k' (skipn 8 b) end.

Definition absorb (s : list N) (blk : bytes) : list N :=
  let ls := lanes 17 blk in
  keccak_f (map (fun i => if (i <? 17)%nat then N.lxor (getl s i) (getl ls i) else getl s i) (seq 0 25)).

Definition pad (b : bytes) : bytes :=
  let m := (length b mod 136)%nat in
  let k := (136 - m)%nat in
  b ++ (if (k =? 1)%nat then [129] else 1 :: repeat 0 (k - 2) ++ [128]).

Fixpoint blocks (fuel : nat) (b : bytes) : list bytes :=
  match fuel, b with
  | O, _ => []
  | S f, [] => []
  | S f, _ => firstn 136 b :: blocks f (skipn 136 b)
  end.

Definition keccak256 (b : bytes) : bytes :=
  let p := pad b in
  let s := fold_left absorb (blocks (length p) p) (repeat 0 25) in
  concat (map (fun i => le_fixed 8 (getl s i)) (seq 0 4)).

(** Sanity tests on published vectors (tests, not theorems): the empty string
    (NIL_DATA in /repo/protocol/src/types/primitive.rs) and "abc". *)
Example keccak_empty :
  be_val (keccak256 []) = 0xc5d2460186f7233c927e7db2dcc703c0e500b653ca82273b7bfad8045d85a470.
Proof. vm_compute. reflexivity. Qed.
Example keccak_abc :
  be_val (keccak256 [97;98;99]) = 0x4e03657aea45a94fc7d47ba826c8d667c0d1e6e33a64a036ec44f58fa12d6c45.
Proof. vm_compute. reflexivity. Qed.
