(** Precompiled contracts.
    Models /repo/core/executor/src/precompiles/{mod,modexp,blake2_f,ecrecover,sha256,ripemd160,identity,ckb_blake2b,
    ec_add,ec_mul,ec_pairing,call_ckb_vm,get_header}.rs and the gas/cycle conversion of /repo/core/interoperation/src/lib.rs:13-21.
    The hash functions, the curve arithmetic (crate bn), signature recovery, the ABI decoders and the CKB-VM are arguments. *)
From Verif Require Import Bytes Rlp TxModel.

(** What a call of a precompile gives: output and gas charged, out of gas, another error, or a panic (integer overflow, capacity overflow,
    [unwrap]; the panic hook of run/src/components/system.rs:26-36 ends the process). *)
Inductive pres := POk (out : bytes) (gas : N) | POutOfGas | PFail | PPanic.

(** The check made by most of them (e.g. modexp.rs:28-32); the interpreter always passes a limit. *)
Definition over (limit : option N) (gas : N) : bool := match limit with Some l => l <? gas | None => false end.

Definition USIZE_MAX : N := 2 ^ 64 - 1.
Definition ISIZE_MAX : N := 2 ^ 63 - 1.
(** az::SaturatingAs::<usize> / ::<u64> of a non-negative integer *)
Definition sat64 (n : N) : N := N.min n USIZE_MAX.

(* ---------------------------------------------------------------------- *)
(** * modexp.rs *)

(** get_data (118-142).  The padded vector is not built: [N.shiftl] appends its zero bytes.  [reserve_exact] panics when the capacity
    would exceed isize::MAX; an allocation below that is taken to succeed. *)
Definition get_data (data : bytes) (start size : N) : outcome N :=
  let start := N.min start (len data) in
  let e := N.min ((start + size) mod 2 ^ 64) (len data) in
  let slice := if start <? e then firstn (N.to_nat (e - start)) (skipn (N.to_nat start) data) else [] in
  if ISIZE_MAX <? len slice + size then Panic
  else Ok (N.shiftl (be_val slice) (8 * (size - (e - start)))).

(** the three lengths (34-35, 81-89, 157) and the rest (91-95, 159-163) *)
Definition word (input : bytes) (off : N) : N :=
  match get_data input off 32 with Ok v => v | _ => 0 end.
Definition body (input : bytes) : bytes := if 96 <? len input then skipn 96 input else [].

(** multiplication_complexity (187-192) *)
Definition complexity (b m : N) : N := ((N.max b m + 7) / 8) ^ 2.

(** iterator_count (194-210); [N.size] is significant_bits.  The sum of two usize values panics on overflow. *)
Definition iterations (e_size exponent : N) : outcome N :=
  if (e_size <=? 32) && (exponent =? 0) then Ok 1
  else if e_size <=? 32 then Ok (N.max (N.size exponent - 1) 1)
  else
    let a := sat64 (8 * (e_size - 32)) in
    let b := N.size (N.land exponent (N.ones 256)) - 1 in
    if USIZE_MAX <? a + b then Panic else Ok (N.max (a + b) 1).

Definition MODEXP_MIN : N := 200.
(** gas_cost (80-115) *)
Definition modexp_gas (input : bytes) : outcome N :=
  let b := word input 0 in
  let m := word input 64 in
  if (b =? 0) && (m =? 0) then Ok MODEXP_MIN
  else
    let e := word input 32 in
    match get_data (body input) (sat64 b) (if 32 <? e then 32 else sat64 e) with
    | Ok x =>
        match iterations e x with
        | Ok it => Ok (sat64 (N.max (complexity b m * it / 3) MODEXP_MIN))
        | Err => Err | Panic => Panic
        end
    | Err => Err | Panic => Panic
    end.

(** calc (173-184); pow_mod of the GMP library, defined because the modulus is not zero *)
Definition modexp_calc (b e m : N) : N :=
  if m =? 0 then 0 else if b =? 1 then b mod m else b ^ e mod m.

(** exec_fn (21-78) with LargeNumber::parse (152-171); [be_min] is to_digits (most significant byte first, none for zero). *)
Definition modexp_exec (input : bytes) (limit : option N) : pres :=
  match modexp_gas input with
  | Ok gas =>
      if over limit gas then POutOfGas
      else
        let bs := sat64 (word input 0) in
        let ms := sat64 (word input 64) in
        if (bs =? 0) && (ms =? 0) then POk [] gas
        else
          let es := sat64 (word input 32) in
          match get_data (body input) 0 bs, get_data (body input) bs es, get_data (body input) ((bs + es) mod 2 ^ 64) ms with
          | Ok b, Ok e, Ok m =>
              let res := be_min (modexp_calc b e m) in
              if ms <? len res then PFail
              else POk (repeat 0 (N.to_nat (ms - len res)) ++ res) gas
          | _, _, _ => PPanic
          end
  | _ => PPanic
  end.

(* ---------------------------------------------------------------------- *)
(** * blake2_f.rs *)

Definition W64 : N := 2 ^ 64.
Definition wadd (a b : N) : N := (a + b) mod W64.
(** u64::rotate_right *)
Definition rotr (x k : N) : N := N.lor (N.shiftr x k) (N.shiftl x (64 - k) mod W64).

(** 118-140 *)
Definition SIGMA : list (list nat) := [
  [0; 1; 2; 3; 4; 5; 6; 7; 8; 9; 10; 11; 12; 13; 14; 15];
  [14; 10; 4; 8; 9; 15; 13; 6; 1; 12; 0; 2; 11; 7; 5; 3];
  [11; 8; 12; 0; 5; 2; 15; 13; 10; 14; 3; 6; 7; 1; 9; 4];
  [7; 9; 3; 1; 13; 12; 11; 14; 2; 6; 5; 10; 4; 0; 15; 8];
  [9; 0; 5; 7; 2; 4; 10; 15; 14; 1; 11; 12; 6; 8; 3; 13];
  [2; 12; 6; 10; 0; 11; 8; 3; 4; 13; 7; 5; 15; 14; 1; 9];
  [12; 5; 1; 15; 14; 13; 4; 10; 0; 7; 6; 3; 9; 2; 8; 11];
  [13; 11; 7; 14; 12; 1; 3; 9; 5; 0; 15; 4; 8; 6; 2; 10];
  [6; 15; 14; 9; 11; 3; 0; 8; 12; 2; 13; 7; 1; 4; 10; 5];
  [10; 2; 8; 4; 7; 6; 1; 5; 15; 11; 9; 14; 3; 12; 13; 0]]%nat.
Definition IV : list N := [
  0x6a09e667f3bcc908; 0xbb67ae8584caa73b; 0x3c6ef372fe94f82b; 0xa54ff53a5f1d36f1;
  0x510e527fade682d1; 0x9b05688c2b3e6c1f; 0x1f83d9abfb41bd6b; 0x5be0cd19137e2179].

Definition at0 (l : list N) (i : nat) : N := nth i l 0.
Fixpoint upd (l : list N) (i : nat) (x : N) : list N :=
  match l, i with
  | [], _ => []
  | _ :: r, O => x :: r
  | y :: r, S j => y :: upd r j x
  end.

(** g (142-152) *)
Definition mix (v : list N) (a b c d : nat) (x y : N) : list N :=
  let v := upd v a (wadd (wadd (at0 v a) (at0 v b)) x) in
  let v := upd v d (rotr (N.lxor (at0 v d) (at0 v a)) 32) in
  let v := upd v c (wadd (at0 v c) (at0 v d)) in
  let v := upd v b (rotr (N.lxor (at0 v b) (at0 v c)) 24) in
  let v := upd v a (wadd (wadd (at0 v a) (at0 v b)) y) in
  let v := upd v d (rotr (N.lxor (at0 v d) (at0 v a)) 16) in
  let v := upd v c (wadd (at0 v c) (at0 v d)) in
  upd v b (rotr (N.lxor (at0 v b) (at0 v c)) 63).

(** the body of the loop (166-177) *)
Definition blake_round (m : list N) (i : N) (v : list N) : list N :=
  let s := nth (N.to_nat (i mod 10)) SIGMA [] in
  let w k := at0 m (nth k s 0%nat) in
  let v := mix v 0 4 8 12 (w 0%nat) (w 1%nat) in
  let v := mix v 1 5 9 13 (w 2%nat) (w 3%nat) in
  let v := mix v 2 6 10 14 (w 4%nat) (w 5%nat) in
  let v := mix v 3 7 11 15 (w 6%nat) (w 7%nat) in
  let v := mix v 0 5 10 15 (w 8%nat) (w 9%nat) in
  let v := mix v 1 6 11 12 (w 10%nat) (w 11%nat) in
  let v := mix v 2 7 8 13 (w 12%nat) (w 13%nat) in
  mix v 3 4 9 14 (w 14%nat) (w 15%nat).
(** for i in 0..rounds *)
Fixpoint for_loop {A} (f : N -> A -> A) (n : nat) (i : N) (v : A) : A :=
  match n with O => v | S n' => for_loop f n' (i + 1) (f i v) end.

(** compress (154-182) *)
Definition blake_compress (h m : list N) (t0 t1 : N) (f : bool) (rounds : N) : list N :=
  let v := h ++ IV in
  let v := upd v 12 (N.lxor (at0 v 12) t0) in
  let v := upd v 13 (N.lxor (at0 v 13) t1) in
  let v := if f then upd v 14 (N.lxor (at0 v 14) (N.ones 64)) else v in
  let v := for_loop (blake_round m) (N.to_nat rounds) 0 v in
  map (fun i => N.lxor (at0 h i) (N.lxor (at0 v i) (at0 v (i + 8)))) (seq 0 8).

Definition slice (b : bytes) (off n : nat) : bytes := firstn n (skipn off b).
(** parse_round, parse_h, parse_m, parse_t (72-116) *)
Definition blake_rounds_of (input : bytes) : N := be_val (slice input 0 4).
Definition words_of (input : bytes) (off n : nat) : list N := map (fun i => le_val (slice input (off + 8 * i) 8)) (seq 0 n).
(** exec_fn (16-59), gas_cost (61-64) *)
Definition blake_exec (input : bytes) (limit : option N) : pres :=
  if negb (length input =? 213)%nat then PFail
  else
    let gas := blake_rounds_of input in
    if over limit gas then POutOfGas
    else
      let go f := POk (concat (map (le_fixed 8) (blake_compress (words_of input 4 8) (words_of input 68 16)
                         (le_val (slice input 196 8)) (le_val (slice input 204 8)) f (blake_rounds_of input)))) gas in
      match nth 212 input 0 with
      | 1 => go true
      | 0 => go false
      | _ => PFail
      end.

(* ---------------------------------------------------------------------- *)
(** * Hashes and identity *)

(** gas_cost of sha256.rs (42-45), ripemd160.rs (44-47), identity.rs (38-41), ckb_blake2b.rs (40-43): minimum plus price per word *)
Definition word_gas (min per : N) (input : bytes) : N := (len input + 31) / 32 * per + min.
Definition hash_exec (min per : N) (f : bytes -> bytes) (input : bytes) (limit : option N) : pres :=
  if over limit (word_gas min per input) then POutOfGas else POk (f input) (word_gas min per input).
Definition sha256_exec (sha256 : bytes -> bytes) := hash_exec 60 12 sha256.
Definition ripemd_exec (ripemd : bytes -> bytes) := hash_exec 600 120 (fun i => repeat 0 12 ++ ripemd i).
Definition identity_exec := hash_exec 15 3 (fun i => i).
Definition ckb_blake2b_exec (blake2b : bytes -> bytes) := hash_exec 60 12 blake2b.

(* ---------------------------------------------------------------------- *)
(** * ecrecover.rs *)
Section Recover.
  Variable keccak : bytes -> bytes.
  (** Secp256k1RecoverableSignature::try_from followed by secp256k1_recover: the 64-byte public key *)
  Variable recover : bytes -> bytes -> option bytes.

  (** exec_fn (17-58), recover_signature (65-79) *)
  Definition ecrecover_exec (origin : bytes) (limit : option N) : pres :=
    if over limit 3000 then POutOfGas
    else
      let input := firstn 128 origin ++ repeat 0 (128 - length origin) in
      let v := nth 63 input 0 in
      if ((v =? 27) || (v =? 28)) && forallb (N.eqb 0) (slice input 32 31) then
        match recover (slice input 0 32) (slice input 64 64 ++ [v - 27]) with
        | Some p => POk (repeat 0 12 ++ skipn 12 (keccak p)) 3000
        | None => PFail
        end
      else PFail.
End Recover.

(* ---------------------------------------------------------------------- *)
(** * The curve alt_bn128 *)

(** field modulus; [None] is the point at infinity *)
Definition FQ : N := 21888242871839275222246405745257275088696311157297823662689037894645226208583.
Definition point := option (N * N).
(** AffineG1::new: the curve equation (the group has no cofactor) *)
Definition on_curve (x y : N) : bool := (y * y) mod FQ =? (x * x * x + 3) mod FQ.

(** Fq::from_slice *)
Definition read_fq (b : bytes) : option N := if be_val b <? FQ then Some (be_val b) else None.
(** read_point (mod.rs:104-124) *)
Definition read_point (input : bytes) (start : nat) : option point :=
  if (length input <? start + 64)%nat then None
  else let? x := read_fq (slice input start 32) in
       let? y := read_fq (slice input (start + 32) 32) in
       if (x =? 0) && (y =? 0) then Some None
       else if on_curve x y then Some (Some (x, y)) else None.
(** the 64-byte result (ec_add.rs:33-41) *)
Definition write_point (p : point) : bytes :=
  match p with Some (x, y) => be_fixed 32 x ++ be_fixed 32 y | None => repeat 0 64 end.

Section Curve.
  Variable g1_add : point -> point -> point.
  (** multiplication by a scalar below 2^256; [fr_ok] tells which ones Fr::from_slice accepts *)
  Variable g1_mul : point -> N -> point.
  Variable fr_ok : N -> bool.
  (** decoding of one 192-byte pair (ec_pairing.rs:49-77) and the product of pairings *)
  Variable pair : Type.
  Variable read_pair : bytes -> option pair.
  Variable pairing_one : list pair -> bool.

  (** ec_add.rs:17-50 *)
  Definition ec_add_exec (input : bytes) (limit : option N) : pres :=
    if over limit 150 then POutOfGas
    else match read_point input 0, read_point input 64 with
         | Some p, Some q => POk (write_point (g1_add p q)) 150
         | _, _ => PFail
         end.
  (** ec_mul.rs:17-50, read_fr (mod.rs:126-132) *)
  Definition ec_mul_exec (input : bytes) (limit : option N) : pres :=
    if over limit 6000 then POutOfGas
    else match read_point input 0 with
         | Some p =>
             if (length input <? 96)%nat then PFail
             else let k := be_val (slice input 64 32) in
                  if fr_ok k then POk (write_point (g1_mul p k)) 6000 else PFail
         | None => PFail
         end.
  (** ec_pairing.rs:19-99 *)
  Fixpoint read_pairs (n : nat) (b : bytes) : option (list pair) :=
    match n with
    | O => Some []
    | S n' => let? p := read_pair (firstn 192 b) in let? r := read_pairs n' (skipn 192 b) in Some (p :: r)
    end.
  Definition ec_pairing_exec (input : bytes) (limit : option N) : pres :=
    match input with
    | [] => POk (be_fixed 32 1) 45000
    | _ =>
        let n := (length input / 192)%nat in
        let gas := N.of_nat n * 34000 + 45000 in
        if over limit gas then POutOfGas
        else match read_pairs n input with
             | Some ps => POk (be_fixed 32 (if pairing_one ps then 1 else 0)) gas
             | None => PFail
             end
    end.
End Curve.

(* ---------------------------------------------------------------------- *)
(** * call_ckb_vm.rs *)
Definition CYCLES_PER_GAS : N := 6000.
(** gas_to_cycle (interoperation/src/lib.rs:15-17): the product panics on overflow *)
Definition gas_to_cycle (gas : N) : outcome N := if gas * CYCLES_PER_GAS <? 2 ^ 64 then Ok (gas * CYCLES_PER_GAS) else Panic.
Definition cycle_to_gas (cycles : N) : N := cycles / CYCLES_PER_GAS.
Section CkbVm.
  Variable dep : Type.
  Variable abi : bytes -> option (dep * list bytes).
  (** the machine with a cycle limit: exit code and cycles used, or an error *)
  Variable vm : dep -> list bytes -> N -> option (N * N).
  (** exec_fn (22-49), parse_input (56-64); the exit code is one byte *)
  Definition call_vm_exec (input : bytes) (limit : option N) : pres :=
    match limit with
    | None => POutOfGas
    | Some gas =>
        match abi input with
        | None => PFail
        | Some (d, args) =>
            match gas_to_cycle gas with
            | Ok max =>
                match vm d args max with
                | Some (code, cycles) => POk [code] (N.max (cycle_to_gas cycles) 500)
                | None => PFail
                end
            | _ => PPanic
            end
        end
    end.
End CkbVm.

(* ---------------------------------------------------------------------- *)
(** * The set of precompiles (mod.rs:97-102), with the addresses of mod.rs:83-95 *)
Definition eip_address (a : N) : bytes := repeat 0 19 ++ [a].
Definition axon_address (a : N) : bytes := repeat 0 18 ++ [1; a].
Definition precompile_set : list bytes :=
  map eip_address [1; 2; 3; 4; 5; 6; 7; 8; 9] ++ map axon_address [4; 6; 7; 2].
(** every contract defined in the directory, registered or not (get_cell.rs:18 is 0x0103) *)
Definition precompiles_defined : list bytes :=
  map eip_address [1; 2; 3; 4; 5; 6; 7; 8; 9] ++ map axon_address [2; 3; 4; 6; 7].
