(** Accounts and contract storage as they are kept in Merkle Patricia tries.
    Models /repo/core/executor/src/adapter/backend/apply.rs 128-276 and read_only.rs 36-51, 111-194, 202-230 (the backend of the
    executor), and /repo/core/api/src/adapter.rs 232-331 (eth_getStorageAt and eth_getProof on a state root).
    ExecModel.v and BackendModel.v have the same functions with maps in the place of tries.
    Simplifications: the trie of accounts and the tries of storage share one database (Arc::clone(&self.inner.db)), which is the
    look-up function of TrieModel.v, so a database error is only a node that is not there; the stored codes are a look-up function by
    hash (insert_code, get_code_by_hash), whose result apply ignores; logs are left out; a 32-byte word is its number. *)
From Verif Require Import Bytes Rlp TxModel ExecModel TrieModel.
From Verif Require Web3Model.
From Coq Require Import NArith List.
Import ListNotations.
Local Open Scope N_scope.
Notation acct := Web3Model.acct.
Notation Acct := Web3Model.Acct.
Notation RLP_NULL := Web3Model.RLP_NULL_ROOT.
Notation NIL_DATA := Web3Model.NIL_DATA.

(** The account of an address that has none (read_only.rs 45-50, apply.rs 158-163). *)
Definition no_acct : acct := Acct 0 0 RLP_NULL NIL_DATA.
(** [unwrap] and [expect]: an error is a panic. *)
Definition unwrap {A} (o : outcome A) : outcome A := match o with Err => Panic | r => r end.

(** AxonExecutorApplyAdapter (read_only.rs 18-27, apply.rs 17-22): the trie of accounts, whose database all tries share, and the
    codes in storage. *)
Record world := World { w_trie : trie; w_codes : bytes -> option bytes }.

Section World.
  Variable keccak : bytes -> bytes.

  (** new (read_only.rs 202-210). *)
  Definition w_new (db : database) (codes : bytes -> option bytes) : world := World (trie_new db) codes.
  (** from_root (read_only.rs 212-230). *)
  Definition w_open (db : database) (codes : bytes -> option bytes) (root : bytes) : outcome world :=
    let! T := mpt_from_root db root in Ok (World T codes).

  (** get_account (read_only.rs 40-51); the start of apply (apply.rs 156-164) is the same. *)
  Definition w_account (f : nat) (w : world) (a : bytes) : outcome acct :=
    match mpt_get keccak f (w_trie w) a with
    | Ok (Some raw) => opt_panic (Web3Model.dec_acct raw)
    | Panic => Panic
    | _ => Ok no_acct
    end.

  (** The storage trie that apply opens (apply.rs 166-176). *)
  Definition storage_open (db : database) (old : acct) (reset : bool) : outcome trie :=
    let root := if reset then RLP_NULL else Web3Model.ac_root old in
    if beqb root RLP_NULL then Ok (trie_new db) else unwrap (mpt_from_root db (Web3Model.ac_root old)).
  (** The writes (apply.rs 178-198). *)
  Fixpoint storage_write (f : nat) (T : trie) (l : list (bytes * N)) : outcome trie :=
    match l with
    | [] => Ok T
    | (k, v) :: r =>
        let! T' := if v =? 0 then let! x := unwrap (mpt_remove keccak f T k) in Ok (fst x)
                   else unwrap (mpt_insert keccak f T k (enc_uint v)) in
        storage_write f T' r
    end.
  Definition storage_after (f : nat) (w : world) (old : acct) (l : list (bytes * N)) (reset : bool) : outcome trie :=
    let! T := storage_open (tr_db (w_trie w)) old reset in storage_write f T l.

  (** AxonExecutorApplyAdapter::apply (apply.rs 148-241): the new world and whether the account is empty.  The storage trie is
      committed to the shared database in any case. *)
  Definition w_modify (f : nat) (w : world) (a : bytes) (nonce balance : N) (code : option bytes) (l : list (bytes * N))
      (reset : bool) : outcome (world * bool) :=
    let! old := w_account f w a in
    let! ST := storage_after f w old l reset in
    let! c := unwrap (mpt_commit keccak ST) in
    let '(codes, ch) :=
      match code with
      | Some c => if beqb (keccak c) (Web3Model.ac_code old) then (w_codes w, Web3Model.ac_code old)
                  else ((fun h => if beqb h (keccak c) then Some c else w_codes w h), keccak c)
      | None => (w_codes w, Web3Model.ac_code old)
      end in
    let! T := unwrap (mpt_insert keccak f (mktrie (tr_root (w_trie w)) (tr_db (snd c))) a
                        (Web3Model.enc_acct (Acct nonce balance (fst c) ch))) in
    Ok (World T codes, (balance =? 0) && (nonce =? 0) && (be_val ch =? 0)).

  (** ApplyBackend::apply, one value (apply.rs 254-272).  The error of a removal by Delete is dropped. *)
  Definition w_apply (f : nat) (del : bool) (w : world) (op : apply_op) : outcome world :=
    match op with
    | AModify a n b c l r =>
        let! we := w_modify f w a n b c l r in
        if snd we && del then
          let! x := unwrap (mpt_remove keccak f (w_trie (fst we)) a) in Ok (World (fst x) (w_codes (fst we)))
        else Ok (fst we)
    | ADelete a =>
        match mpt_remove keccak f (w_trie w) a with
        | Ok x => Ok (World (fst x) (w_codes w))
        | Err => Ok w
        | Panic => Panic
        end
    end.
  (** save_account (apply.rs 132-140). *)
  Definition w_save (f : nat) (w : world) (a : bytes) (x : acct) : outcome world :=
    let! T := unwrap (mpt_insert keccak f (w_trie w) a (Web3Model.enc_acct x)) in Ok (World T (w_codes w)).
  (** commit (apply.rs 128-130). *)
  Definition w_commit (w : world) : outcome (bytes * world) :=
    let! c := unwrap (mpt_commit keccak (w_trie w)) in Ok (fst c, World (snd c) (w_codes w)).

  (* ---------------- reads ---------------- *)
  (** exists (read_only.rs 111-115). *)
  Definition w_exists (f : nat) (w : world) (a : bytes) : outcome bool :=
    match mpt_get keccak f (w_trie w) a with
    | Ok o => Ok (match o with Some _ => true | None => false end)
    | Err => Ok false
    | Panic => Panic
    end.
  (** basic (117-133): nonce and balance. *)
  Definition w_basic (f : nat) (w : world) (a : bytes) : outcome (N * N) :=
    match mpt_get keccak f (w_trie w) a with
    | Ok (Some raw) => Ok (match Web3Model.dec_acct raw with Some x => (Web3Model.ac_nonce x, Web3Model.ac_balance x) | None => (0, 0) end)
    | Panic => Panic
    | _ => Ok (0, 0)
    end.
  (** code (135-155). *)
  Definition w_code (f : nat) (w : world) (a : bytes) : outcome bytes :=
    let! o := unwrap (mpt_get keccak f (w_trie w) a) in
    match o with
    | None => Ok []
    | Some raw =>
        let! x := opt_panic (Web3Model.dec_acct raw) in
        if beqb (Web3Model.ac_code x) NIL_DATA then Ok []
        else Ok (match w_codes w (Web3Model.ac_code x) with Some c => c | None => [] end)
    end.
  (** storage (162-189); original_storage (191-194) is the same. *)
  Definition w_storage (f : nat) (w : world) (a k : bytes) : outcome N :=
    match mpt_get keccak f (w_trie w) a with
    | Ok (Some raw) =>
        match Web3Model.dec_acct raw with
        | None => Ok 0
        | Some x =>
            if beqb (Web3Model.ac_root x) RLP_NULL then Ok 0
            else match mpt_from_root (tr_db (w_trie w)) (Web3Model.ac_root x) with
                 | Err => Ok 0
                 | Panic => Panic
                 | Ok T =>
                     match mpt_get keccak f T k with
                     | Ok (Some v) => opt_panic (dec_uint 32 v)
                     | Panic => Panic
                     | _ => Ok 0
                     end
                 end
        end
    | Panic => Panic
    | _ => Ok 0
    end.

  (* ---------------- eth_getStorageAt and eth_getProof on a state root ---------------- *)
  (** get_storage_at (core/api/src/adapter.rs 232-255); an empty storage root is opened like any other. *)
  Definition r_storage_at (f : nat) (db : database) (root a : bytes) (pos : N) : outcome bytes :=
    let! T := mpt_from_root db root in
    let! o := mpt_get keccak f T a in
    let! raw := opt_err o in
    let! x := opt_panic (Web3Model.dec_acct raw) in
    let! ST := mpt_from_root db (Web3Model.ac_root x) in
    let! v := mpt_get keccak f ST (be_fixed 32 pos) in
    match v with
    | None => Ok (repeat 0 32)
    | Some b => let! n := opt_panic (dec_uint 32 b) in Ok (be_fixed 32 n)
    end.
  (** get_proof (257-331): the slots in turn. *)
  Fixpoint r_slots (f : nat) (ST : trie) (ps : list N) : outcome (list (N * N * list bytes)) :=
    match ps with
    | [] => Ok []
    | p :: r =>
        let! pf := mpt_proof keccak f ST (be_fixed 32 p) in
        let! v := mpt_get keccak f ST (be_fixed 32 p) in
        let! n := match v with None => Ok 0 | Some b => opt_panic (dec_uint 32 b) end in
        let! rest := r_slots f ST r in
        Ok ((p, n, pf) :: rest)
    end.
  Definition r_proof (f : nat) (db : database) (root a : bytes) (ps : list N) : outcome Web3Model.wproof :=
    let! T := mpt_from_root db root in
    let! pf := mpt_proof keccak f T a in
    let! o := mpt_get keccak f T a in
    match o with
    | Some raw =>
        let! x := opt_panic (Web3Model.dec_acct raw) in
        let! ST := mpt_from_root db (Web3Model.ac_root x) in
        let! slots := r_slots f ST ps in
        Ok (Web3Model.WProof a (Web3Model.ac_balance x) (Web3Model.ac_code x) (Web3Model.ac_nonce x) (Web3Model.ac_root x) pf slots)
    | None => Ok (Web3Model.WProof a 0 (repeat 0 32) 0 (repeat 0 32) pf (map (fun p => (p, 0, [])) ps))
    end.
End World.
