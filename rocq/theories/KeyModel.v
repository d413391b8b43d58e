(** The keys of an operator: made by generate-keypair, shown by recover-keypair, loaded and used by a node.
    Models /repo/core/cli/src/args/generate_keypair.rs 36-150, recover_keypair.rs 29-52,
    /repo/common/config-parser/src/types/config.rs 96-176, /repo/core/run/src/lib.rs 161, 229-250, 317-329, 377-394,
    /repo/core/run/src/key_provider.rs, /repo/core/run/src/components/network.rs 56-64, /repo/core/network/src/config.rs 117, 166-171, peer_manager/mod.rs 187-189, service.rs 207-268, 345-349,
    /repo/protocol/src/types/primitive.rs 210-232 and /repo/protocol/src/traits/consensus.rs 29-43.

    Simplifications: secp256k1, BLS and the peer identifier are arguments; the random generator is the list of keys that it makes; files are
    known by the text of their path; what is printed is a record, not its JSON; texts of errors are left out.  The reservation of memory for
    the printed list (41), which fails for numbers of keys that no disk holds, is left out. *)
From Verif Require Import Bytes Rlp TxModel MetaModel CryptoModel VersionModel.
From stdpp Require Import base gmap list.
Local Open Scope N_scope.

(** A file system: content by path. *)
Notation fsys := (gmap (list N) (list N)).

(** Path::push and Path::join on Unix: an absolute second path replaces the first. *)
Definition push (dir file : bytes) : bytes :=
  if match file with c :: _ => c =? 47 | [] => false end then file
  else if match last dir with Some c => negb (c =? 47) | None => false end then dir ++ 47 :: file
  else dir ++ file.

(** format!("bls_{}.key"), format!("net_{}.key") (generate_keypair.rs 141-143) *)
Definition bls_name (i : N) : bytes := [98; 108; 115; 95] ++ show_num i ++ [46; 107; 101; 121].
Definition net_name (i : N) : bytes := [110; 101; 116; 95] ++ show_num i ++ [46; 107; 101; 121].

(** What the system does with one write of a file: everything, nothing because the file cannot be opened, or an error (or the end of the
    process) after some bytes. *)
Inductive wres := WDone | WClosed | WShort (n : nat).
(** The closure of write_private_keys (133-138): File::create empties a file that exists. *)
Definition write (fs : fsys) (p data : bytes) (w : wres) : fsys * bool :=
  match w with
  | WDone => (<[p := data]> fs, true)
  | WClosed => (fs, false)
  | WShort n => (<[p := firstn n data]> fs, false)
  end.

(** The libraries around the keys. *)
Record keylib := KeyLib {
  (** SecioKeyPair::secp256k1_raw_key, and Secp256k1PrivateKey::try_from with pub_key: secret to compressed public key *)
  net_pub : bytes -> option bytes;
  (** Secp256k1PublicKey::try_from, to_uncompressed_bytes *)
  uncompress : bytes -> option bytes;
  (** PeerId::from_public_key *)
  peer_of : bytes -> bytes;
  BL : bls;
  (** BlsPrivateKey::try_from *)
  sk_of : bytes -> option (Sk BL);
  (** BlsPublicKey::to_bytes *)
  key_bytes : K BL -> bytes }.

Section keys.
  Variable keccak : bytes -> bytes.
  Variable L : keylib.
  Notation keymap := (gmap bytes (K (BL L))).

  (** Address::from_pubkey_bytes (primitive.rs 211-230); from_hash keeps the last 20 bytes. *)
  Definition address_of (p : bytes) : option bytes :=
    if len p =? 33 then let? u := uncompress L p in Some (skipn 12 (keccak (skipn 1 u)))
    else if len p =? 65 then Some (skipn 12 (keccak (skipn 1 p)))
    else None.

  (** Keypair (generate_keypair.rs 61-69) *)
  Record keypair := Keypair {
    kp_index : N; kp_net : bytes; kp_public : bytes; kp_address : bytes; kp_peer : bytes; kp_bls : bytes; kp_bls_public : bytes }.

  (** Keypair::from_private_keys (78-101) *)
  Definition from_private_keys (net bls : bytes) (i : N) : option keypair :=
    let? p := net_pub L net in
    let? x := sk_of L bls in
    let? a := address_of p in
    Some (Keypair i net p a (peer_of L p) bls (key_bytes L (pub (BL L) x))).

  (** write_private_keys (132-150): the BLS key first *)
  Definition write_private_keys (fs : fsys) (path net bls : bytes) (i : N) (w1 w2 : wres) : fsys * bool :=
    let '(fs1, ok) := write fs (push path (bls_name i)) bls w1 in
    if ok then write fs1 (push path (net_name i)) net w2 else (fs1, false).

  (** One round of the loop: the keys of the random generator (72-73) and what happens to the two writes. *)
  Record round := Round { r_bls : bytes; r_net : bytes; r_w1 : wres; r_w2 : wres }.
  (** GenerateKeypairArgs::execute (36-57); [num] is the number of rounds.  Nothing is printed when a round fails. *)
  Fixpoint generate_loop (path : bytes) (i : N) (rounds : list round) (fs : fsys) : fsys * option (list keypair) :=
    match rounds with
    | [] => (fs, Some [])
    | r :: q =>
        match from_private_keys (r_net r) (r_bls r) i with
        | None => (fs, None)
        | Some kp =>
            let '(fs1, ok) := write_private_keys fs path (kp_net kp) (kp_bls kp) i (r_w1 r) (r_w2 r) in
            if ok then let '(fs2, o) := generate_loop path (i + 1) q fs1 in (fs2, option_map (cons kp) o)
            else (fs1, None)
        end
    end.
  Definition generate (path : bytes) (rounds : list round) (fs : fsys) : fsys * option (list keypair) := generate_loop path 0 rounds fs.

  (** RecoverKeypairArgs::execute (recover_keypair.rs 29-42) *)
  Definition recover (fs : fsys) (net_path bls_path : bytes) : option keypair :=
    let? net := fs !! net_path in
    let? bls := fs !! bls_path in
    from_private_keys net bls 0.

  (** load_privkey_from_file (config.rs 146-176) *)
  Definition load_privkey (fs : fsys) (p : bytes) : option bytes :=
    let? b := fs !! p in if len b =? 32 then Some b else None.
  (** The directory of the configuration file and its two entries (config.rs 107, 133-141). *)
  Record config := Config { cf_dir : bytes; cf_net : bytes; cf_bls : bytes }.

  (** What a node acts as: the peer identifier that others see after the handshake, the one it announces and reports as its own, its name and
      address in consensus, its signing key and the keys it checks votes with. *)
  Record node := Node { nd_peer : bytes; nd_local : bytes; nd_name : bytes; nd_address : bytes; nd_sk : Sk (BL L); nd_keys : keymap }.
  (** RunArgs with the configuration (config.rs 96-141), init_network_service (run/lib.rs 317-329) with the key of a provider if there is one,
      init_crypto (377-394), NodeInfo (243-250, consensus.rs 30-42).  The node that does not start is [None]. *)
  Definition start (custom : option bytes) (fs : fsys) (cf : config) (validators : list validator) : option node :=
    let? net := load_privkey fs (push (cf_dir cf) (cf_net cf)) in
    let? bls := load_privkey fs (push (cf_dir cf) (cf_bls cf)) in
    let? p := net_pub L net in
    let? x := sk_of L bls in
    let? m := generate_new_crypto_map (BL L) validators in
    let? u := uncompress L p in
    Some (Node (peer_of L (match custom with Some c => c | None => p end)) (peer_of L p) p (skipn 12 (keccak (skipn 1 u))) x m).

  (** tag_consensus (run/components/network.rs 56-64): the peers that are treated as validators; votes for a leader are sent to the peer of its
      public key in the same way (/repo/core/consensus/src/adapter.rs 84-95). *)
  Definition tagged (validators : list validator) : list bytes := map (fun v => peer_of L (v_pub v)) validators.
  (** A vote of the node (CryptoModel.sign). *)
  Definition vote (n : node) (hash : bytes) : option bytes := sign (BL L) (nd_sk n) hash.
End keys.
