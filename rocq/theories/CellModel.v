(** The header/cell trie kept by the CKB light client contract (0xff..02) and the image
    cell contract (0xff..03).
    Models /repo/core/executor/src/system_contract/ckb_light_client/{mod.rs,store.rs} and
    image_cell/{mod.rs,store.rs}.

    Simplifications: the Merkle trie (external crate cita_trie) is its content, a
    finite map from keys to values, so the root held in [CURRENT_HEADER_CELL_ROOT] is the
    committed content itself; database errors are not modelled.  The molecule packing of
    a cell output (external crate ckb_types) is done before the model starts: an output is its packed
    bytes.  The ABI forms of calls and of headers (external crate ethers) are oracles. *)
From Verif Require Import Bytes Rlp.
From stdpp Require Import base gmap.
Local Open Scope N_scope.

Notation trie := (gmap bytes bytes).

(** cita_trie [PatriciaTrie::insert]: an empty value removes the key. *)
Definition trie_insert (t : trie) (k v : bytes) : trie :=
  match v with [] => delete k t | _ => <[k := v]> t end.

(** cita_trie [PatriciaTrie::remove]: whether the key was there. *)
Definition trie_remove (t : trie) (k : bytes) : bool * trie :=
  (bool_decide (is_Some (t !! k)), delete k t).

(** image_cell/store.rs:17-20. *)
Record cell_key := CellKey_ { ck_tx : bytes; ck_index : N }.

(** image_cell/store.rs:273-278. *)
Definition enc_cell_key (k : cell_key) : bytes := ck_tx k ++ le_fixed 4 (ck_index k).

(** image_cell/store.rs:255-271. *)
Definition dec_cell_key (b : bytes) : option cell_key :=
  if (length b =? 36)%nat
  then Some (CellKey_ (firstn 32 b) (le_val (firstn 4 (skipn 32 b))))
  else None.

(** image_cell/store.rs:281-287 (derived codec). *)
Record cell := Cell_ { c_output : bytes; c_data : bytes; c_created : N; c_consumed : option N }.
Definition cell_items (c : cell) : list bytes :=
  [enc_str (c_output c); enc_str (c_data c); enc_uint (c_created c);
   enc_option (option_map enc_uint (c_consumed c))].
Definition enc_cell (c : cell) : bytes := enc_list (cell_items c).
Definition dec_cell (b : bytes) : option cell :=
  let? o := val_at dec_value b 0 in
  let? d := val_at dec_value b 1 in
  let? n := val_at (dec_uint 8) b 2 in
  let? s := val_at (dec_option (dec_uint 8)) b 3 in
  Some (Cell_ o d n s).

(** image_cell/abi.rs: an output cell with its out point (output already packed), the blocks
    of an update call and of a rollback call. *)
Record out_cell := OutCell_ { oc_key : cell_key; oc_output : bytes; oc_data : bytes }.
Record img_block := ImgBlock_ {
  ib_number : N; ib_inputs : list cell_key; ib_outputs : list out_cell }.
Record img_undo := ImgUndo_ { iu_inputs : list cell_key; iu_outputs : list cell_key }.

(** image_cell/store.rs:137-150: error when the stored bytes do not decode. *)
Definition get_cell (t : trie) (k : cell_key) : option (option cell) :=
  match t !! enc_cell_key k with
  | None => Some None
  | Some b => match dec_cell b with Some c => Some (Some c) | None => None end
  end.

(** image_cell/store.rs:197-201. *)
Definition insert_cell (t : trie) (k : cell_key) (c : cell) : trie :=
  trie_insert t (enc_cell_key k) (enc_cell c).

(** image_cell/store.rs:203-218: error when the cell is absent. *)
Definition remove_cell (t : trie) (k : cell_key) : option trie :=
  let (removed, t') := trie_remove t (enc_cell_key k) in
  if removed then Some t' else None.

(** image_cell/store.rs:152-195. *)
Definition save_cells (t : trie) (outs : list out_cell) (number : N) : trie :=
  foldl (fun t o => insert_cell t (oc_key o) (Cell_ (oc_output o) (oc_data o) number None)) t outs.

(** image_cell/store.rs:99-113 (with [Some n]) and 123-135 (with [None]). *)
Fixpoint mark_cells (t : trie) (ins : list cell_key) (v : option N) : option trie :=
  match ins with
  | [] => Some t
  | k :: r =>
      let? o := get_cell t k in
      match o with
      | Some c => mark_cells (insert_cell t k (Cell_ (c_output c) (c_data c) (c_created c) v)) r v
      | None => mark_cells t r v
      end
  end.

(** image_cell/store.rs:115-121. *)
Fixpoint remove_cells (t : trie) (outs : list cell_key) : option trie :=
  match outs with
  | [] => Some t
  | k :: r => let? t' := remove_cell t k in remove_cells t' r
  end.

(** image_cell/store.rs:81-88. *)
Fixpoint img_update (t : trie) (blocks : list img_block) : option trie :=
  match blocks with
  | [] => Some t
  | b :: r =>
      let t1 := save_cells t (ib_outputs b) (ib_number b) in
      let? t2 := mark_cells t1 (ib_inputs b) (Some (ib_number b)) in
      img_update t2 r
  end.

(** image_cell/store.rs:90-97. *)
Fixpoint img_rollback (t : trie) (blocks : list img_undo) : option trie :=
  match blocks with
  | [] => Some t
  | b :: r =>
      let? t1 := remove_cells t (iu_outputs b) in
      let? t2 := mark_cells t1 (iu_inputs b) None in
      img_rollback t2 r
  end.

Section Headers.
  (** ABI header ([ckb_light_client/abi.rs] [Header]) and its ABI codec (ethers). *)
  Context {hdr : Type} (hdr_hash : hdr -> bytes) (henc : hdr -> bytes) (hdec : bytes -> option hdr).

  (** ckb_light_client/store.rs:108-112. *)
  Definition save_header (t : trie) (h : hdr) : trie := trie_insert t (hdr_hash h) (henc h).

  (** ckb_light_client/store.rs:114-127. *)
  Definition remove_header (t : trie) (k : bytes) : option trie :=
    let (removed, t') := trie_remove t k in
    if removed then Some t' else None.

  (** ckb_light_client/store.rs:74-80. *)
  Definition hdr_update (t : trie) (hs : list hdr) : option trie := Some (foldl save_header t hs).

  (** ckb_light_client/store.rs:82-88. *)
  Fixpoint hdr_rollback (t : trie) (ks : list bytes) : option trie :=
    match ks with
    | [] => Some t
    | k :: r => let? t' := remove_header t k in hdr_rollback t' r
    end.

  (** ckb_light_client/store.rs:90-106. *)
  Definition get_header (t : trie) (k : bytes) : option (option hdr) :=
    match t !! k with
    | None => Some None
    | Some b => match hdec b with Some h => Some (Some h) | None => None end
    end.

  (** The two contracts as executed: calls after ABI decoding (ckb_light_client/abi.rs,
      image_cell/abi.rs); an undecodable call is [None]. *)
  Inductive cell_call :=
  | CkbSetState (allow : bool) | CkbUpdate (hs : list hdr) | CkbRollback (ks : list bytes)
  | ImgSetState (allow : bool) | ImgUpdate (bs : list img_block) | ImgRollback (bs : list img_undo).

  (** ckb_light_client/mod.rs:30-71, image_cell/mod.rs:32-72: the new committed content and
      whether the call succeeded.  A failing call leaves the root alone: only [commit]
      (store.rs:129-137, 220-228), reached after all the changes, replaces it. *)
  Definition cell_exec (root : trie) (call : option cell_call) : trie * bool :=
    let finish o := match o with Some t => (t, true) | None => (root, false) end in
    match call with
    | None => (root, false)
    | Some (CkbSetState _) | Some (ImgSetState _) => (root, true)
    | Some (CkbUpdate hs) => finish (hdr_update root hs)
    | Some (CkbRollback ks) => finish (hdr_rollback root ks)
    | Some (ImgUpdate bs) => finish (img_update root bs)
    | Some (ImgRollback bs) => finish (img_rollback root bs)
    end.
End Headers.
