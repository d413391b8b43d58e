(** The protobuf wire format of the p2p messages.  Models prost 0.11.9 (Cargo.lock:5648; the crate is not part of /repo, the
    definitions follow its published source prost/src/encoding.rs and the code derived by prost-derive) and the message types of
    /repo/core/network/src/message/mod.rs, protocols/ping.rs, protocols/discovery/proto.rs and protocols/identify/protocol.rs.

    Simplifications: decode errors are all identified ([None]); a nested message is decoded from the slice its length announces
    (prost decodes it in place and fails afterwards when the end does not match: the same inputs are accepted). *)
From Verif Require Import Bytes.

(* ---------------------------------------------------------------------- *)
(** * Varints and keys *)

(** encode_varint: a u64 has at most ten groups of seven bits *)
Fixpoint varint_aux (fuel : nat) (n : N) : bytes :=
  match fuel with
  | O => []
  | S f => if n <? 128 then [n] else (n mod 128 + 128) :: varint_aux f (n / 128)
  end.
Definition enc_varint (n : N) : bytes := varint_aux 10 n.

(** decode_varint (decode_varint_slice and decode_varint_slow agree): the tenth byte must be below 2 *)
Fixpoint unvarint (k : nat) (b : bytes) : option (N * bytes) :=
  match k, b with
  | O, _ => None
  | S _, [] => None
  | S k', x :: r =>
      if x <? 128 then (if (Nat.eqb k' 0) && (2 <=? x) then None else Some (x, r))
      else match unvarint k' r with
           | Some (v, r') => Some (x - 128 + 128 * v, r')
           | None => None
           end
  end.
Definition dec_varint (b : bytes) : option (N * bytes) := unvarint 10 b.

(** WireType: Varint 0, SixtyFourBit 1, LengthDelimited 2, StartGroup 3, EndGroup 4, ThirtyTwoBit 5 *)
Definition VARINT : N := 0.
Definition LEN : N := 2.

(** encode_key *)
Definition enc_key (tag wt : N) : bytes := enc_varint (tag * 8 + wt).
(** decode_key: the key must be a u32, the wire type one of the six and the tag not 0 *)
Definition dec_key (b : bytes) : option (N * N * bytes) :=
  match dec_varint b with
  | Some (k, r) =>
      if 2 ^ 32 <=? k then None
      else if 5 <? k mod 8 then None
      else if k / 8 =? 0 then None
      else Some (k / 8, k mod 8, r)
  | None => None
  end.

(** Buf::advance after the length check *)
Definition advance (n : N) (b : bytes) : option bytes :=
  if len b <? n then None else Some (skipn (N.to_nat n) b).

(** skip_field: [d] is what is left of the recursion limit of 100; a group is skipped up to the end with the same tag *)
Fixpoint skip_field (d : nat) (wt tag : N) (b : bytes) {struct d} : option bytes :=
  match d with
  | O => None
  | S d' =>
      if wt =? 0 then match dec_varint b with Some (_, r) => Some r | None => None end
      else if wt =? 1 then advance 8 b
      else if wt =? 2 then match dec_varint b with Some (l, r) => advance l r | None => None end
      else if wt =? 3 then
        (fix group (fuel : nat) (b : bytes) : option bytes :=
           match fuel with
           | O => None
           | S f =>
               match dec_key b with
               | Some (t, w, r) =>
                   if w =? 4 then (if t =? tag then Some r else None)
                   else match skip_field d' w t r with Some r' => group f r' | None => None end
               | None => None
               end
           end) (length b) b
      else if wt =? 5 then advance 4 b
      else None
  end.

(* ---------------------------------------------------------------------- *)
(** * Field codecs *)

(** std::str::from_utf8 *)
Definition cont (b : N) : bool := (128 <=? b) && (b <? 192).
Definition within (lo hi b : N) : bool := (lo <=? b) && (b <=? hi).
Fixpoint utf8_aux (fuel : nat) (b : bytes) : bool :=
  match fuel with
  | O => true
  | S f =>
      match b with
      | [] => true
      | x :: r =>
          if x <? 128 then utf8_aux f r
          else if within 194 223 x then
            match r with c1 :: r' => cont c1 && utf8_aux f r' | _ => false end
          else if within 224 239 x then
            match r with
            | c1 :: c2 :: r' =>
                within (if x =? 224 then 160 else 128) (if x =? 237 then 159 else 191) c1 && cont c2 && utf8_aux f r'
            | _ => false
            end
          else if within 240 244 x then
            match r with
            | c1 :: c2 :: c3 :: r' =>
                within (if x =? 240 then 144 else 128) (if x =? 244 then 143 else 191) c1 && cont c2 && cont c3 && utf8_aux f r'
            | _ => false
            end
          else false
      end
  end.
Definition utf8 (b : bytes) : bool := utf8_aux (length b) b.

(** encoders: plain scalar, string and bytes fields are left out when they have the default value *)
Definition f_uint (tag n : N) : bytes := enc_key tag VARINT ++ enc_varint n.
Definition f_uint_opt (tag n : N) : bytes := if n =? 0 then [] else f_uint tag n.
Definition f_bool_opt (tag : N) (v : bool) : bytes := if v then f_uint tag 1 else [].
Definition f_len (tag : N) (b : bytes) : bytes := enc_key tag LEN ++ enc_varint (len b) ++ b.
Definition f_len_opt (tag : N) (b : bytes) : bytes := match b with [] => [] | _ => f_len tag b end.

(** decoders of one value *)
(** uint32::merge: the varint is cut to 32 bits *)
Definition d_uint32 (wt : N) (b : bytes) : option (N * bytes) :=
  if wt =? VARINT then match dec_varint b with Some (v, r) => Some (v mod 2 ^ 32, r) | None => None end else None.
(** bool::merge *)
Definition d_bool (wt : N) (b : bytes) : option (bool * bytes) :=
  if wt =? VARINT then match dec_varint b with Some (v, r) => Some (negb (v =? 0), r) | None => None end else None.
(** bytes::merge_one_copy *)
Definition d_bytes (wt : N) (b : bytes) : option (bytes * bytes) :=
  if wt =? LEN then
    match dec_varint b with
    | Some (l, r) => if len r <? l then None else Some (firstn (N.to_nat l) r, skipn (N.to_nat l) r)
    | None => None
    end
  else None.
(** string::merge *)
Definition d_string (wt : N) (b : bytes) : option (bytes * bytes) :=
  match d_bytes wt b with
  | Some (s, r) => if utf8 s then Some (s, r) else None
  | None => None
  end.

(** Message::merge: fields until the buffer is empty *)
Section Merge.
  Context {M : Type}.
  (** the derived merge_field: message, tag, wire type, buffer *)
  Variable step : M -> N -> N -> bytes -> option (M * bytes).
  Fixpoint pmerge (fuel : nat) (m : M) (b : bytes) : option M :=
    match b with
    | [] => Some m
    | _ =>
        match fuel with
        | O => None
        | S f =>
            match dec_key b with
            | Some (tag, wt, r) =>
                match step m tag wt r with
                | Some (m', r') => pmerge f m' r'
                | None => None
                end
            | None => None
            end
        end
    end.
  Definition pdecode (m : M) (b : bytes) : option M := pmerge (length b) m b.
  (** message::merge (merge_loop): a length-delimited nested message, merged into [m] *)
  Definition d_msg (m : M) (wt : N) (b : bytes) : option (M * bytes) :=
    match d_bytes wt b with
    | Some (p, r) => match pdecode m p with Some m' => Some (m', r) | None => None end
    | None => None
    end.
End Merge.

(** the default arm of a derived merge_field *)
Definition d_skip {M} (d : nat) (m : M) (tag wt : N) (b : bytes) : option (M * bytes) :=
  match skip_field d wt tag b with Some r => Some (m, r) | None => None end.
(** applies a constructor to a decoded value *)
Definition d_map {A B} (f : A -> B) (o : option (A * bytes)) : option (B * bytes) :=
  match o with Some (a, r) => Some (f a, r) | None => None end.

(* ---------------------------------------------------------------------- *)
(** * PingMessage (protocols/ping.rs:221-233) *)

Inductive ping_payload := Ping (nonce : N) | Pong (nonce : N).
Definition ping_msg := option ping_payload.
Definition enc_ping (m : ping_msg) : bytes :=
  match m with
  | Some (Ping n) => f_uint 1 n
  | Some (Pong n) => f_uint 2 n
  | None => []
  end.
Definition ping_step (m : ping_msg) (tag wt : N) (b : bytes) : option (ping_msg * bytes) :=
  if tag =? 1 then d_map (fun n => Some (Ping n)) (d_uint32 wt b)
  else if tag =? 2 then d_map (fun n => Some (Pong n)) (d_uint32 wt b)
  else d_skip 100 m tag wt b.
Definition dec_ping (b : bytes) : option ping_msg := pdecode ping_step None b.

(* ---------------------------------------------------------------------- *)
(** * DiscoveryMessage (protocols/discovery/proto.rs) *)

(** GetNodes (12-20); ListenPort::On is the only alternative of its oneof *)
Record get_nodes := GetNodes { gn_version : N; gn_count : N; gn_port : option N }.
(** Node (31-35) *)
Definition node := list bytes.
(** Nodes (52-58) *)
Record nodes := Nodes { ns_announce : bool; ns_items : list node }.
(** Payload (60-66) and DiscoveryMessage (68-72) *)
Inductive disc_payload := PGetNodes (g : get_nodes) | PNodes (n : nodes).
Definition disc_msg := option disc_payload.

Definition enc_get_nodes (g : get_nodes) : bytes :=
  f_uint_opt 1 (gn_version g) ++ f_uint_opt 2 (gn_count g) ++ match gn_port g with Some p => f_uint 3 p | None => [] end.
Definition get_nodes_step (m : get_nodes) (tag wt : N) (b : bytes) : option (get_nodes * bytes) :=
  if tag =? 1 then d_map (fun n => GetNodes n (gn_count m) (gn_port m)) (d_uint32 wt b)
  else if tag =? 2 then d_map (fun n => GetNodes (gn_version m) n (gn_port m)) (d_uint32 wt b)
  else if tag =? 3 then d_map (fun n => GetNodes (gn_version m) (gn_count m) (Some n)) (d_uint32 wt b)
  else d_skip 99 m tag wt b.

Definition enc_node (n : node) : bytes := concat (map (f_len 1) n).
Definition node_step (m : node) (tag wt : N) (b : bytes) : option (node * bytes) :=
  if tag =? 1 then d_map (fun a => m ++ [a]) (d_bytes wt b) else d_skip 98 m tag wt b.

Definition enc_nodes (n : nodes) : bytes :=
  f_bool_opt 1 (ns_announce n) ++ concat (map (fun i => f_len 2 (enc_node i)) (ns_items n)).
Definition nodes_step (m : nodes) (tag wt : N) (b : bytes) : option (nodes * bytes) :=
  if tag =? 1 then d_map (fun v => Nodes v (ns_items m)) (d_bool wt b)
  else if tag =? 2 then d_map (fun i => Nodes (ns_announce m) (ns_items m ++ [i])) (d_msg node_step [] wt b)
  else d_skip 99 m tag wt b.

Definition enc_disc (m : disc_msg) : bytes :=
  match m with
  | Some (PGetNodes g) => f_len 1 (enc_get_nodes g)
  | Some (PNodes n) => f_len 2 (enc_nodes n)
  | None => []
  end.
(** an alternative that is already chosen is merged into, another one is replaced *)
Definition disc_step (m : disc_msg) (tag wt : N) (b : bytes) : option (disc_msg * bytes) :=
  if tag =? 1 then
    d_map (fun g => Some (PGetNodes g))
      (d_msg get_nodes_step (match m with Some (PGetNodes g) => g | _ => GetNodes 0 0 None end) wt b)
  else if tag =? 2 then
    d_map (fun n => Some (PNodes n))
      (d_msg nodes_step (match m with Some (PNodes n) => n | _ => Nodes false [] end) wt b)
  else d_skip 100 m tag wt b.
Definition dec_disc (b : bytes) : option disc_msg := pdecode disc_step None b.

(* ---------------------------------------------------------------------- *)
(** * Identity (protocols/identify/protocol.rs) *)

(** AddressInfo (8-14) *)
Record addr_info := AddrInfo { a_listen : list bytes; a_observed : bytes }.
(** Identity (36-42) *)
Record identity := Identity { id_chain : bytes; id_info : option addr_info }.

Definition enc_addr_info (a : addr_info) : bytes := concat (map (f_len 1) (a_listen a)) ++ f_len_opt 2 (a_observed a).
Definition addr_info_step (m : addr_info) (tag wt : N) (b : bytes) : option (addr_info * bytes) :=
  if tag =? 1 then d_map (fun a => AddrInfo (a_listen m ++ [a]) (a_observed m)) (d_bytes wt b)
  else if tag =? 2 then d_map (fun a => AddrInfo (a_listen m) a) (d_bytes wt b)
  else d_skip 99 m tag wt b.

Definition enc_identity (i : identity) : bytes :=
  f_len_opt 1 (id_chain i) ++ match id_info i with Some a => f_len 2 (enc_addr_info a) | None => [] end.
Definition identity_step (m : identity) (tag wt : N) (b : bytes) : option (identity * bytes) :=
  if tag =? 1 then d_map (fun s => Identity s (id_info m)) (d_string wt b)
  else if tag =? 2 then
    d_map (fun a => Identity (id_chain m) (Some a))
      (d_msg addr_info_step (match id_info m with Some a => a | None => AddrInfo [] [] end) wt b)
  else d_skip 100 m tag wt b.
Definition dec_identity (b : bytes) : option identity := pdecode identity_step (Identity [] None) b.

(* ---------------------------------------------------------------------- *)
(** * NetworkMessage (message/mod.rs:34-44, 68-79) *)

(** the headers in the order the hash map hands them out *)
Record network_message := NetworkMessage { w_headers : list (bytes * bytes); w_url : bytes; w_content : bytes }.

(** encoding::hash_map: one entry message (key 1, value 2) per header, defaults left out *)
Definition enc_entry (e : bytes * bytes) : bytes := f_len_opt 1 (fst e) ++ f_len_opt 2 (snd e).
Definition entry_step (m : bytes * bytes) (tag wt : N) (b : bytes) : option (bytes * bytes * bytes) :=
  if tag =? 1 then d_map (fun k => (k, snd m)) (d_string wt b)
  else if tag =? 2 then d_map (fun v => (fst m, v)) (d_bytes wt b)
  else d_skip 99 m tag wt b.
(** HashMap::insert *)
Fixpoint h_insert (e : bytes * bytes) (h : list (bytes * bytes)) : list (bytes * bytes) :=
  match h with
  | [] => [e]
  | x :: r => if beqb (fst x) (fst e) then e :: r else x :: h_insert e r
  end.
(** HashMap::get *)
Fixpoint h_get (k : bytes) (h : list (bytes * bytes)) : option bytes :=
  match h with
  | [] => None
  | x :: r => if beqb (fst x) k then Some (snd x) else h_get k r
  end.

Definition enc_network (m : network_message) : bytes :=
  concat (map (fun e => f_len 1 (enc_entry e)) (w_headers m)) ++ f_len_opt 2 (w_url m) ++ f_len_opt 3 (w_content m).
Definition network_step (m : network_message) (tag wt : N) (b : bytes) : option (network_message * bytes) :=
  if tag =? 1 then
    d_map (fun e => NetworkMessage (h_insert e (w_headers m)) (w_url m) (w_content m)) (d_msg entry_step ([], []) wt b)
  else if tag =? 2 then d_map (fun s => NetworkMessage (w_headers m) s (w_content m)) (d_string wt b)
  else if tag =? 3 then d_map (fun c => NetworkMessage (w_headers m) (w_url m) c) (d_bytes wt b)
  else d_skip 100 m tag wt b.
Definition dec_network (b : bytes) : option network_message := pdecode network_step (NetworkMessage [] [] []) b.
