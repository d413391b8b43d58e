(** What the node makes of the JSON of a query: block identifiers, log filters, subscriptions and call objects.
    Models /repo/core/api/src/jsonrpc/web3_types.rs 303-325 (Web3CallRequest), 326-456 (BlockId), 511-640 (Web3Filter, MultiNestType, MultiType), 813-823
    (RawLoggerFilter), /repo/core/api/src/jsonrpc/impl/filter.rs 31-54, /repo/core/api/src/jsonrpc/ws_subscription.rs 238-300 and the readers that serde
    derives for them.
    Simplifications: the text of JSON is parsed by the crate serde_json and not modelled; errors carry no message, so all failures are [None]; the readers
    of fixed-width numbers and hashes (crates primitive-types, fixed-hash) and of access lists (crate ethereum) are arguments. *)
From Verif Require Import Bytes TxModel HexModel ApiModel.
From Verif Require Web3Model.
From stdpp Require Import base list.
From Coq Require Import String Ascii.
Local Open Scope N_scope.

(** A JSON value as it is written: the members of an object in order, also repeated ones.  Of numbers only non-negative integers are told apart. *)
Inductive json := JNull | JBool (b : bool) | JNum (n : option N) | JStr (t : text) | JArr (l : list json) | JObj (l : list (text * json)).

(** The name of a member. *)
Definition nm (s : string) : text := List.map N_of_ascii (list_ascii_of_string s).
Definition mem (k : text) (names : list text) : bool := existsb (beqb k) names.
Definition member {A} (k : text) (l : list (text * A)) : option A := option_map snd (List.find (fun kv => beqb (fst kv) k) l).

(* ---------------------------------------------------------------------- *)
(** * What serde derives *)

(** String, Option, Vec *)
Definition j_str {A} (rd : text -> option A) (j : json) : option A := match j with JStr t => rd t | _ => None end.
Definition j_opt {A} (d : json -> option A) (j : json) : option (option A) := match j with JNull => Some None | _ => option_map Some (d j) end.
Fixpoint j_all {A} (d : json -> option A) (l : list json) : option (list A) :=
  match l with
  | [] => Some []
  | j :: r => match d j, j_all d r with Some x, Some xs => Some (x :: xs) | _, _ => None end
  end.
Definition j_vec {A} (d : json -> option A) (j : json) : option (list A) := match j with JArr l => j_all d l | _ => None end.

Fixpoint repeated (l : list text) : bool := match l with [] => false | k :: r => mem k r || repeated r end.
(** A struct from an object: with deny_unknown_fields an unknown member is an error, otherwise it is skipped; a repeated one is an error.  A struct may also be
    written as the array of all its members in the order of their declaration.  The result gives the value of each member. *)
Definition fields (names : list text) (deny : bool) (j : json) : option (text -> option json) :=
  match j with
  | JObj l =>
      if deny && negb (forallb (fun kv => mem (fst kv) names) l) then None
      else if repeated (List.filter (fun k => mem k names) (List.map fst l)) then None
      else Some (fun k => member k l)
  | JArr l => if Nat.eqb (List.length l) (List.length names) then Some (fun k => member k (combine names l)) else None
  | _ => None
  end.
(** a member of type Option: missing and null are the same *)
Definition opt_field {A} (d : json -> option A) (get : text -> option json) (k : text) : option (option A) :=
  match get k with Some j => j_opt d j | None => Some None end.

(* ---------------------------------------------------------------------- *)
(** * MultiType, MultiNestType (web3_types.rs 522-640) *)
(** one value, several values, or null *)
Definition multi_of {A B} (one : json -> option A) (many : json -> option B) : json -> option (A + B + unit) :=
  fun j => match j with
           | JNull => Some (inr tt)
           | _ => match one j with
                  | Some x => Some (inl (inl x))
                  | None => match many j with Some l => Some (inl (inr l)) | None => None end
                  end
           end.
(** Deserialize (611-632) with From<MultiType> for Option<Vec<T>> (585-593) *)
Definition multi_type {A} (d : json -> option A) (j : json) : option (option (list A)) :=
  match multi_of d (j_vec d) j with
  | Some (inl (inl x)) => Some (Some [x])
  | Some (inl (inr l)) => Some (Some l)
  | Some (inr _) => Some None
  | None => None
  end.
(** Deserialize (556-576) with From<MultiNestType> for Option<Vec<Option<T>>> (530-538) *)
Definition nest_type {A} (d : json -> option A) (j : json) : option (option (list (option A))) :=
  match multi_of d (j_vec (j_opt d)) j with
  | Some (inl (inl x)) => Some (Some [Some x])
  | Some (inl (inr l)) => Some (Some l)
  | Some (inr _) => Some None
  | None => None
  end.

Section Json.
  (** from_str of H160, H256, U64 and U256, and Deserialize of AccessList *)
  Variables (h160 h256 u64 u256 : text -> option N) (acl : json -> option (list (N * list N))).

  (* ---------------------------------------------------------------------- *)
  (** * BlockId (345-456) *)
  Definition bid_key_of (k : text) : bid_key := if beqb k (nm "blockNumber") then KNumber else if beqb k (nm "blockHash") then KHash else KOther.
  Definition api_bid (i : Web3Model.bid) : bid :=
    match i with
    | Web3Model.BNum n => BNum n | Web3Model.BHash h => BHash (be_val h)
    | Web3Model.BLatest => BLatest | Web3Model.BEarliest => BEarliest | Web3Model.BPending => BPending
    end.
  Definition block_id (j : json) : option Web3Model.bid :=
    match j with
    | JStr t => bid_of_str t
    | JObj l => bid_of_map (List.map (fun kv => (bid_key_of (fst kv), match snd kv with JStr t => Some t | _ => None end)) l)
    | _ => None
    end.
  Definition api_block_id (j : json) : option bid := option_map api_bid (block_id j).

  (* ---------------------------------------------------------------------- *)
  (** * Log filters *)
  (** #[serde(default)] *)
  Definition addr_field (get : text -> option json) : option (option (list N)) :=
    match get (nm "address") with Some j => multi_type (j_str h160) j | None => Some None end.
  Definition topics_field (get : text -> option json) : option (option tfilter) := opt_field (j_vec (nest_type (j_str h256))) get (nm "topics").

  (** Web3Filter (511-520), of eth_getLogs *)
  Definition web3_filter (j : json) : option wfilter :=
    match fields [nm "fromBlock"; nm "toBlock"; nm "blockHash"; nm "address"; nm "topics"] true j with
    | Some get =>
        match opt_field api_block_id get (nm "fromBlock"), opt_field api_block_id get (nm "toBlock"), opt_field (j_str h256) get (nm "blockHash"),
              addr_field get, topics_field get with
        | Some f, Some t, Some h, Some a, Some ts => Some (WFilter f t h a ts)
        | _, _, _, _, _ => None
        end
    | None => None
    end.
  (** RawLoggerFilter (813-823) with From (filter.rs 39-54), of eth_newFilter; the checks of new_filter (62-72) *)
  Definition logger_filter (j : json) : option lfilter :=
    match fields [nm "fromBlock"; nm "toBlock"; nm "address"; nm "topics"] true j with
    | Some get =>
        match opt_field api_block_id get (nm "fromBlock"), opt_field api_block_id get (nm "toBlock"), addr_field get, topics_field get with
        | Some f, Some t, Some a, Some ts =>
            if match f with Some BPending => true | _ => false end then None
            else if match t with Some BEarliest | Some (BNum 0) => true | _ => false end then None
            else Some (lfilter_of f t a ts)
        | _, _, _, _ => None
        end
    | None => None
    end.
  (** RawLoggerFilter and LoggerFilter of ws_subscription.rs (267-300): without deny_unknown_fields *)
  Definition ws_filter (j : json) : option (option (list N) * tfilter) :=
    match fields [nm "address"; nm "topics"] false j with
    | Some get => match addr_field get, topics_field get with Some a, Some ts => Some (a, take 4 (default [] ts)) | _, _ => None end
    | None => None
    end.
  (** TryFrom<Params> for Type (244-265), on the list of parameters; further ones are not looked at *)
  Inductive subscription := SHeads | SSyncing | SLogs (f : option (list N) * tfilter).
  Definition subscribe (params : list json) : option subscription :=
    match params with
    | JStr m :: r =>
        if beqb m (nm "newHeads") then Some SHeads
        else if beqb m (nm "syncing") then Some SSyncing
        else if beqb m (nm "logs") then match r with j :: _ => option_map SLogs (ws_filter j) | [] => None end
        else None
    | _ => None
    end.

  (* ---------------------------------------------------------------------- *)
  (** * Web3CallRequest (303-325), of eth_call and eth_estimateGas *)
  Record call_request := CallRequest {
    rq_type : option N; rq_from : option N; rq_to : option N; rq_price : option N; rq_max_fee : option N; rq_gas : option N;
    rq_value : option N; rq_data : option bytes; rq_nonce : option N; rq_access : option (list (N * list N)); rq_chain : option N;
    rq_priority : option N }.
  Definition call_names : list text :=
    [nm "type"; nm "from"; nm "to"; nm "gasPrice"; nm "maxFeePerGas"; nm "gas"; nm "value"; nm "data"; nm "nonce"; nm "accessList"; nm "chainId";
     nm "maxPriorityFeePerGas"].
  Definition call_of_json (j : json) : option call_request :=
    match fields call_names true j with
    | Some get =>
        match opt_field (j_str u64) get (nm "type"), opt_field (j_str h160) get (nm "from"), opt_field (j_str h160) get (nm "to"),
              opt_field (j_str u64) get (nm "gasPrice"), opt_field (j_str u64) get (nm "maxFeePerGas"), opt_field (j_str u64) get (nm "gas") with
        | Some ty, Some from, Some to, Some price, Some fee, Some gas =>
            match opt_field (j_str u256) get (nm "value"), opt_field (j_str hex_from_str) get (nm "data"), opt_field (j_str u256) get (nm "nonce"),
                  opt_field acl get (nm "accessList"), opt_field (j_str u64) get (nm "chainId"), opt_field (j_str u256) get (nm "maxPriorityFeePerGas") with
            | Some value, Some data, Some nonce, Some access, Some chain, Some prio =>
                Some (CallRequest ty from to price fee gas value data nonce access chain prio)
            | _, _, _, _, _, _ => None
            end
        | _, _, _, _, _, _ => None
        end
    | None => None
    end.
  (** what the call is made from (web3.rs 59-91, 418-450): type, nonce, access list and priority fee are not read *)
  Definition addr_bytes (n : N) : bytes := be_fixed 20 n.
  Definition read_request (q : call_request) : Web3Model.creq :=
    Web3Model.CReq (option_map addr_bytes (rq_from q)) (option_map addr_bytes (rq_to q)) (rq_price q) (rq_max_fee q) (rq_gas q) (rq_value q) (rq_data q) (rq_chain q).
End Json.
