(** Model of how a node answers queries: a block or header by hash, output commitment or height (src/Server/Node/API/BlockAPI.cpp and HeaderAPI.cpp),
    the outputs of a range of heights (src/Server/Node/API/ChainAPI.cpp, BlockChain::GetOutputsByHeight), and JSON-RPC requests
    (include/Net/Servers/RPC/RPCServer.h, include/Net/Clients/RPC/RPC.h).
    Not modelled: HTTP itself (civetweb) and the JSON text of answers. *)
From Coq Require Import Ascii String.
From Verif Require Import Base Bytes FileModel TextModel.
Local Open Scope N_scope.
Local Open Scope list_scope.

(** ** Numbers: std::stoull, which is strtoull of the C library with errors as exceptions *)
Inductive Parsed := Number (n : N) | InvalidArgument | OutOfRange.
(** The value of a digit or letter. *)
Definition digit_value (c : N) : option N :=
  if (48 <=? c) && (c <=? 57) then Some (c - 48)
  else if (65 <=? c) && (c <=? 90) then Some (c - 55)
  else if (97 <=? c) && (c <=? 122) then Some (c - 87)
  else None.
Definition is_digit_of (base c : N) : bool := match digit_value c with Some d => d <? base | None => false end.
(** The longest run of digits; what follows is ignored. *)
Fixpoint run_of (base : N) (s : bytes) (v : N) : N :=
  match s with
  | c :: s' => match digit_value c with Some d => if d <? base then run_of base s' (v * base + d) else v | None => v end
  | [] => v
  end.
(** The base of a number for base 0: 16 after 0x and a digit, 8 after 0, else 10. *)
Definition detect (s : bytes) : N * bytes :=
  match s with
  | 48 :: x :: c :: r => if ((x =? 120) || (x =? 88)) && is_digit_of 16 c then (16, c :: r) else (8, s)
  | 48 :: _ => (8, s)
  | _ => (10, s)
  end.
Definition stoull (base0 : bool) (str : bytes) : Parsed :=
  let s := skip_spaces str in
  let '(negative, s) := match s with
                        | c :: r => if c =? 45 then (true, r) else if c =? 43 then (false, r) else (false, s)
                        | [] => (false, s)
                        end in
  let '(base, s) := if base0 then detect s else (10, s) in
  match s with
  | c :: _ =>
      if is_digit_of base c then
        let v := run_of base s 0 in
        if v <? 2 ^ 64 then Number (if negative : bool then (2 ^ 64 - v) mod 2 ^ 64 else v) else OutOfRange
      else InvalidArgument
  | [] => InvalidArgument
  end.

(** ** Blocks and headers *)
Section LOOKUP.
Context {Block Header : Type}.
Variable block_hash : Block -> bytes.
Variable block_outputs : Block -> list bytes. (* the commitments of its outputs, in order *)
(** The chains as lists of hashes by height, the tables of blocks and headers, and the table of output positions (height, leaf). *)
Record Store := mkStore {
  s_confirmed : list bytes; s_candidate : list bytes;
  s_block : bytes -> option Block; s_header : bytes -> option Header; s_position : bytes -> option (N * N) }.
(** Chain::GetByHeight, src/BlockChain/Chain.cpp:47-55 *)
Definition GetByHeight (chain : list bytes) (height : N) : option bytes :=
  if height <? nlen chain then nth_error chain (N.to_nat height) else None.
(** ChainState.cpp:148-162 *)
Definition GetBlockByHeight (s : Store) (height : N) : option Block :=
  match GetByHeight (s_confirmed s) height with Some h => s_block s h | None => None end.
(** ChainState.cpp:120-129 for the candidate chain *)
Definition GetHeaderByHeight (s : Store) (height : N) : option Header :=
  match GetByHeight (s_candidate s) height with Some h => s_header s h | None => None end.
(** ChainState.cpp:131-146, up to the hash of the block *)
Definition HashByCommitment (s : Store) (c : bytes) : option bytes :=
  match s_position s c with Some (height, _) => GetByHeight (s_confirmed s) height | None => None end.
(** ChainState.cpp:131-146 *)
Definition GetHeaderByCommitment (s : Store) (c : bytes) : option Header :=
  match HashByCommitment s c with Some h => s_header s h | None => None end.
(** CBigInteger<n>::FromHex, include/Crypto/Models/BigInteger.h:96-105 *)
Definition BigInteger_FromHex (n : N) (text : bytes) : outcome bytes :=
  let* d := FromHex text in if nlen d =? n then Ret d else Throw.

(** BlockAPI::GetBlock, BlockAPI.cpp:57-127, and HeaderAPI::GetHeader, HeaderAPI.cpp:40-108, which differ in what they look up only. An exception
    in the first two branches is caught there; out_of_range in the last one is caught by the handler. Both give "not found", None. *)
Definition lookup {A} (by_hash by_commitment : bytes -> option A) (by_height : N -> option A) (requested : bytes) : option A :=
  if (nlen requested =? 64) && IsValidHex requested then
    match BigInteger_FromHex 32 requested with Ret h => by_hash h | _ => None end
  else if (nlen requested =? 66) && IsValidHex requested then
    match BigInteger_FromHex 33 requested with Ret c => by_commitment c | _ => None end
  else match stoull true requested with Number height => by_height height | _ => None end.
(** BlockChainImpl.cpp:328-337 *)
Definition GetBlockByCommitment (s : Store) (c : bytes) : option Block :=
  match HashByCommitment s c with
  | Some h => match s_header s h with Some _ => s_block s h | None => None end
  | None => None
  end.
(** The answer to GET /v1/blocks/<requested>: the block, or 400 BLOCK NOT FOUND. *)
Definition GetBlock (s : Store) : bytes -> option Block := lookup (s_block s) (GetBlockByCommitment s) (GetBlockByHeight s).
(** The answer to GET /v1/headers/<requested>. *)
Definition GetHeader (s : Store) : bytes -> option Header := lookup (s_header s) (GetHeaderByCommitment s) (GetHeaderByHeight s).

(** ** Outputs by height *)
(** BlockWithOutputs: the hash of the block and its outputs with their positions (commitment, height, leaf). *)
Record BlockWithOutputs := mkBWO { w_hash : bytes; w_outputs : list (bytes * (N * N)) }.
(** ChainState.cpp:169-195 *)
Definition GetBlockWithOutputs (s : Store) (height : N) : option BlockWithOutputs :=
  match GetBlockByHeight s height with
  | None => None
  | Some b => Some (mkBWO (block_hash b) (flat_map (fun c => match s_position s c with Some l => [(c, l)] | None => [] end) (block_outputs b)))
  end.
(** The largest number of elements a vector of these can be made to hold: reserve throws above it, whatever the memory. *)
Variable max_size : N.
(** BlockChainImpl.cpp:357-367: the loop; [turns] is how often it runs. *)
Fixpoint heights_from (s : Store) (turns : nat) (height : N) : list BlockWithOutputs :=
  match turns with
  | O => []
  | S t => match GetBlockWithOutputs s height with Some b => [b] | None => [] end ++ heights_from s t (height + 1)
  end.
(** BlockChainImpl.cpp:349-370. The subtraction and addition of 355 are those of uint64. *)
Definition GetOutputsByHeight (s : Store) (startHeight maxHeight : N) : outcome (list BlockWithOutputs) :=
  let highestHeight := N.min (nlen (s_confirmed s) - 1) maxHeight in
  let reserved := (highestHeight + 2 ^ 64 - startHeight + 1) mod 2 ^ 64 in
  if max_size <? reserved then Throw else
  Ret (heights_from s (N.to_nat (highestHeight + 1 - startHeight)) startHeight).

(** What the handlers of queries do with one parameter name=value of a query string: the number read, or an exception, or a bad request;
    other tokens are passed over, and of two values the last one counts. *)
Inductive Query := Value (n : N) | Bad.
Fixpoint parameter (name : bytes) (tokens : list bytes) (value : N) : Query :=
  match tokens with
  | [] => Value value
  | token :: rest =>
      if StartsWith token (name ++ [61]) then
        match Split token 61 with
        | [_; v] => match stoull false v with Number n => parameter name rest n | _ => Bad end
        | _ => Bad
        end
      else parameter name rest value
  end.
(** ChainAPI.cpp:37-125: GET /v1/chain/outputs/byheight?<query>; None is 400 Bad Request. *)
Definition GetChainOutputsByHeight (s : Store) (query : bytes) : option (list BlockWithOutputs) :=
  let tokens := Split query 38 in
  match parameter (chars "start_height") tokens 0, parameter (chars "end_height") tokens 0 with
  | Value startHeight, Value endHeight =>
      let endHeight := if (endHeight =? 0) || (endHeight <? startHeight) then startHeight else endHeight in
      match GetOutputsByHeight s startHeight endHeight with Ret l => Some l | _ => None end
  | _, _ => None
  end.
End LOOKUP.
Arguments Store Block Header : clear implicits.

(** ** JSON-RPC *)
(** A JSON value. Simplification: numbers are integers, and an object has each key once (the parser keeps the last of several). *)
Inductive json := JNull | JBool (b : bool) | JNum (z : Z) | JStr (s : bytes) | JArr (l : list json) | JObj (fields : list (bytes * json)).
Definition isNull (j : json) : bool := match j with JNull => true | _ => false end.
Fixpoint get (fields : list (bytes * json)) (key : bytes) : json :=
  match fields with [] => JNull | (k, v) :: r => if bytes_eqb k key then v else get r key end.
(** JsonUtil::GetOptionalField, include/Core/Util/JsonUtil.h:73-89: throws on null, and jsoncpp throws on everything else that is no object *)
Definition GetOptionalField (node : json) (key : bytes) : outcome (option json) :=
  match node with
  | JObj fields => let v := get fields key in Ret (if isNull v then None else Some v)
  | _ => Throw
  end.
(** What HTTPUtil::GetRequestBody finds, HTTPUtil.cpp:101-127 *)
Inductive Body := NoBody | CutOff | NotJson | Json (j : json).

Record Request := mkRequest { q_id : json; q_method : bytes; q_params : option json }.
(** An RPCException with its optional id, as thrown by Request::Parse *)
Inductive ParseResult := GoodRequest (r : Request) | RpcException (id : option json).
(** RPC::Request::Parse, RPC.h:184-252. Exceptions of other kinds become an RPCException without an id. *)
Definition Request_Parse (b : Body) : ParseResult :=
  match b with
  | NoBody | CutOff | NotJson => RpcException None
  | Json j =>
      match GetOptionalField j (chars "id") with
      | Ret (Some id) =>
          match GetOptionalField j (chars "jsonrpc") with
          | Ret (Some (JStr v)) =>
              if negb (bytes_eqb v (chars "2.0")) then RpcException (Some id) else
              match GetOptionalField j (chars "method") with
              | Ret (Some (JStr m)) =>
                  match m with
                  | [] => RpcException (Some id)
                  | _ => match GetOptionalField j (chars "params") with
                         | Ret params => GoodRequest (mkRequest id m params)
                         | _ => RpcException None
                         end
                  end
              | Ret _ => RpcException (Some id)
              | _ => RpcException None
              end
          | Ret _ => RpcException (Some id)
          | _ => RpcException None
          end
      | _ => RpcException None
      end
  end.

(** RPC::ErrorCode, RPC.h:14-21 *)
Definition INVALID_JSON : Z := -32700.
Definition INVALID_REQUEST : Z := -32600.
Definition METHOD_NOT_FOUND : Z := -32601.
Definition INVALID_PARAMS : Z := -32602.
(** A response: its id, and a result or the code of an error. *)
Inductive Answer := Result (j : json) | Error (code : Z).
Record Response := mkResponse { p_id : json; p_answer : Answer }.
(** What a method does with a request, besides its effects: build a response with one of the Build functions of the request, which put in
    its id (RPC.h:266-292), or throw. *)
Inductive Outcome := Built (a : Answer) | ThrewDeserialization | ThrewRPC (id : option json) | ThrewAPI (code : Z) | ThrewOther.

Section SERVER.
Variable methods : bytes -> option (Request -> Outcome).
(** RPCServer::Handle, RPCServer.h:63-149: the response, and the request for which a method was called, if any. *)
Definition Handle (b : Body) : Response * option Request :=
  match Request_Parse b with
  | RpcException id => (mkResponse (match id with Some i => i | None => JNull end) (Error INVALID_REQUEST), None)
  | GoodRequest r =>
      match methods (q_method r) with
      | None => (mkResponse (q_id r) (Error METHOD_NOT_FOUND), None)
      | Some m =>
          (match m r with
           | Built a => mkResponse (q_id r) a
           | ThrewDeserialization => mkResponse (q_id r) (Error INVALID_PARAMS)
           | ThrewRPC id => mkResponse (match id with Some i => i | None => JNull end) (Error INVALID_REQUEST)
           | ThrewAPI code => mkResponse (q_id r) (Error code)
           | ThrewOther => mkResponse (q_id r) (Error INVALID_REQUEST)
           end, Some r)
      end
  end.
End SERVER.
