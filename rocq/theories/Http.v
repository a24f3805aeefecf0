(** pkg/service/http.go: answering one request.  Route paths are compiled to
    matching functions by createPathRegexp (see Route.v). *)
From Coq Require Import List ZArith Lia Bool String.
From Coq Require Import Strings.Byte Floats.SpecFloat.
From Verif Require Import Base Value GoStrings Output Json.
Import ListNotations.
Open Scope Z_scope.

(** What was sent to the http.ResponseWriter: WriteHeader with the status and
    the Content-Type set before, and Write. *)
Inductive event := Header (status : Z) (content_type : bytes) | Body (b : bytes).
Definition response := list event.

(** pkg/output: the two types of outputs.  ExpectedPayloadType is nil for both
    (json_array.go:58-60, json_object.go:66-68). *)
Inductive output := OArray (c : array_config) | OObject (c : object_config).

(** pkg/service/http.go:34-39.  [rt_match]: the sub-matches of
    [path.FindStringSubmatch] after the whole one, [None] when the path does not
    match. *)
Record route := mkRoute {
  rt_match : bytes -> option (list bytes);
  rt_params : list bytes;
  rt_output : output;
}.

(** The parts of an http.Request in use; [rq_query]: the pairs of the query
    string in the order of the URL, as parsed by net/url. *)
Record request := mkRequest { rq_method : bytes; rq_path : bytes; rq_query : list (bytes * bytes) }.

(** pkg/service/http.go:262-275, for outputs without payload. *)
Fixpoint matching_route (routes : list route) (rq : request) : option route :=
  match routes with
  | [] => None
  | r :: routes' =>
    if bytes_eqb (rq_method rq) (lit "GET") &&
       match rt_match r (rq_path rq) with Some _ => true | None => false end
    then Some r
    else matching_route routes' rq
  end.

(** url.Query: the values of every key in order; [v[0]] is the first one
    (pkg/service/http.go:279-282). *)
Fixpoint query_params (q : list (bytes * bytes)) (params : list (bytes * bytes)) : list (bytes * bytes) :=
  match q with
  | [] => params
  | (k, v) :: q' => query_params q' (match mget params k with Some _ => params | None => mset params k v end)
  end.

(** pkg/service/http.go:286-288; [outputMatches[i+1]] out of range panics. *)
Fixpoint path_params (names : list bytes) (captures : list bytes) (params : list (bytes * bytes)) : res (list (bytes * bytes)) :=
  match names with
  | [] => Ok params
  | n :: names' =>
    match captures with
    | [] => Panic
    | c :: captures' => path_params names' captures' (mset params n c)
    end
  end.

(** pkg/service/http.go:277-291 *)
Definition get_params (r : route) (rq : request) : res (list (bytes * bytes)) :=
  path_params (rt_params r) (match rt_match r (rq_path rq) with Some cs => cs | None => [] end) (query_params (rq_query rq) []).

Section Serve.
Variable E : env.
Variable ord : order.
Variable fmt_float : spec_float -> bytes.
(** error.Error() *)
Variable err_text : err -> bytes.
(** Whether [response.Write] succeeds, after what was already sent. *)
Variable write_ok : response -> bytes -> bool.

Definition write (b : bytes) (w : response) : response * res unit :=
  (w ++ [Body b], if write_ok w b then Ok tt else Err EIo).

(** pkg/service/http.go:226-260 for the errors type "application/json", the only
    one that the validation accepts (http_config.go:85-89). *)
Definition send_error_response (status : Z) (e : err) (w : response) : response * res unit :=
  match json_encode fmt_float (VMap [(lit "error", VString (err_text e))]) with
  | Ok b => write b (w ++ [Header status (lit "application/json; charset=UTF-8")])
  | Err e => (w, Err e)
  | Panic => (w, Panic)
  | NoFuel => (w, NoFuel)
  end.

(** pkg/service/http.go:204-211 *)
Definition send_error (e : err) (w : response) : response * res unit :=
  send_error_response (match e with ENotFound => 404 | _ => 500 end) e w.

(** pkg/service/http.go:212-216; ResponseType is "application/json" for both
    outputs. *)
Definition send_success (w : response) : response :=
  w ++ [Header 200 (lit "application/json; charset=UTF-8")].

Definition handle (o : output) (params : list (bytes * bytes)) (w : response) : response * res unit :=
  match o with
  | OArray c => handle_array E ord response send_error send_success write (json_encode fmt_float) c params w
  | OObject c => handle_object E ord response send_error send_success write (json_encode fmt_float) c params w
  end.

(** pkg/service/http.go:181-224: the response, and how the handler ends (errors
    are only logged).  getPayload cannot fail without expected payload. *)
Definition serve (routes : list route) (rq : request) : response * res unit :=
  match matching_route routes rq with
  | None => send_error_response 404 (EMsg "No matching route was found") []
  | Some r =>
    match get_params r rq with
    | Ok params => handle (rt_output r) params []
    | Err e => ([], Err e)
    | Panic => ([], Panic)
    | NoFuel => ([], NoFuel)
    end
  end.
End Serve.
