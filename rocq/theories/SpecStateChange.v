(** Specification of the requests for a change of the state of the provider. *)
From Coq Require Import String List Arith NArith Bool Permutation Sorted.
From Verif Require Import Base PathExp Json MatchingRules Matchers Headers Query ContentType JsonCompare Http Merge VerifierClient Verifier
  SpecVerifierClient SpecVerifier StateChange.
Import ListNotations.
Open Scope N_scope.

(** The text of a value in a query. *)
Definition query_text (w : world) (v : json) : str := match v with JStr t => t | _ => json_show w v end.

(** The JSON document asks for the change: it has the name of the state, all its parameters, what to do, and nothing else. *)
Definition asks_in_body (s : pstate) (setup : bool) (j : json) : Prop :=
  exists fields params, j = JObj fields /\
    obj_get (S_ "state") fields = Some (JStr (st_name s)) /\
    obj_get (S_ "action") fields = Some (JStr (S_ (if setup then "setup" else "teardown"))) /\
    obj_get (S_ "params") fields = Some (JObj params) /\
    (forall k, In k (keys fields) -> k = S_ "state" \/ k = S_ "action" \/ k = S_ "params") /\ NoDup (keys fields) /\
    (forall k, obj_get k params = last_entry k (st_params s)) /\ NoDup (keys params).
(** The query asks for the change: each name once, the parameters over the name of the state and what to do. *)
Definition asks_in_query (w : world) (s : pstate) (setup : bool) (q : list (str * option str)) : Prop :=
  NoDup (map fst q) /\
  forall k v, In (k, v) q <->
    match last_entry k (st_params s) with
    | Some p => v = Some (query_text w p)
    | None => (k = S_ "state" /\ v = Some (st_name s)) \/ (k = S_ "action" /\ v = Some (S_ (if setup then "setup" else "teardown")))
    end.

(** The values an answer returns: the members of a JSON object that says it is one. *)
Definition returns (x : externals) (r : native_response) (values : list (str * json)) : Prop :=
  (exists v rest ct m, obj_get (S_ "content-type") (nr_headers r) = Some (Some v :: rest) /\ parse_mime x v = Some ct /\
     is_json ct = true /\ json_of_bytes x (nr_body r) = Some (JObj m) /\ values = m) \/
  (values = [] /\ ~ exists v rest ct m, obj_get (S_ "content-type") (nr_headers r) = Some (Some v :: rest) /\ parse_mime x v = Some ct /\
     is_json ct = true /\ json_of_bytes x (nr_body r) = Some (JObj m)).
(** The facts of the crate [http] needed: the name and value of the header written are allowed; an empty text is no media type. *)
Definition http_facts (x : externals) (cx : client_externals) : Prop :=
  http_name cx (S_ "Content-Type") = Some (S_ "content-type") /\ http_value_ok cx (S_ "application/json") = true /\
  method_ok cx (S_ "POST") = true /\ parse_mime x [] = None.

(** Pacts in a directory: the files directly in it that are of the provider, or cannot be read. *)
Fixpoint listable {P} (e : dir_entry P) : Prop :=
  match e with
  | DFile _ => True
  | DDir None => False
  | DDir (Some l) => (fix go l := match l with [] => True | e :: l' => listable e /\ go l' end) l
  end.
Definition direct_pacts {P} (wanted : P -> bool) (l : list (dir_entry P)) : list (option P) :=
  flat_map (fun e => match e with
                     | DFile (Some p) => if wanted p then [Some p] else []
                     | DFile None => [None]
                     | DDir _ => []
                     end) l.
