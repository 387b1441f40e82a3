(** Specification vocabulary for requests, responses and messages (C23-C25, C47-C52). *)
From Coq Require Import String List NArith ZArith Bool.
From Verif Require Import Base SpecQuery SpecHeaders ContentType.
Import ListNotations.
Open Scope N_scope.

(** A parameter without a value is read as one with an empty value. *)
Definition text_value (v : option str) : str := match v with Some s => s | None => [] end.
(** The parameters of a query; no query is a query without parameters. *)
Definition params_of (q : option (list (str * list (option str)))) (k : str) : option (list str) :=
  match q with
  | Some m => match entry k m with Some vs => Some (map text_value vs) | None => None end
  | None => None
  end.
(** The same names and for every name the same values in the same order. *)
Definition same_query (e a : option (list (str * list (option str)))) : Prop :=
  forall k, params_of e k = params_of a k.
(** A map has one entry for each name. *)
Definition one_entry_each {A} (q : option (list (str * A))) : Prop :=
  match q with Some m => NoDup (map fst m) | None => True end.

(** ASCII text and equality ignoring the case of ASCII letters. *)
Definition ascii_text (s : str) : Prop := forall c, In c s -> c < 128.
Definition ascii_lower_char (c : N) : N := if (65 <=? c) && (c <=? 90) then c + 32 else c.
Definition equal_ignoring_case (a b : str) : Prop := map ascii_lower_char a = map ascii_lower_char b.

(** The sum of the points. *)
Definition sum (l : list Z) : Z := fold_right Z.add 0%Z l.

(** ** Bodies *)
(** Content types whose bodies are compared as JSON. *)
Definition json_type (c : content_type) : Prop :=
  main_type c = S_ "application" /\
  ((exists r, sub_type c = S_ "json" ++ r) \/ suffix c = Some (S_ "json") \/ sub_type c = S_ "graphql").
Definition xml_type (c : content_type) : Prop :=
  (main_type c = S_ "application" \/ main_type c = S_ "text") /\ (sub_type c = S_ "xml" \/ suffix c = Some (S_ "xml")).
Definition form_type (c : content_type) : Prop :=
  main_type c = S_ "application" /\ sub_type c = S_ "x-www-form-urlencoded".
(** The optional headers of a request or response. *)
Definition part_headers_agree (space : N -> bool) (lower : str -> str) (E A : option header_map) : Prop :=
  match E, A with
  | None, _ => True
  | Some E, None => E = []
  | Some E, Some A => headers_agree space lower E A
  end.
Definition part_unique (lower : str -> str) (A : option header_map) : Prop :=
  match A with Some A => unique_names lower A | None => True end.
Definition part_readable (space : N -> bool) (lower : str -> str) (A : option header_map) : Prop :=
  match A with Some A => readable_headers space lower A | None => True end.

(** The number of entries with and without mismatches. *)
Fixpoint count_ok {A} (l : list (str * list A)) : Z :=
  match l with [] => 0 | (_, []) :: l' => 1 + count_ok l' | _ :: l' => count_ok l' end%Z.
Fixpoint count_bad {A} (l : list (str * list A)) : Z :=
  match l with [] => 0 | (_, []) :: l' => count_bad l' | _ :: l' => 1 + count_bad l' end%Z.
