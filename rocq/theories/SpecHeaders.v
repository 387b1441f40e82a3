(** Specification vocabulary for headers (C21, C22, C35). *)
From Coq Require Import String List NArith Bool.
From Verif Require Import Base.
Import ListNotations.
Open Scope N_scope.

Definition header_map := list (str * list str).

Section Names.
(** The lower case form of a name ([str::to_lowercase]). *)
Variable lower : str -> str.

(** Two header maps that differ only in the case of the names. *)
Definition recased (m n : header_map) : Prop :=
  Forall2 (fun x y => lower (fst x) = lower (fst y) /\ snd x = snd y) m n.
(** No two names that are equal ignoring case. *)
Definition unique_names (m : header_map) : Prop := NoDup (map (fun x => lower (fst x)) m).
(** [vs] are the values of the header [k], whatever the case of the name. *)
Definition has_header (m : header_map) (k : str) (vs : list str) : Prop :=
  exists k', In (k', vs) m /\ lower k' = lower k.
End Names.

(** The result of a comparison: no header has a mismatch. *)
Definition matched {A} (r : list (str * list A)) : Prop := forall k l, In (k, l) r -> l = [].

(** Lists of values compared without rules; [same] compares two values and [blank]
    recognises empty ones: an expected empty list needs an actual empty list;
    otherwise every expected value has an actual value that agrees, and surplus
    actual values must be blank. *)
Definition values_agree (same : str -> str -> Prop) (blank : str -> Prop) (e a : list str) : Prop :=
  match e with
  | [] => a = []
  | _ => exists a1 a2, a = a1 ++ a2 /\ Forall2 same e a1 /\ Forall blank a2
  end.

(** ** Structured header values: a media type and parameters *)
Record structured := mkStructured { media : str; params : list (str * str) }.
Section Structured.
Variable space : N -> bool.
(** [s] with white space around it. *)
Definition padded (s text : str) : Prop :=
  exists p q, text = p ++ s ++ q /\ forallb space p = true /\ forallb space q = true.
(** Text that does not start or end with white space. *)
Definition unpadded (s : str) : Prop :=
  (forall x r, s = x :: r -> space x = false) /\ (forall x r, s = r ++ [x] -> space x = false).
(** name = value, with white space allowed around both. *)
Definition param_text (kv : str * str) (text : str) : Prop :=
  exists n v, padded (fst kv) n /\ padded (snd kv) v /\ text = n ++ 61 :: v.
(** The text between two semicolons may also be blank. *)
Inductive params_text : list (str * str) -> list str -> Prop :=
| pt_nil : params_text [] []
| pt_param : forall kv ps t ts, param_text kv t -> params_text ps ts -> params_text (kv :: ps) (t :: ts)
| pt_blank : forall ps t ts, forallb space t = true -> params_text ps ts -> params_text ps (t :: ts).
(** The ways of writing a structured value. *)
Definition written (h : structured) (text : str) : Prop :=
  exists m ts, padded (media h) m /\ params_text (params h) ts /\
    text = m ++ flat_map (fun t => 59 :: t) ts.
(** Values that can be written: no semicolons, no equals sign in parameter names, and
    no white space at the ends (white space there is not part of the value). *)
Definition structured_ok (h : structured) : Prop :=
  media h <> [] /\ ~ In 59 (media h) /\ unpadded (media h) /\
  forall n v, In (n, v) (params h) ->
    ~ In 59 n /\ ~ In 61 n /\ ~ In 59 v /\ unpadded n /\ unpadded v.
End Structured.
(** The value of a parameter: the last one with that name. *)
Fixpoint param (n : str) (ps : list (str * str)) : option str :=
  match ps with
  | [] => None
  | (n', v) :: ps' => match param n ps' with
                      | Some x => Some x
                      | None => if str_eqb n n' then Some v else None
                      end
  end.
Definition low (c : N) : N := if (65 <=? c) && (c <=? 90) then c + 32 else c.
(** Same media type, and every expected parameter is there with the same value,
    ignoring the case of ASCII letters in the value. *)
Definition structured_match (e a : structured) : Prop :=
  media e = media a /\
  forall n v, param n (params e) = Some v ->
    exists v', param n (params a) = Some v' /\ map low v = map low v'.

(** ** What a match of headers without rules means *)
Section Agreement.
Variable space : N -> bool.
Variable lower : str -> str.
(** The two headers whose values have a structure. *)
Definition structured_name (k : str) : Prop := lower k = S_ "accept" \/ lower k = S_ "content-type".
Definition blank (v : str) : Prop := forallb space v = true.
(** Equal but for white space around the text. *)
Definition same_text (x y : str) : Prop := exists s, padded space s x /\ padded space s y.
Definition reads_as (h : structured) (v : str) : Prop := structured_ok space h /\ written space h v.
Definition value_agrees (k : str) (x y : str) : Prop :=
  (structured_name k /\ exists e a, reads_as e x /\ reads_as a y /\ structured_match e a) \/
  (~ structured_name k /\ same_text x y).
Definition headers_agree (E A : header_map) : Prop :=
  forall k vs, In (k, vs) E -> exists avs, has_header lower A k avs /\ values_agree (value_agrees k) blank vs avs.
(** The values of the structured headers are well-formed. *)
Definition readable_headers (m : header_map) : Prop :=
  forall k vs v, In (k, vs) m -> structured_name k -> In v vs -> exists h, reads_as h v.
End Agreement.

(** Headers whose text holds one value even if it contains commas (dates, cookies, user agents). *)
Definition one_value_names : list str :=
  [S_ "date"; S_ "accept-datetime"; S_ "if-modified-since"; S_ "if-unmodified-since"; S_ "expires";
   S_ "retry-after"; S_ "last-modified"; S_ "set-cookie"; S_ "user-agent"].
