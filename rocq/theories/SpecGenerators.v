(** Vocabulary for collections of generators: what is in a collection, when two
    collections hold the same, and which entries the JSON form can carry. *)
From Coq Require Import List NArith ZArith Bool.
From Verif Require Import Base PathExp Json MatchingRules Expr Generators.
Import ListNotations.
Open Scope N_scope.

(** The collection has generator [x] for path [p] of category [c]. *)
Definition has_generator (g : generators) (c : gcat) (p : docpath) (x : generator) : Prop :=
  exists m, In (c, m) g /\ In (p, x) m.

Definition same_generators (g g' : generators) : Prop :=
  forall c p x, has_generator g c p x <-> has_generator g' c p x.

(** The numbers of a generator are in the range of their Rust types. *)
Definition in_range (x : generator) : Prop :=
  match x with
  | GRandomInt min max => i32_range min /\ i32_range max
  | GRandomDecimal d | GRandomHexadecimal d | GRandomString d => u16_range d
  | _ => True
  end.

(** What any collection is: hash maps have one entry per key (paths are compared by their text). *)
Definition generators_wf (g : generators) : Prop :=
  NoDup (map fst g) /\
  Forall (fun cm => NoDup (map (fun px => path_expr (fst px)) (snd cm)) /\ Forall (fun px => in_range (snd px)) (snd cm)) g.

Definition not_array_contains (x : generator) : Prop :=
  match x with GArrayContains _ => False | _ => True end.

(** The keys of each category that the JSON form can carry: none for path, method and status;
    a single name for headers and query parameters; a readable path for bodies and metadata. *)
Definition carried_key (w : world) (c : gcat) (p : docpath) : Prop :=
  match c with
  | GcPath | GcMethod | GcStatus => p = path_empty
  | GcHeader | GcQuery => exists name, p = push_field path_root name
  | GcBody | GcMetadata => path_new (uni_alpha w) (uni_numeric w) (path_expr p) = Ok p
  end.
