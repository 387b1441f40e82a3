(** Specification of writing pact files by several threads: what the file holds if the
    writers take turns. *)
From Coq Require Import List NArith.
From Verif Require Import Store.
Import ListNotations.

(** [in_turn jobs ts b c]: if the threads [ts] merge their pacts into the text [b] one
    after the other, the text is [c]. *)
Inductive in_turn (jobs : tid -> job) : list tid -> bytes -> bytes -> Prop :=
  | it_nil : forall b, in_turn jobs [] b b
  | it_cons : forall t fresh upd ts b b' c, jobs t = Merge fresh upd -> upd b = Some b' -> in_turn jobs ts b' c ->
      in_turn jobs (t :: ts) b c.

(** The texts that merging can make out of [old]: the texts of whole pacts. *)
Inductive whole (jobs : tid -> job) (old : bytes) : bytes -> Prop :=
  | wh_old : whole jobs old old
  | wh_merge : forall t fresh upd b new, whole jobs old b -> jobs t = Merge fresh upd -> upd b = Some new ->
      whole jobs old new.

(** No thread overwrites the file without merging. *)
Definition merging_only (jobs : tid -> job) : Prop :=
  forall t, jobs t = Reader \/ exists fresh upd, jobs t = Merge fresh upd.
(** All writers are threads of one process. *)
Definition one_process (jobs : tid -> job) (proc : tid -> nat) (p : nat) : Prop :=
  forall t, jobs t = Reader \/ proc t = p.
