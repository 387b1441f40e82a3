(** Vocabulary for the values generators produce. *)
From Coq Require Import String List NArith ZArith Bool.
From Verif Require Import Base PathExp Json MatchingRules JsonCompare Generators SpecGenApply.
Import ListNotations.
Open Scope N_scope.

Definition digits_only (s : str) : Prop := Forall (fun c => 48 <= c <= 57) s.
Definition letter_or_digit (c : N) : Prop := 48 <= c <= 57 \/ 65 <= c <= 90 \/ 97 <= c <= 122.

(** A decimal of [n] digits, as they are generated: up to two digits anything goes; from three digits on
    there are at least two after the point, no superfluous zero in front, and a number below one has
    a first decimal other than zero. *)
Definition decimal_text (n : nat) (s : str) : Prop :=
  match n with
  | O => s = []
  | 1%nat => exists d, s = [d] /\ 48 <= d <= 57
  | 2%nat => exists d e, s = [d; 46; e] /\ 48 <= d <= 57 /\ 48 <= e <= 57
  | _ => exists a b, s = a ++ [46] ++ b /\ digits_only (a ++ b) /\ length (a ++ b) = n /\
           (1 <= length a)%nat /\ (2 <= length b)%nat /\
           (hd 48 a = 48 -> length a = 1%nat /\ hd 48 b <> 48)
  end.

(** A text of a form: [x] stands for a hexadecimal digit in lower case, [X] for one in upper case,
    [y] and [Y] for those of 8 to b; everything else for itself. *)
Definition fits_char (p c : N) : Prop :=
  if p =? 120 then 48 <= c <= 57 \/ 97 <= c <= 102
  else if p =? 88 then 48 <= c <= 57 \/ 65 <= c <= 70
  else if p =? 121 then c = 56 \/ c = 57 \/ c = 97 \/ c = 98
  else if p =? 89 then c = 56 \/ c = 57 \/ c = 65 \/ c = 66
  else c = p.
Definition fits (p s : str) : Prop := Forall2 fits_char p s.

(** Generators with their paths, one after the other: each changes exactly the values its path
    addresses (C71); [step] says what a generator may make of a value. *)
Fixpoint in_turn (step : generator -> json -> json -> Prop) (gs : list (docpath * generator)) (x y : json) : Prop :=
  match gs with
  | [] => y = x
  | (key, g) :: gs' =>
      exists u, (forall path, below_root key path -> json_wf x -> plain_keys path x -> changed (step g) path x u) /\ in_turn step gs' u y
  end.
(** The value, compared with itself, satisfies the rules. *)
Definition satisfies_on_itself (w : world) (rules : category) (x : json) : Prop :=
  compare_json w path_root x x (mkCtx false rules) = [].
