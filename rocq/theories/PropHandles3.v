(** C66: what the other calls of the C interface do to an interaction. *)
From Coq Require Import Ascii String List Arith NArith ZArith Lia Bool.
From Verif Require Import Base Json Text MatchingRules ContentType Headers Query Http Merge Handles SpecHandles PropHandles PropHandles2.
Import ListNotations.
Open Scope nat_scope.

(** ** Specification *)
(** The parts of an interaction a program can set. *)
Inductive part := PDesc | PStates | PKey | PPending | PComments | PLine | PQuery | PReqHeaders | PStatus | PRespHeaders.
Definition part_of (e : edit) : part :=
  match e with
  | EDescription _ => PDesc
  | EGiven _ | EGivenParam _ _ _ | EGivenParams _ _ => PStates
  | ETestName _ | EComment _ _ | ETextComment _ => PComments
  | ERequest _ _ => PLine
  | EQuery _ _ _ => PQuery
  | EHeader Request _ _ _ | ESetHeader Request _ _ => PReqHeaders
  | EHeader Response _ _ _ | ESetHeader Response _ _ => PRespHeaders
  | EStatus _ => PStatus
  | EKey _ => PKey
  | EPending _ => PPending
  end.
Definition req_of (v : v4i) : option request := match v_payload v with SyncHttp q _ => Some q | _ => None end.
Definition resp_of (v : v4i) : option response := match v_payload v with SyncHttp _ p => Some p | _ => None end.
(** The two interactions are alike in that part. *)
Definition same_part (p : part) (a b : v4i) : Prop :=
  match p with
  | PDesc => v_desc a = v_desc b
  | PStates => v_states a = v_states b
  | PKey => v_key a = v_key b
  | PPending => x_pending (v_extra a) = x_pending (v_extra b)
  | PComments => x_comments (v_extra a) = x_comments (v_extra b)
  | PLine => option_map req_method (req_of a) = option_map req_method (req_of b) /\ option_map req_path (req_of a) = option_map req_path (req_of b)
  | PQuery => option_map req_query (req_of a) = option_map req_query (req_of b)
  | PReqHeaders => option_map req_headers (req_of a) = option_map req_headers (req_of b)
  | PStatus => option_map resp_status (resp_of a) = option_map resp_status (resp_of b)
  | PRespHeaders => option_map resp_headers (resp_of a) = option_map resp_headers (resp_of b)
  end.
(** ... and in what these calls never touch: the bodies, the matching rules, the contents of
    messages, the id, the plugin data, the markup and the transport. *)
Definition same_rest (a b : v4i) : Prop :=
  v_id a = v_id b /\ x_plugin (v_extra a) = x_plugin (v_extra b) /\ x_markup (v_extra a) = x_markup (v_extra b) /\
  x_transport (v_extra a) = x_transport (v_extra b) /\
  option_map req_body (req_of a) = option_map req_body (req_of b) /\ option_map req_rules (req_of a) = option_map req_rules (req_of b) /\
  option_map resp_body (resp_of a) = option_map resp_body (resp_of b) /\ option_map resp_rules (resp_of a) = option_map resp_rules (resp_of b) /\
  (req_of a = None -> v_payload a = v_payload b).

(** Every call changes its own part only. *)
Theorem C66_own_part_only : forall w started e v p, p <> part_of e ->
  same_part p v (snd (apply_edit w started e v)) /\ same_rest v (snd (apply_edit w started e v)).
Proof.
  intros w started e v p N. destruct v as [i k d st pl ex].
  destruct e as [d'|d'|d' n x|d' ps|s|m q|n j x|[] n j x|[] n x|s|k'|b|key [j|]|s]; cbn [apply_edit part_of] in *;
    unfold on_http; cbn [v_payload];
    try (destruct started); destruct pl as [rq rp|?|? ?]; cbn [snd];
    (split; [destruct p; try contradiction; cbn; auto|unfold same_rest; cbn; repeat split; auto; discriminate]).
Qed.

(** *** Provider states *)
(** The parameters of the provider state [d]. *)
Fixpoint params_of (d : str) (l : list pstate) : option (list (str * json)) :=
  match l with [] => None | s :: l' => if str_eqb (st_name s) d then Some (st_params s) else params_of d l' end.
Definition param_of (d name : str) (l : list pstate) : option json :=
  match params_of d l with Some m => obj_get name m | None => None end.
Definition given_calls (w : world) (calls : list (str * str * json)) (v : v4i) : v4i :=
  fold_left (fun v c => snd (apply_edit w false (EGivenParam (fst (fst c)) (snd (fst c)) (snd c)) v)) calls v.
(** The last value given for a parameter. *)
Fixpoint last_given (d name : str) (calls : list (str * str * json)) : option json :=
  match calls with
  | [] => None
  | (d', n', x) :: calls' => match last_given d name calls' with
                             | Some y => Some y
                             | None => if str_eqb d' d && str_eqb n' name then Some x else None
                             end
  end.

Lemma add_param_params : forall d0 d n x l, params_of d0 (add_param d n x l) =
  if str_eqb d d0 then Some (map_put n x (match params_of d l with Some m => m | None => [] end)) else params_of d0 l.
Proof.
  intros d0 d n x l. induction l as [|s l IH]; cbn [add_param params_of st_name st_params map_put]; [reflexivity|].
  destruct (str_eqb_spec (st_name s) d) as [->|N]; cbn [params_of st_name st_params].
  - destruct (str_eqb d d0); reflexivity.
  - destruct (str_eqb_spec (st_name s) d0) as [<-|M].
    + destruct (str_eqb_spec d (st_name s)); [subst; contradiction|reflexivity].
    + exact IH.
Qed.
Lemma add_param_names : forall d n x l,
  map st_name (add_param d n x l) = if existsb (str_eqb d) (map st_name l) then map st_name l else map st_name l ++ [d].
Proof.
  intros d n x l. induction l as [|s l IH]; cbn [add_param map existsb]; [reflexivity|].
  destruct (str_eqb_spec (st_name s) d) as [E|N]; cbn [map st_name].
  - rewrite <- E, str_eqb_refl. reflexivity.
  - rewrite IH. destruct (str_eqb_spec d (st_name s)) as [X|X]; [subst; contradiction|]. cbn [orb].
    destruct (existsb (str_eqb d) (map st_name l)); reflexivity.
Qed.
(** After any number of [pactffi_given_with_param] calls, every parameter of every state has
    the value given last, or else the one it had. *)
Theorem C66_given_with_param : forall w calls v d name,
  param_of d name (v_states (given_calls w calls v)) =
  match last_given d name calls with Some x => Some x | None => param_of d name (v_states v) end.
Proof.
  intros w calls. induction calls as [|[[d1 n1] x1] calls IH]; intros v d name; [reflexivity|].
  unfold given_calls. cbn [fold_left fst snd]. change (fold_left _ calls ?v1) with (given_calls w calls v1). rewrite IH. cbn [last_given].
  destruct (last_given d name calls) as [y|]; [reflexivity|]. cbn [apply_edit snd v_states with_states]. unfold param_of. rewrite add_param_params.
  destruct (str_eqb_spec d1 d) as [->|N]; cbn [andb]; [|reflexivity]. rewrite map_put_get.
  destruct (str_eqb_spec name n1) as [->|M]; [rewrite str_eqb_refl; reflexivity|].
  destruct (str_eqb_spec n1 name) as [->|M']; [contradiction|]. destruct (params_of d (v_states v)); reflexivity.
Qed.
(** The states are those there were, and then those named, each once. *)
Theorem C66_states_named_once : forall w calls v, NoDup (map st_name (v_states v)) ->
  let names := map st_name (v_states (given_calls w calls v)) in
  NoDup names /\ (exists l, names = map st_name (v_states v) ++ l) /\
  forall d, In d names <-> In d (map st_name (v_states v)) \/ In d (map (fun c => fst (fst c)) calls).
Proof.
  intros w calls. induction calls as [|[[d1 n1] x1] calls IH]; intros v ND; cbv zeta.
  - cbn. split; [exact ND|]. split; [exists []; rewrite app_nil_r; reflexivity|]. intro d. tauto.
  - unfold given_calls. cbn [fold_left fst snd]. change (fold_left _ calls ?v1) with (given_calls w calls v1).
    set (v1 := snd (apply_edit w false _ v)).
    assert (E : map st_name (v_states v1) = if existsb (str_eqb d1) (map st_name (v_states v)) then map st_name (v_states v) else map st_name (v_states v) ++ [d1])
      by (apply add_param_names).
    assert (X : existsb (str_eqb d1) (map st_name (v_states v)) = true <-> In d1 (map st_name (v_states v))).
    { rewrite existsb_exists. split; [intros [y [I Y]]; destruct (str_eqb_spec d1 y); [subst; exact I|discriminate]|].
      intro I. exists d1. split; [exact I|apply str_eqb_refl]. }
    assert (ND1 : NoDup (map st_name (v_states v1))).
    { rewrite E. destruct (existsb (str_eqb d1) (map st_name (v_states v))) eqn:Y; [exact ND|].
      apply (NoDup_Add (a := d1) (l := map st_name (v_states v))); [|split; [exact ND|intro I; apply X in I; congruence]].
      rewrite <- (app_nil_r (map st_name (v_states v))) at 1. apply Add_app. }
    destruct (IH v1 ND1) as [A [[l B] C]]. cbv zeta in *. split; [exact A|]. split.
    + rewrite B, E. destruct (existsb _ _); [exists l; reflexivity|]. exists ([d1] ++ l). rewrite app_assoc. reflexivity.
    + intro d. rewrite (C d), E. cbn [map fst snd]. destruct (existsb (str_eqb d1) (map st_name (v_states v))) eqn:Y.
      * cbn [In]. assert (I : In d1 (map st_name (v_states v))) by (apply X; reflexivity).
        split; [tauto|]. intros [H|[H|H]]; [tauto|left; rewrite <- H; exact I|tauto].
      * rewrite in_app_iff. cbn [In]. tauto.
Qed.
(** [pactffi_given] and [pactffi_given_with_params] add a state at the end, even if there is one of that name. *)
Theorem C66_given : forall w v d params,
  v_states (snd (apply_edit w false (EGiven d) v)) = v_states v ++ [mkState d []] /\
  v_states (snd (apply_edit w false (EGivenParams d params) v)) = v_states v ++ [mkState d params].
Proof. intros. split; reflexivity. Qed.

(** *** Comments *)
Lemma map_remove_get : forall {A} (m : list (str * A)) k j, NoDup (map fst m) ->
  obj_get j (map_remove k m) = if str_eqb j k then None else obj_get j m.
Proof.
  induction m as [|[k' v'] m IH]; intros k j ND; cbn [map_remove obj_get]; [destruct (str_eqb j k); reflexivity|].
  inversion ND as [|? ? NI ND']; subst.
  destruct (str_eqb_spec k' k) as [->|N]; cbn [obj_get].
  - destruct (str_eqb_spec j k) as [->|M]; [|reflexivity]. apply obj_get_none. exact NI.
  - rewrite IH by exact ND'. destruct (str_eqb_spec j k') as [->|M]; [|reflexivity].
    destruct (str_eqb_spec k' k); [contradiction|reflexivity].
Qed.
Inductive comment_call := CSet (key : str) (value : json) | CRemove (key : str) | CText (s : str).
Definition comment_edit (c : comment_call) : edit :=
  match c with CSet k j => EComment k (Some j) | CRemove k => EComment k None | CText s => ETextComment s end.
Definition comment_calls (w : world) (calls : list comment_call) (v : v4i) : v4i :=
  fold_left (fun v c => snd (apply_edit w false (comment_edit c) v)) calls v.
Definition comment (key : str) (v : v4i) : option json := obj_get key (x_comments (v_extra v)).
(** The value of the comment [key] after the call, if it was [old]. *)
Definition comment_after (key : str) (c : comment_call) (old : option json) : option json :=
  match c with
  | CSet k j => if str_eqb key k then Some j else old
  | CRemove k => if str_eqb key k then None else old
  | CText s => if str_eqb key (S_ "text")
               then Some (JArr (match old with Some (JArr l) => l ++ [JStr s] | _ => [JStr s] end)) else old
  end.
Lemma map_put_nodup : forall {A} k (v : A) m, NoDup (map fst m) -> NoDup (map fst (map_put k v m)).
Proof.
  intros A k v m. induction m as [|[k' v'] m IH]; intro ND; cbn [map_put map fst]; [constructor; [intros []|constructor]|].
  inversion ND as [|? ? NI ND']; subst. destruct (str_eqb_spec k' k) as [->|N]; cbn [map fst]; [constructor; assumption|].
  constructor; [|apply IH; exact ND']. intro I. apply NI. clear - I N.
  induction m as [|[k2 v2] m IH]; cbn [map_put map fst In] in *; [destruct I as [I|[]]; symmetry in I; contradiction|].
  destruct (str_eqb_spec k2 k) as [->|M]; cbn [map fst In] in I; [exact I|]. destruct I as [I|I]; [left; exact I|right; apply IH; exact I].
Qed.
Lemma map_remove_nodup : forall {A} k (m : list (str * A)), NoDup (map fst m) -> NoDup (map fst (map_remove k m)).
Proof.
  intros A k m. induction m as [|[k' v'] m IH]; intro ND; cbn [map_remove map fst]; [constructor|].
  inversion ND as [|? ? NI ND']; subst. destruct (str_eqb_spec k' k) as [->|N]; cbn [map fst]; [exact ND'|].
  constructor; [|apply IH; exact ND']. intro I. apply NI. clear - I.
  induction m as [|[k2 v2] m IH]; cbn [map_remove map fst In] in *; [exact I|].
  destruct (str_eqb k2 k); cbn [map fst In] in I; [right; exact I|]. destruct I as [I|I]; [left; exact I|right; apply IH; exact I].
Qed.
(** After any calls every comment has the value the calls on it give, one after the other. *)
Theorem C66_comments : forall w calls v key, NoDup (map fst (x_comments (v_extra v))) ->
  comment key (comment_calls w calls v) = fold_left (fun o c => comment_after key c o) calls (comment key v).
Proof.
  intros w calls. induction calls as [|c calls IH]; intros v key ND; [reflexivity|].
  unfold comment_calls. cbn [fold_left]. change (fold_left _ calls ?v1) with (comment_calls w calls v1) at 1.
  set (v1 := snd (apply_edit w false (comment_edit c) v)).
  assert (ND1 : NoDup (map fst (x_comments (v_extra v1)))).
  { unfold v1. destruct c as [k j|k|s]; [apply map_put_nodup|apply map_remove_nodup|apply map_put_nodup]; exact ND. }
  rewrite (IH v1 key ND1). f_equal. unfold comment, v1, comment_after. destruct c as [k j|k|s].
  - apply map_put_get.
  - apply map_remove_get. exact ND.
  - cbn [comment_edit apply_edit snd v_extra with_comments with_extra x_comments]. unfold text_comments.
    refine (eq_trans (map_put_get _ _ _ _) _). destruct (str_eqb_spec key (S_ "text")) as [->|N]; [|reflexivity].
    destruct (obj_get (S_ "text") (x_comments (v_extra v))) as [[]|]; reflexivity.
Qed.
(** In particular all texts added are there, in order, after those that were. *)
Theorem C66_texts : forall w texts v l, NoDup (map fst (x_comments (v_extra v))) ->
  (comment (S_ "text") v = Some (JArr l) \/ comment (S_ "text") v = None /\ l = []) -> texts <> [] ->
  comment (S_ "text") (comment_calls w (map CText texts) v) = Some (JArr (l ++ map JStr texts)).
Proof.
  intros w texts v l ND H NE. rewrite C66_comments by exact ND. generalize dependent (comment (S_ "text") v). clear ND v. intros o H.
  destruct texts as [|s texts]; [contradiction|]. clear NE.
  cbn [map fold_left]. assert (X : comment_after (S_ "text") (CText s) o = Some (JArr (l ++ [JStr s]))).
  { unfold comment_after. rewrite str_eqb_refl. destruct H as [->|[-> ->]]; reflexivity. }
  rewrite X. replace (l ++ JStr s :: map JStr texts) with ((l ++ [JStr s]) ++ map JStr texts) by (rewrite <- app_assoc; reflexivity).
  generalize (l ++ [JStr s]). clear. induction texts as [|s texts IH]; intro l; [cbn; rewrite app_nil_r; reflexivity|].
  cbn [map fold_left]. unfold comment_after at 2. rewrite str_eqb_refl, IH, <- app_assoc. reflexivity.
Qed.
(** *** The rest *)
Theorem C66_simple : forall w started v,
  (forall d, v_desc (snd (apply_edit w started (EDescription d) v)) = d) /\
  (forall k, v_key (snd (apply_edit w started (EKey k) v)) = k) /\
  (forall b, x_pending (v_extra (snd (apply_edit w started (EPending b) v))) = b) /\
  (is_http v -> (forall s, option_map resp_status (resp_of (snd (apply_edit w started (EStatus s) v))) = Some s) /\
    forall m p, option_map (fun q => (req_method q, req_path q)) (req_of (snd (apply_edit w started (ERequest m p) v))) = Some (m, p)).
Proof.
  intros w started v. repeat split; unfold is_http, on_http in *; cbn [apply_edit]; unfold on_http, resp_of, req_of;
    destruct (v_payload v); try contradiction; reflexivity.
Qed.
(** A call for HTTP interactions on a message changes nothing and fails. *)
Theorem C66_http_calls_on_messages : forall w started e v, ~ is_http v ->
  In (part_of e) [PLine; PQuery; PReqHeaders; PStatus; PRespHeaders] -> apply_edit w started e v = (RBool false, v).
Proof.
  intros w started e v N I. unfold is_http in N.
  destruct e as [d'|d'|d' n x|d' ps|s|m q|n j x|[] n j x|[] n x|s|k'|b|key j|s]; cbn [part_of] in I;
    try (repeat (destruct I as [I|I]; [discriminate I|]); destruct I; fail);
    cbn [apply_edit]; unfold on_http; destruct (v_payload v); try (destruct N; exact Logic.I); reflexivity.
Qed.
Example C66_example : forall w,
  let v := comment_calls w [CText (S_ "one"); CSet (S_ "k") JNull; CText (S_ "two")]
             (given_calls w [(S_ "s", S_ "a", JNull); (S_ "t", S_ "a", JNull); (S_ "s", S_ "a", JBool true)] (new_int KHttp (S_ "d"))) in
  v_states v = [mkState (S_ "s") [(S_ "a", JBool true)]; mkState (S_ "t") [(S_ "a", JNull)]] /\
  comment (S_ "text") v = Some (JArr [JStr (S_ "one"); JStr (S_ "two")]).
Proof. intros. split; reflexivity. Qed.
