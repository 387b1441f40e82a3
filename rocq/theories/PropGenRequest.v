(** C72: generating a request, response or message changes only what has a generator. *)
From Coq Require Import String List Arith NArith Lia Bool Permutation.
From Verif Require Import Base PathExp Json Text MatchingRules Headers Query ContentType JsonCompare Http Expr Generators GenApply SpecGenApply
  GenApplyProofs PropGenApply GenRequest SpecGenRequest HeaderProofs2 RulesProofs RulesProofs3.
Import ListNotations.
Open Scope N_scope.

Lemma active_eq : forall (pg : docpath * generator) mode, corresponds_to_mode (snd pg) mode =
  match snd pg, mode with GProviderState _ _, Consumer | GMockServerURL _ _, Provider => false | _, _ => true end.
Proof. intros [p g] mode. destruct g, mode; reflexivity. Qed.

Lemma apply_filter : forall A mode gs (step : A -> docpath -> generator -> A) a,
  apply_generators mode gs step a = fold_left (fun a pg => step a (fst pg) (snd pg)) (applicable mode gs) a.
Proof.
  intros A mode. induction gs as [|pg gs IH]; intros step a; [reflexivity|].
  unfold apply_generators, applicable in *. cbn [fold_left filter]. rewrite (active_eq pg mode).
  destruct (match snd pg, mode with GProviderState _ _, Consumer | GMockServerURL _ _, Provider => false | _, _ => true end);
    cbn [fold_left]; apply IH.
Qed.

(** A fold of steps that each touch one name, seen at one name. *)
Lemma fold_at_name : forall A B (get : B -> A) (step : B -> docpath -> generator -> B) (once : docpath -> generator -> A -> A) name gs b,
  (forall b k g, get (step b k g) = if (match first_field k with Some f => str_eqb f name | None => false end) then once k g (get b) else get b) ->
  get (fold_left (fun b pg => step b (fst pg) (snd pg)) gs b) = fold_left (fun a pg => once (fst pg) (snd pg) a) (for_name name gs) (get b).
Proof.
  intros A B get step once name gs b H. revert b. induction gs as [|[k g] gs IH]; intro b; [reflexivity|].
  unfold for_name in *. cbn [fold_left filter fst snd]. rewrite IH, H.
  destruct (match first_field k with Some f => str_eqb f name | None => false end); reflexivity.
Qed.

Section Props.
Variable w : world.
Variable x : externals.
Variable out : outcomes.
Variable form_show : list (str * str) -> option (list N).
Variable mode : test_mode.

Lemma header_step_at : forall name hs k g,
  entry name (header_step out hs k g) =
  if (match first_field k with Some f => str_eqb f name | None => false end) then header_once (out_text out GcHeader k g O) (entry name hs) else entry name hs.
Proof.
  intros name hs k g. unfold header_step. destruct (first_field k) as [f|]; [|reflexivity]. unfold header_once.
  destruct hs as [m|]; cbn [entry].
  - destruct (str_eqb_spec f name) as [->|Ne].
    + destruct (obj_get name m) as [[|v vs]|] eqn:G.
      * destruct (out_text out GcHeader k g 0 []) as [v'|]; cbn [entry]; [rewrite sm_insert_get, str_eqb_refl; reflexivity|exact G].
      * destruct (out_text out GcHeader k g 0 v) as [v'|]; cbn [entry]; [rewrite sm_insert_get, str_eqb_refl; reflexivity|exact G].
      * destruct (out_text out GcHeader k g 0 []) as [v'|]; cbn [entry]; [rewrite sm_insert_get, str_eqb_refl; reflexivity|exact G].
    + assert (E : str_eqb name f = false) by (apply str_eqb_neq; intro H; apply Ne; symmetry; exact H).
      destruct (obj_get f m) as [vs|];
        match goal with |- context [out_text out GcHeader k g 0 ?a] => destruct (out_text out GcHeader k g 0 a) end;
        cbn [entry]; rewrite ?sm_insert_get, ?E; reflexivity.
  - destruct (str_eqb_spec f name) as [->|Ne].
    + destruct (out_text out GcHeader k g 0 []); cbn [entry obj_get]; rewrite ?str_eqb_refl; reflexivity.
    + assert (E : str_eqb name f = false) by (apply str_eqb_neq; intro H; apply Ne; symmetry; exact H).
      destruct (out_text out GcHeader k g 0 []); cbn [entry obj_get]; rewrite ?E; reflexivity.
Qed.

Lemma values_eq : forall k g vs n,
  map (fun iv => match out_text out GcQuery k g (fst iv) (match snd iv with Some v => v | None => [] end) with
                 | Some v => Some v | None => snd iv end) (combine (seq n (length vs)) vs) = values_once (out_text out GcQuery k g) n vs.
Proof. intros k g. induction vs as [|v vs IH]; intro n; [reflexivity|]. cbn [length seq combine map values_once fst snd]. rewrite IH. reflexivity. Qed.

Lemma query_step_at : forall name q k g,
  entry name (query_step out q k g) =
  if (match first_field k with Some f => str_eqb f name | None => false end) then query_once (out_text out GcQuery k g) (entry name q) else entry name q.
Proof.
  intros name q k g. unfold query_step. destruct (first_field k) as [f|]; [|reflexivity]. unfold query_once.
  destruct q as [m|]; cbn [entry].
  - destruct (str_eqb_spec f name) as [->|Ne].
    + destruct (obj_get name m) as [vs|] eqn:G.
      * cbn [entry]. rewrite sm_insert_get, str_eqb_refl. unfold query_values. rewrite values_eq. reflexivity.
      * destruct (out_text out GcQuery k g 0 []) as [v'|]; cbn [entry]; [rewrite sm_insert_get, str_eqb_refl; reflexivity|exact G].
    + assert (E : str_eqb name f = false) by (apply str_eqb_neq; intro H; apply Ne; symmetry; exact H).
      destruct (obj_get f m) as [vs|]; [cbn [entry]; rewrite sm_insert_get, E; reflexivity|].
      destruct (out_text out GcQuery k g 0 []); cbn [entry]; rewrite ?sm_insert_get, ?E; reflexivity.
  - destruct (str_eqb_spec f name) as [->|Ne].
    + destruct (out_text out GcQuery k g 0 []); cbn [entry obj_get]; rewrite ?str_eqb_refl; reflexivity.
    + assert (E : str_eqb name f = false) by (apply str_eqb_neq; intro H; apply Ne; symmetry; exact H).
      destruct (out_text out GcQuery k g 0 []); cbn [entry obj_get]; rewrite ?E; reflexivity.
Qed.

Lemma meta_step_at : forall name m k g,
  obj_get name (meta_step out m k g) =
  if (match first_field k with Some f => str_eqb f name | None => false end) then meta_once (out_meta out k g) (obj_get name m) else obj_get name m.
Proof.
  intros name m k g. unfold meta_step. destruct (first_field k) as [f|]; [|reflexivity]. unfold meta_once.
  destruct (str_eqb_spec f name) as [->|Ne].
  - match goal with |- context [out_meta out k g ?a] => destruct (out_meta out k g a) end; [rewrite sm_insert_get, str_eqb_refl|]; reflexivity.
  - assert (E : str_eqb name f = false) by (apply str_eqb_neq; intro H; apply Ne; symmetry; exact H).
    match goal with |- context [out_meta out k g ?a] => destruct (out_meta out k g a) end; rewrite ?sm_insert_get, ?E; reflexivity.
Qed.

(** C72: the method and the rules of a request stay; the path is what its generators make of it;
    the values of every header and query parameter are what the generators for that name make of
    them, so that names without an applicable generator keep their values. *)
Theorem C72_request : forall g r,
  let r' := generate_request w x out form_show mode g r in
  let gens := fun c => applicable mode (build_generators out g (req_rules r) c) in
  req_method r' = req_method r /\ req_rules r' = req_rules r /\
  req_path r' = fold_left (fun p pg => value_once (out_text out GcPath (fst pg) (snd pg) O) p) (gens GcPath) (req_path r) /\
  (forall name, entry name (req_headers r') =
     fold_left (fun vs pg => header_once (out_text out GcHeader (fst pg) (snd pg) O) vs) (for_name name (gens GcHeader)) (entry name (req_headers r))) /\
  (forall name, entry name (req_query r') =
     fold_left (fun vs pg => query_once (out_text out GcQuery (fst pg) (snd pg)) vs) (for_name name (gens GcQuery)) (entry name (req_query r))).
Proof.
  intros g r r' gens. subst r'. unfold generate_request. cbn [req_method req_rules req_path req_headers req_query].
  split; [reflexivity|]. split; [reflexivity|]. split; [rewrite apply_filter; reflexivity|]. split; intro name; rewrite apply_filter.
  - apply (fold_at_name _ _ (entry name) (header_step out) (fun k g => header_once (out_text out GcHeader k g O))). intros. apply header_step_at.
  - apply (fold_at_name _ _ (entry name) (query_step out) (fun k g => query_once (out_text out GcQuery k g))). intros. apply query_step_at.
Qed.

(** C72: the same for the status and the headers of a response. *)
Theorem C72_response : forall g r,
  let r' := generate_response w x out form_show mode g r in
  let gens := fun c => applicable mode (build_generators out g (resp_rules r) c) in
  resp_rules r' = resp_rules r /\
  resp_status r' = fold_left (fun s pg => value_once (out_status out (fst pg) (snd pg)) s) (gens GcStatus) (resp_status r) /\
  (forall name, entry name (resp_headers r') =
     fold_left (fun vs pg => header_once (out_text out GcHeader (fst pg) (snd pg) O) vs) (for_name name (gens GcHeader)) (entry name (resp_headers r))).
Proof.
  intros g r r' gens. subst r'. unfold generate_response. cbn [resp_rules resp_status resp_headers].
  split; [reflexivity|]. split; [rewrite apply_filter; reflexivity|]. intro name. rewrite apply_filter.
  apply (fold_at_name _ _ (entry name) (header_step out) (fun k g => header_once (out_text out GcHeader k g O))). intros. apply header_step_at.
Qed.

(** C72: and for the metadata of a message. *)
Theorem C72_message : forall message_type g m,
  let m' := generate_message w x out form_show mode message_type g m in
  msg_rules m' = msg_rules m /\
  (forall name, obj_get name (msg_metadata m') =
     fold_left (fun v pg => meta_once (out_meta out (fst pg) (snd pg)) v)
       (for_name name (applicable mode (build_generators out g (msg_rules m) GcMetadata))) (obj_get name (msg_metadata m))).
Proof.
  intros mt g m m'. subst m'. unfold generate_message. cbn [msg_rules msg_metadata]. split; [reflexivity|]. intro name. rewrite apply_filter.
  apply (fold_at_name _ _ (obj_get name) (meta_step out) (fun k g => meta_once (out_meta out k g))). intros. apply meta_step_at.
Qed.

(** * Bodies *)
Lemma body_cases : forall b ct gs, body_generated w x out form_show mode b ct gs = b \/
  (gs <> [] /\ body_present b = true /\ (is_json ct = true \/ is_form_urlencoded ct = true)).
Proof.
  intros b ct gs. unfold body_generated. destruct gs as [|g gs]; [left; reflexivity|].
  destruct (body_present b) eqn:P; [|left; reflexivity]. unfold process_body.
  destruct (is_json ct); [right; repeat split; [discriminate|left; reflexivity]|].
  destruct (is_xml ct); [left; reflexivity|].
  destruct (is_form_urlencoded ct); [right; repeat split; [discriminate|right; reflexivity]|left; reflexivity].
Qed.

(** C72: on a form body a generator changes the value of the first parameter its key addresses and nothing else. *)
(* one generator on a form *)
Theorem C72_form_parameter : forall k g params,
  (form_apply out k g [] params = params /\ forall a n v b, params = a ++ (n, v) :: b -> ~ form_addressed k a n) \/
  (exists a n v b, params = a ++ (n, v) :: b /\ form_addressed k a n /\
     (forall a1 n1 v1 a2, a = a1 ++ (n1, v1) :: a2 -> ~ form_addressed k a1 n1) /\
     form_apply out k g [] params = a ++ (n, value_once (out_text out GcBody k g O) v) :: b).
Proof.
  intros k g params.
  assert (H : forall ps bef,
    (form_apply out k g (map fst bef) ps = ps /\ forall a n v b, ps = a ++ (n, v) :: b -> ~ form_addressed k (bef ++ a) n) \/
    (exists a n v b, ps = a ++ (n, v) :: b /\ form_addressed k (bef ++ a) n /\
       (forall a1 n1 v1 a2, a = a1 ++ (n1, v1) :: a2 -> ~ form_addressed k (bef ++ a1) n1) /\
       form_apply out k g (map fst bef) ps = a ++ (n, value_once (out_text out GcBody k g O) v) :: b)).
  { induction ps as [|[n v] ps IH]; intro bef.
    - left. split; [reflexivity|]. intros a n v b E. destruct a; discriminate.
    - assert (Es : seen n (map fst bef) = N.of_nat (length (filter (fun nv => str_eqb n (fst nv)) bef))).
      { unfold seen. f_equal. clear. induction bef as [|q l IH]; [reflexivity|]. cbn [map filter].
        destruct (str_eqb n (fst q)); cbn [length]; rewrite IH; reflexivity. }
      cbn [form_apply]. rewrite Es. unfold path_eqb.
      destruct (str_eqb_spec (path_expr k) (path_expr (join path_root n))) as [E1|N1]; cbn [orb].
      + right. exists [], n, v, ps. rewrite app_nil_r. split; [reflexivity|]. split; [left; exact E1|]. split; [|reflexivity].
        intros a1 n1 v1 a2 E. destruct a1; discriminate.
      + destruct (str_eqb_spec (path_expr k) (path_expr (join_index (join path_root n) (N.of_nat (length (filter (fun nv => str_eqb n (fst nv)) bef)))))) as [E2|N2].
        * right. exists [], n, v, ps. rewrite app_nil_r. split; [reflexivity|]. split; [right; exact E2|]. split; [|reflexivity].
          intros a1 n1 v1 a2 E. destruct a1; discriminate.
        * assert (Nf : ~ form_addressed k bef n) by (intros [E|E]; [exact (N1 E)|exact (N2 E)]).
          specialize (IH (bef ++ [(n, v)])). rewrite map_app in IH. cbn [map fst] in IH.
          destruct IH as [[E F]|(a & n' & v' & b & -> & F & Fn & E)].
          -- left. split; [f_equal; exact E|]. intros [|q a] n' v' b Eq; cbn [app] in Eq.
             ++ injection Eq as <- <- <-. rewrite app_nil_r. exact Nf.
             ++ injection Eq as <- Eq. specialize (F a n' v' b Eq). rewrite <- app_assoc in F. exact F.
          -- right. exists ((n, v) :: a), n', v', b. split; [reflexivity|]. rewrite <- app_assoc in F. split; [exact F|]. split.
             ++ intros [|q a1] n1 v1 a2 Eq; cbn [app] in Eq; [injection Eq as <- <- <-; rewrite app_nil_r; exact Nf|].
                injection Eq as <- Eq. specialize (Fn a1 n1 v1 a2 Eq). rewrite <- app_assoc in Fn. exact Fn.
             ++ cbn [app]. f_equal. exact E. }
  exact (H params []).
Qed.

(** One generator on the parameters of a form: the first one its key addresses. *)
Definition form_changed (k : docpath) (gen : str -> option str) (params params' : list (str * str)) : Prop :=
  (params' = params /\ forall a n v b, params = a ++ (n, v) :: b -> ~ form_addressed k a n) \/
  (exists a n v b, params = a ++ (n, v) :: b /\ form_addressed k a n /\
     (forall a1 n1 v1 a2, a = a1 ++ (n1, v1) :: a2 -> ~ form_addressed k a1 n1) /\
     params' = a ++ (n, value_once gen v) :: b).
Fixpoint form_changed_by (gs : gen_map) (params params' : list (str * str)) : Prop :=
  match gs with
  | [] => params' = params
  | (k, g) :: gs' => exists u, form_changed k (out_text out GcBody k g O) params u /\ form_changed_by gs' u params'
  end.

(** What becomes of a body of a content type with generators. It stays as it is unless it is present, has
    generators and is of a JSON or form type that can be read. A JSON body becomes the text of the document with
    exactly the addressed values changed (for paths that do not overlap and plain keys, see C71), in any
    order; its content type is then application/json. A form becomes the text of the parameters, with
    the first one each generator addresses changed. *)
Definition body_generated_from (gs : gen_map) (ct : content_type) (b b' : body) : Prop :=
  ((gs = [] \/ body_present b = false \/
    (is_json ct = true /\ json_of_bytes x (body_bytes b) = None) \/
    (is_json ct = false /\ (is_xml ct = true \/ is_form_urlencoded ct = false \/ form_of_bytes x (body_bytes b) = None))) ->
   b' = b) /\
  (forall v gs', gs <> [] -> body_present b = true -> is_json ct = true -> json_of_bytes x (body_bytes b) = Some v -> json_wf v ->
   Forall (fun pg => exists path, below_root (fst pg) path /\ plain_keys path v /\ outcomes_wf (out_json out (fst pg) (snd pg))) gs ->
   ForallOrdPairs (fun a b => apart (tl (path_tokens (fst a))) (tl (path_tokens (fst b)))) gs ->
   Permutation (applicable mode gs) gs' ->
   exists v', changed_by (map (fun pg => (tl (path_tokens (fst pg)), out_json out (fst pg) (snd pg))) gs') v v' /\
     b' = BPresent (utf8 (json_show w v')) (Some json_type) None) /\
  (forall params, gs <> [] -> body_present b = true -> is_json ct = false -> is_xml ct = false -> is_form_urlencoded ct = true ->
   form_of_bytes x (body_bytes b) = Some params ->
   exists params', form_changed_by (applicable mode gs) params params' /\
     b' = match form_show params' with Some s => BPresent s (Some form_type) None | None => b end).

Lemma body_generated_ok : forall gs ct b, body_generated_from gs ct b (body_generated w x out form_show mode b ct gs).
Proof.
  intros gs ct b. unfold body_generated. split; [|split].
  - intro H. destruct gs as [|g0 gs]; [reflexivity|]. destruct (body_present b); [|reflexivity]. unfold process_body.
    destruct H as [H|[H|[[H1 H2]|[H1 H2]]]]; try discriminate.
    + rewrite H1, H2. reflexivity.
    + rewrite H1. destruct H2 as [H2|[H2|H2]].
      * rewrite H2. reflexivity.
      * rewrite H2. destruct (is_xml _); reflexivity.
      * rewrite H2. destruct (is_xml _); [reflexivity|]. destruct (is_form_urlencoded _); reflexivity.
  - intros v gs' Ne P J E W F A Pm. destruct gs as [|g0 gs0] eqn:Eg; [contradiction|]. rewrite P. unfold process_body. rewrite J, E.
    eexists. split; [|reflexivity].
    set (L := map (fun pg => (fst pg, snd pg, out_json out (fst pg) (snd pg))) (g0 :: gs0)).
    set (L' := map (fun pg : docpath * generator => (fst pg, snd pg, out_json out (fst pg) (snd pg))) gs').
    assert (Em : map (fun pg => (tl (path_tokens (fst pg)), out_json out (fst pg) (snd pg))) gs' =
                 map (fun g : docpath * generator * (nat -> json -> option json) => (tl (path_tokens (fst (fst g))), snd g)) L').
    { unfold L'. rewrite map_map. reflexivity. }
    rewrite Em. apply C71_order_does_not_matter.
    + unfold L. apply Forall_forall. intros q Hq. apply in_map_iff in Hq. destruct Hq as (pg & <- & Hq). cbn [fst snd].
      rewrite Forall_forall in F. apply F, Hq.
    + unfold L. clear -A. induction A as [|pg l A1 A IH]; [constructor|]. cbn [map]. constructor; [|exact IH].
      apply Forall_forall. intros q Hq. apply in_map_iff in Hq. destruct Hq as (pg' & <- & Hq). cbn [fst snd]. rewrite Forall_forall in A1. apply A1, Hq.
    + exact W.
    + assert (Ea : forall l : gen_map, active mode (map (fun pg => (fst pg, snd pg, out_json out (fst pg) (snd pg))) l) =
                   map (fun pg => (fst pg, snd pg, out_json out (fst pg) (snd pg))) (applicable mode l)).
      { induction l as [|pg l IH]; [reflexivity|]. unfold active, applicable in *. cbn [map filter fst snd]. rewrite (active_eq pg mode).
        destruct (match snd pg, mode with GProviderState _ _, Consumer | GMockServerURL _ _, Provider => false | _, _ => true end);
          cbn [map]; rewrite IH; reflexivity. }
      unfold L. rewrite Ea. unfold L'. apply Permutation_map. exact Pm.
  - intros params Ne P J X F E. destruct gs as [|g0 gs0] eqn:Eg; [contradiction|]. rewrite P. unfold process_body. rewrite J, X, F, E.
    eexists. split; [|reflexivity]. rewrite apply_filter. generalize (applicable mode (g0 :: gs0)). clear. intro l. revert params.
    induction l as [|[k g] l IH]; intro params; [reflexivity|]. cbn [form_changed_by fold_left fst snd].
    exists (form_apply out k g [] params). split; [|apply IH]. apply C72_form_parameter.
Qed.
(** C72: the bodies of requests, responses and messages; the content type is worked out after the headers or
    the metadata have been generated. *)
Theorem C72_request_body : forall g r,
  let r' := generate_request w x out form_show mode g r in
  body_generated_from (build_generators out g (req_rules r) GcBody) (part_content_type w x (mkPart (req_headers r') (req_body r)))
    (req_body r) (req_body r').
Proof. intros g r r'. apply body_generated_ok. Qed.
Theorem C72_response_body : forall g r,
  let r' := generate_response w x out form_show mode g r in
  body_generated_from (build_generators out g (resp_rules r) GcBody) (part_content_type w x (mkPart (resp_headers r') (resp_body r)))
    (resp_body r) (resp_body r').
Proof. intros g r r'. apply body_generated_ok. Qed.
Theorem C72_message_body : forall message_type g m,
  let m' := generate_message w x out form_show mode message_type g m in
  body_generated_from (build_generators out g (msg_rules m) GcBody) (message_type (msg_contents m) (msg_metadata m'))
    (msg_contents m) (msg_contents m').
Proof. intros mt g m m'. apply body_generated_ok. Qed.

(** C72: without any generator that applies, a request with no body generators at all is generated as it is. *)
Theorem C72_nothing_to_generate : forall g r,
  (forall c, c = GcPath \/ c = GcHeader \/ c = GcQuery -> applicable mode (build_generators out g (req_rules r) c) = []) ->
  build_generators out g (req_rules r) GcBody = [] ->
  generate_request w x out form_show mode g r = r.
Proof.
  intros g r H Hb. unfold generate_request. rewrite !apply_filter.
  rewrite (H GcPath), (H GcHeader), (H GcQuery) by auto. rewrite Hb. destruct r. reflexivity.
Qed.
End Props.

(** * Which generators are used *)
Lemma hm_insert_get : forall (m : gen_map) p v q, hm_get q (hm_insert p v m) = if path_eqb q p then Some v else hm_get q m.
Proof.
  induction m as [|[k v0] m IH]; intros p v q; cbn [hm_insert hm_get]; [reflexivity|].
  destruct (path_eqb p k) eqn:E; cbn [hm_get].
  - unfold path_eqb in *. apply str_eqb_eq in E. rewrite E. destruct (str_eqb (path_expr q) (path_expr k)); reflexivity.
  - rewrite IH. unfold path_eqb in *. destruct (str_eqb_spec (path_expr q) (path_expr k)) as [E1|N1]; [|reflexivity].
    destruct (str_eqb_spec (path_expr q) (path_expr p)) as [E2|N2]; [|reflexivity].
    exfalso. apply str_eqb_neq in E. apply E. rewrite <- E1. symmetry. exact E2.
Qed.
Lemma insert_all_get : forall (l m : gen_map) q, NoDup (map (fun px => path_expr (fst px)) l) ->
  hm_get q (insert_all l m) = match hm_get q l with Some v => Some v | None => hm_get q m end.
Proof.
  induction l as [|[k v] l IH]; intros m q ND; [reflexivity|]. inversion ND as [|? ? N1 N2]; subst. unfold insert_all in *. cbn [fold_left fst snd].
  rewrite IH by exact N2. cbn [hm_get]. rewrite hm_insert_get. unfold path_eqb.
  destruct (str_eqb_spec (path_expr q) (path_expr k)) as [E|N]; [|reflexivity].
  destruct (hm_get q l) as [v'|] eqn:G; [|reflexivity]. exfalso. apply N1. cbn [fst] in *.
  destruct (hm_get_in _ _ _ _ G) as (k' & I & E'). apply in_map_iff. exists (k', v'). split; [|exact I]. cbn [fst]. congruence.
Qed.

Lemma rules_fold_get : forall out p rs (m : gen_map) q,
  hm_get q (fold_left (fun m r => fold_left (fun m x => hm_insert p x m) (rule_generators out r) m) rs m) =
  match (if path_eqb q p then last_array_contains (out_variants out) rs else None) with
  | Some g => Some g
  | None => hm_get q m
  end.
Proof.
  intros out p. induction rs as [|r rs IH]; intros m q; [destruct (path_eqb q p); reflexivity|].
  cbn [fold_left last_array_contains]. rewrite IH. destruct (path_eqb q p) eqn:E.
  - destruct (last_array_contains (out_variants out) rs); [reflexivity|].
    destruct r; cbn [rule_generators fold_left]; try reflexivity. destruct (existsb _ _); cbn [fold_left]; [|reflexivity].
    rewrite hm_insert_get, E. reflexivity.
  - destruct r; cbn [rule_generators fold_left]; try reflexivity. destruct (existsb _ _); cbn [fold_left]; [|reflexivity].
    rewrite hm_insert_get, E. reflexivity.
Qed.
Lemma category_generators_get : forall out c q, NoDup (map (fun px => path_expr (fst px)) (cat_rules c)) ->
  hm_get q (category_generators out c) = array_contains_at (out_variants out) c q.
Proof.
  intros out c q. unfold category_generators, array_contains_at.
  assert (H : forall l (m : gen_map), NoDup (map (fun px => path_expr (fst px)) l) ->
    hm_get q (fold_left (fun m pr => fold_left (fun m r => fold_left (fun m x => hm_insert (fst pr) x m) (rule_generators out r) m) (rl_rules (snd pr)) m) l m) =
    match (match hm_get q l with Some rl => last_array_contains (out_variants out) (rl_rules rl) | None => None end) with
    | Some g => Some g
    | None => hm_get q m
    end).
  { induction l as [|[p rl] l IH]; intros m ND; [reflexivity|]. inversion ND as [|? ? N1 N2]; subst. cbn [fold_left fst snd hm_get].
    rewrite IH by exact N2. rewrite rules_fold_get. destruct (path_eqb q p) eqn:E.
    - assert (G : hm_get q l = None).
      { destruct (hm_get q l) as [rl'|] eqn:G; [|reflexivity]. exfalso. apply N1. destruct (hm_get_in _ _ _ _ G) as (k' & I & E').
        unfold path_eqb in E. apply str_eqb_eq in E. apply in_map_iff. exists (k', rl'). split; [|exact I]. cbn [fst]. congruence. }
      rewrite G. reflexivity.
    - reflexivity. }
  intro ND. rewrite (H (cat_rules c) [] ND). destruct (hm_get q (cat_rules c)) as [rl|]; [|reflexivity].
  destruct (last_array_contains (out_variants out) (rl_rules rl)); reflexivity.
Qed.

Lemma hm_insert_texts_nodup : forall (m : gen_map) p v, NoDup (map (fun px => path_expr (fst px)) m) -> NoDup (map (fun px => path_expr (fst px)) (hm_insert p v m)).
Proof.
  assert (T : forall (m : gen_map) p v t, In t (map (fun px => path_expr (fst px)) (hm_insert p v m)) -> t = path_expr p \/ In t (map (fun px => path_expr (fst px)) m)).
  { induction m as [|[k u] m IH]; intros p v t H; cbn [hm_insert] in H; [destruct H as [H|[]]; left; symmetry; exact H|].
    destruct (path_eqb p k); [right; exact H|]. destruct H as [H|H]; [right; left; exact H|]. destruct (IH p v t H); [left|right; right]; assumption. }
  induction m as [|[k u] m IH]; intros p v H; cbn [hm_insert]; [constructor; [intros []|constructor]|].
  destruct (path_eqb p k) eqn:E; [exact H|]. inversion H as [|? ? H1 H2]; subst. cbn [map fst] in *. constructor; [|apply IH, H2].
  intro I. apply T in I. destruct I as [I|I]; [|exact (H1 I)]. unfold path_eqb in E. apply str_eqb_neq in E. apply E. symmetry. exact I.
Qed.
Lemma category_generators_nodup : forall out c, NoDup (map (fun px => path_expr (fst px)) (category_generators out c)).
Proof.
  intros out c. unfold category_generators. assert (N0 : NoDup (map (fun px : docpath * generator => path_expr (fst px)) [])) by constructor.
  revert N0. generalize ([] : gen_map). induction (cat_rules c) as [|[p rl] l IH]; intros m ND; [exact ND|]. cbn [fold_left fst snd]. apply IH.
  clear IH. revert m ND. induction (rl_rules rl) as [|r rs IHr]; intros m ND; [exact ND|]. cbn [fold_left]. apply IHr.
  destruct r; cbn [rule_generators fold_left]; try exact ND. destruct (existsb _ _); [|exact ND]. apply hm_insert_texts_nodup, ND.
Qed.

(** C72: the generator used for a path is that of an array-contains rule on the path, if there is one with generators,
    and else the one defined for the path. *)
Theorem C72_generators_used : forall out g rules c p,
  NoDup (map (fun px => path_expr (fst px)) (match cats_get c g with Some m => m | None => [] end)) ->
  NoDup (map (fun px => path_expr (fst px)) (cat_rules (rules_for (rules_beside c) rules))) ->
  hm_get p (build_generators out g rules c) =
  match array_contains_at (out_variants out) (rules_for (rules_beside c) rules) p with
  | Some g => Some g
  | None => match cats_get c g with Some m => hm_get p m | None => None end
  end.
Proof.
  intros out g rules c p N1 N2. assert (E : gcat_rules c = rules_beside c) by (destruct c; reflexivity).
  unfold build_generators. rewrite E, insert_all_get by apply category_generators_nodup.
  rewrite category_generators_get by exact N2.
  destruct (array_contains_at (out_variants out) (rules_for (rules_beside c) rules) p); [reflexivity|].
  rewrite insert_all_get by exact N1. destruct (cats_get c g) as [m|]; [destruct (hm_get p m)|]; reflexivity.
Qed.

(** C72 (why): a body is printed again, and its content type becomes application/json, even when its only generator is for the other side. *)
Theorem C72_why_printed_again : forall w x out form_show v,
  json_of_bytes x [91; 32; 93] = Some v -> json_show w v = [91; 93] ->
  let ct := mkCT (S_ "application") (S_ "hal") [] (Some (S_ "json")) in
  let r := mkReq (S_ "GET") (S_ "/") None None (BPresent [91; 32; 93] (Some ct) None) [] in
  let g := [(GcBody, [(path_root, GProviderState (S_ "${a}") None)])] in
  applicable Consumer (build_generators out g [] GcBody) = [] /\
  req_body (generate_request w x out form_show Consumer g r) = BPresent [91; 93] (Some json_type) None.
Proof.
  intros w x out fs v E S ct r g. split; [reflexivity|].
  unfold generate_request. cbn [req_body req_rules r]. unfold body_generated.
  change (build_generators out g [] GcBody) with [(path_root, GProviderState (S_ "${a}") None)].
  cbn [body_present]. unfold process_body. change (is_json _) with true. cbn iota. cbn [body_bytes body_value]. rewrite E.
  change (process_json Consumer (map (fun pg : docpath * generator => (fst pg, snd pg, out_json out (fst pg) (snd pg))) [(path_root, GProviderState (S_ "${a}") None)]) v) with v.
  rewrite S. reflexivity.
Qed.

(** C72 (why): a generator for a header with several values leaves one; header names are compared with their case. *)
Theorem C72_why_headers : forall w x form_show,
  let out := mkOut (fun _ _ _ _ s => Some (s ++ S_ "!")) (fun _ _ _ _ => None) (fun _ _ _ => None) (fun _ _ _ => None) (fun _ _ => []) in
  let r := mkReq (S_ "GET") (S_ "/") None (Some [(S_ "A", [S_ "1"; S_ "2"]); (S_ "B", [S_ "3"])]) BMissing [] in
  let g := [(GcHeader, [(push_field path_root (S_ "A"), GRandomBoolean); (push_field path_root (S_ "b"), GRandomBoolean)])] in
  req_headers (generate_request w x out form_show Consumer g r) = Some [(S_ "A", [S_ "1!"]); (S_ "B", [S_ "3"]); (S_ "b", [S_ "!"])].
Proof. intros. reflexivity. Qed.

Example C72_example : forall w x form_show, exists out g r,
  (exists pg, In pg (applicable Provider (build_generators out g (req_rules r) GcQuery))) /\
  entry (S_ "q") (req_query (generate_request w x out form_show Provider g r)) = Some [Some (S_ "a?"); Some (S_ "?"); Some (S_ "b?")] /\
  entry (S_ "z") (req_query (generate_request w x out form_show Provider g r)) = Some [Some (S_ "1")] /\
  req_path (generate_request w x out form_show Provider g r) = S_ "/?".
Proof.
  intros w x fs.
  exists (mkOut (fun _ _ _ _ s => Some (s ++ S_ "?")) (fun _ _ _ _ => None) (fun _ _ _ => None) (fun _ _ _ => None) (fun _ _ => [])),
    [(GcQuery, [(push_field path_root (S_ "q"), GProviderState (S_ "${x}") None); (push_field path_root (S_ "z"), GMockServerURL (S_ "a") (S_ "b"))]);
     (GcPath, [(path_empty, GRandomBoolean)])],
    (mkReq (S_ "GET") (S_ "/") (Some [(S_ "q", [Some (S_ "a"); None; Some (S_ "b")]); (S_ "z", [Some (S_ "1")])]) None BMissing []).
  split; [eexists; left; reflexivity|]. repeat split; reflexivity.
Qed.
