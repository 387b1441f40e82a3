(** C116: files given through the C interface as the parts of a multipart body. *)
From Coq Require Import Ascii String List Arith NArith ZArith Lia Bool.
From Verif Require Import Base PathExp Json Text MatchingRules Matchers Headers ContentType SpecQuery Http QueryProofs Expr Generators RuleExpr RuleExprProofs Integration SpecIntegration
  FormJson SpecFormJson XmlJson SpecXmlJson Merge PactFile Handles PropHandles2 PropIntegration PropPattern3 FfiBody SpecFfiBody PropFfiBody PropFfiBody2 PropFfiBody3.
Import ListNotations.
From Verif Require Builder.
Open Scope N_scope.

(** ** Stripping *)
Lemma strip_prefix_iff : forall p l r, strip_prefix p l = Some r <-> l = p ++ r.
Proof.
  induction p as [|a p IH]; intros l r; cbn [strip_prefix app].
  - split; intro H; [injection H as ->; reflexivity | subst; reflexivity].
  - destruct l as [|b l]; [split; discriminate|]. destruct (N.eqb_spec a b) as [->|NE].
    + rewrite IH. split; intro H; [subst; reflexivity | injection H as ->; reflexivity].
    + split; [discriminate|]. intro H. injection H as -> _. contradiction.
Qed.
Lemma strip_suffix_iff : forall s l r, strip_suffix s l = Some r <-> l = r ++ s.
Proof.
  intros s l r. unfold strip_suffix, option_map. split.
  - destruct (strip_prefix (rev s) (rev l)) as [q|] eqn:E; [|discriminate]. intro H. injection H as <-. apply strip_prefix_iff in E.
    apply (f_equal (@rev N)) in E. rewrite rev_involutive, rev_app_distr, rev_involutive in E. exact E.
  - intros ->. rewrite rev_app_distr. rewrite (proj2 (strip_prefix_iff (rev s) (rev s ++ rev r) (rev r)) eq_refl), rev_involutive. reflexivity.
Qed.
(** What is left without [s] at the end. *)
Definition without_end (s l r : list N) : Prop := l = r ++ s \/ ((forall q, l <> q ++ s) /\ r = l).
Lemma or_same_suffix : forall s l, without_end s l (or_same (strip_suffix s l) l).
Proof.
  intros s l. destruct (strip_suffix s l) as [r|] eqn:E; cbn [or_same]; [left; apply strip_suffix_iff, E|]. right. split; [|reflexivity].
  intros q H. apply strip_suffix_iff in H. congruence.
Qed.

(** ** Markers *)
Lemma char_iff : forall c, boundary_char c = true <-> In c boundary_chars.
Proof.
  intro c. unfold boundary_char. split.
  - rewrite !orb_true_iff, !andb_true_iff, !N.leb_le. intros [[[H|H]|H]|H].
    + assert (exists k, (k < 26)%nat /\ c = 97 + N.of_nat k) as (k & K & ->) by (exists (N.to_nat (c - 97)); lia).
      do 26 (destruct k as [|k]; [vm_compute; tauto|]). lia.
    + assert (exists k, (k < 26)%nat /\ c = 65 + N.of_nat k) as (k & K & ->) by (exists (N.to_nat (c - 65)); lia).
      do 26 (destruct k as [|k]; [vm_compute; tauto|]). lia.
    + assert (exists k, (k < 10)%nat /\ c = 48 + N.of_nat k) as (k & K & ->) by (exists (N.to_nat (c - 48)); lia).
      do 10 (destruct k as [|k]; [vm_compute; tauto|]). lia.
    + apply existsb_exists in H as (d & I & E). apply N.eqb_eq in E. subst d. cbn [In] in I.
      repeat (destruct I as [<-|I]; [vm_compute; tauto|]). contradiction.
  - intro H. assert (A : forallb boundary_char boundary_chars = true) by reflexivity. rewrite forallb_forall in A. exact (A c H).
Qed.
Lemma proper_chars : forall b, proper b <-> Forall (fun c => boundary_char c = true) b.
Proof. intro b. unfold proper. rewrite !Forall_forall. split; intros H c I; apply char_iff, H, I. Qed.
Lemma marker_at_iff : forall l b, marker_at l = Some b <-> marked_at l [] b.
Proof.
  intros l b. unfold marker_at, marked_at, line, dashes. split.
  - destruct (strip_prefix [45; 45] l) as [r|] eqn:E; [|discriminate]. apply strip_prefix_iff in E. subst l.
    pose proof (span_split boundary_char r) as S. destruct (span boundary_char r) as [a r']. destruct S as (-> & A & _).
    destruct (strip_prefix crlf r') as [q|] eqn:E; [|discriminate]. apply strip_prefix_iff in E. subst r'. intro H. injection H as <-.
    split; [apply proper_chars, A|]. exists q. cbn [app]. rewrite <- app_assoc. reflexivity.
  - intros (P & q & ->). apply proper_chars in P. rewrite <- !app_assoc. cbn [app].
    replace (strip_prefix [45; 45] (45 :: 45 :: b ++ 13 :: 10 :: q)) with (Some (b ++ 13 :: 10 :: q)) by reflexivity.
    rewrite (span_app boundary_char b (13 :: 10 :: q) P eq_refl). reflexivity.
Qed.
Lemma marked_cons : forall a l before b, marked_at (a :: l) (a :: before) b <-> marked_at l before b.
Proof.
  intros a l before b. unfold marked_at. split; intros (P & r & E); (split; [exact P|]); exists r; cbn [app] in *; [injection E as E; exact E | rewrite E; reflexivity].
Qed.
Lemma marked_step : forall a l before b, marked_at (a :: l) before b -> (before = [] /\ marker_at (a :: l) = Some b) \/ exists before', before = a :: before' /\ marked_at l before' b.
Proof.
  intros a l [|c before] b H; [left; split; [reflexivity | apply marker_at_iff, H]|]. right. exists before. pose proof H as (_ & r & E). cbn [app] in E.
  injection E as <- _. split; [reflexivity | exact (proj1 (marked_cons _ _ _ _) H)].
Qed.
Lemma find_some_marker : forall l b, find_marker l = Some b -> first_marker l b.
Proof.
  induction l as [|a l IH]; intros b H; cbn [find_marker] in H.
  - destruct (marker_at []) as [c|] eqn:M; discriminate.
  - destruct (marker_at (a :: l)) as [c|] eqn:M.
    + injection H as ->. exists []. split; [apply marker_at_iff, M|]. intros. cbn. lia.
    + apply IH in H as (before & MA & MIN). exists (a :: before). split; [apply marked_cons, MA|].
      intros before' b' MA'. apply marked_step in MA' as [[-> C]|(before'' & -> & MA')]; [congruence|]. apply MIN in MA'. cbn [length]. lia.
Qed.
Lemma find_no_marker : forall l, find_marker l = None -> forall before b, ~ marked_at l before b.
Proof.
  induction l as [|a l IH]; intros H before b MA; cbn [find_marker] in H.
  - destruct MA as (_ & r & E). destruct before; discriminate.
  - destruct (marker_at (a :: l)) as [c|] eqn:M; [discriminate|]. apply marked_step in MA as [[-> C]|(before' & -> & MA)]; [congruence | exact (IH H _ _ MA)].
Qed.
Lemma marked_one : forall l before before' b b', marked_at l before b -> marked_at l before' b' -> length before = length before' -> b = b'.
Proof.
  induction l as [|a l IH]; intros before before' b b' M M' L.
  - destruct M as (_ & r & E). destruct before; discriminate.
  - apply marked_step in M as [[-> C]|(q & -> & M)]; apply marked_step in M' as [[-> C']|(q' & -> & M')]; cbn [length] in L; try discriminate; [congruence|].
    injection L as L. exact (IH _ _ _ _ M M' L).
Qed.
(** The marker that is found is the first one. *)
Theorem C116_first_marker : forall l b, find_marker l = Some b <-> first_marker l b.
Proof.
  intros l b. split; [apply find_some_marker|]. intros (before & M & MIN). destruct (find_marker l) as [c|] eqn:F.
  - apply find_some_marker in F as (before' & M' & MIN'). f_equal. pose proof (MIN _ _ M'). pose proof (MIN' _ _ M). symmetry. eapply marked_one; [exact M | exact M' | lia].
  - exfalso. exact (find_no_marker l F _ _ M).
Qed.

(** ** Parts *)
Lemma markers_as_lines : forall b, marker_of b = line (dashes ++ b) /\ end_marker_of b = line (dashes ++ b ++ dashes).
Proof. intro b. unfold marker_of, end_marker_of, line, dashes, crlf. split; rewrite <- ?app_assoc; reflexivity. Qed.
Lemma multipart_one : forall b p, multipart b [p] = marker_of b ++ p ++ end_marker_of b.
Proof. intros b p. destruct (markers_as_lines b) as [-> ->]. unfold multipart. cbn [flat_map]. rewrite app_nil_r, <- app_assoc. reflexivity. Qed.
Lemma multipart_more : forall b l, multipart b l = flat_map (fun p => marker_of b ++ p) l ++ end_marker_of b.
Proof. intros b l. destruct (markers_as_lines b) as [M E]. unfold multipart. rewrite E. rewrite flat_map_ext with (g := fun p => marker_of b ++ p) by (intros p; rewrite M; reflexivity). reflexivity. Qed.
(** A part keeps its contents under a new boundary. *)
Theorem C116_new_boundary : forall p old new, replace_marker (multipart old [p]) old new = multipart new [p].
Proof.
  intros p old new. unfold replace_marker. rewrite !multipart_one.
  rewrite (proj2 (strip_prefix_iff (marker_of old) _ (p ++ end_marker_of old)) eq_refl). cbn [or_same].
  rewrite (proj2 (strip_suffix_iff (end_marker_of old) _ p) eq_refl). reflexivity.
Qed.
Lemma multipart_marked : forall b p l, proper b -> find_marker (multipart b (p :: l)) = Some b.
Proof.
  intros b p l P. apply C116_first_marker. exists []. split; [|intros; cbn; lia]. split; [exact P|].
  unfold multipart. cbn [flat_map]. exists (p ++ flat_map (fun p => line (dashes ++ b) ++ p) l ++ line (dashes ++ b ++ dashes)). cbn [app]. rewrite <- !app_assoc. reflexivity.
Qed.
Lemma part_appended : forall ct h b q l p r, proper b -> add_part (BPresent (multipart b (q :: l)) ct h) (multipart r [p]) r = Some (multipart b (q :: l ++ [p])).
Proof.
  intros ct h b q l p r P. unfold add_part, existing_marker. rewrite (multipart_marked b q l P). cbn [body_bytes]. rewrite C116_new_boundary. apply (f_equal (@Some _)).
  rewrite (multipart_more b (q :: l)). match goal with |- context [body_bytes (BPresent ?y ct h)] => replace (body_bytes (BPresent y ct h)) with y by reflexivity end. rewrite (proj2 (strip_suffix_iff (end_marker_of b) _ (flat_map (fun p => marker_of b ++ p) (q :: l))) eq_refl). cbn [or_same].
  rewrite multipart_one, (multipart_more b (q :: l ++ [p])). change (q :: l ++ [p]) with ((q :: l) ++ [p]). rewrite flat_map_app. cbn [flat_map]. rewrite app_nil_r, <- !app_assoc. reflexivity.
Qed.

Section Files.
Variable w : world.
Variable x : externals.
Definition made (c : file_call) : option (list N * str) := Some (multipart (utf8 (f_drawn c)) [f_part c], f_drawn c).
Definition add_file (started : bool) (s : side) (i : fint) (c : file_call) : outcome fint unit :=
  bind (with_multipart_file w x started s (Some (f_type c)) (made c) (Some (f_name c)) (f_boundary c) i) (fun r => Ok (fst r)).
Definition add_files (started : bool) (s : side) (cs : list file_call) (i : fint) : outcome fint unit := foldM (add_file started s) cs i.

Lemma type_path : path_new (uni_alpha w) (uni_numeric w) type_header = Ok type_at.
Proof. vm_compute. reflexivity. Qed.
Lemma pushed_types : forall c old, types_added [c] old (x_add_rule old (push_field path_root (f_name c)) (XRule (RContentType (f_type c))) And).
Proof.
  intros c old. split; [reflexivity|]. intro p. cbn [x_add_rule cat_rules]. rewrite xhm_push_get. unfold types_of. cbn [flat_map]. rewrite app_nil_r.
  unfold path_eqb at 1. destruct (str_eqb_spec (path_expr p) (path_expr (push_field path_root (f_name c)))) as [E|NE].
  - rewrite <- (hm_get_same p (push_field path_root (f_name c)) (cat_rules old) E). destruct (hm_get p (cat_rules old)); reflexivity.
  - destruct (hm_get p (cat_rules old)) as [[rs lg cs]|]; [|reflexivity]. cbn [rl_rules rl_logic rl_cascaded]. rewrite app_nil_r. reflexivity.
Qed.
Lemma types_app : forall a b o1 o2 o3, types_added a o1 o2 -> types_added b o2 o3 -> types_added (a ++ b) o1 o3.
Proof.
  intros a b o1 o2 o3 [N1 A] [N2 B]. split; [congruence|]. intro p. rewrite (B p), (A p). unfold types_of. rewrite flat_map_app. fold (types_of a p) (types_of b p).
  destruct (hm_get p (cat_rules o1)) as [[rs lg cs]|].
  - cbn [rl_rules rl_logic rl_cascaded]. rewrite <- app_assoc. reflexivity.
  - destruct (types_of a p); [reflexivity|]. cbn [rl_rules rl_logic rl_cascaded app]. reflexivity.
Qed.
(** No line with a marker. *)
Definition unmarked_body (b : body) : Prop := forall l ct h, b = BPresent l ct h -> forall before m, ~ marked_at l before m.
(** The first file: the body is replaced, the header and its rule are set. *)
Definition first_file (c : file_call) (p p' : fpart) : Prop :=
  fp_body p' = BPresent (multipart (utf8 (f_used c)) [f_part c]) (Some (Builder.content_type_of x (S_ "multipart/form-data"))) None /\
  fp_gens p' = fp_gens p /\ types_added [c] (fp_rules p) (fp_rules p') /\
  header_vals w (S_ "Content-Type") (SpecFfiBody.headers_of (fp_headers p')) = [S_ "multipart/form-data; boundary=" ++ f_used c] /\
  (forall n, ~ same_header w n (S_ "Content-Type") -> header_vals w n (SpecFfiBody.headers_of (fp_headers p')) = header_vals w n (SpecFfiBody.headers_of (fp_headers p))) /\
  rule_added any_multipart type_at (fp_header_rules p) (fp_header_rules p').
(** A further file: its part is put at the end, and nothing but the body and the rule of the part changes. *)
Definition next_file (c : file_call) (p p' : fpart) : Prop :=
  fp_headers p' = fp_headers p /\ fp_header_rules p' = fp_header_rules p /\ fp_gens p' = fp_gens p /\ types_added [c] (fp_rules p) (fp_rules p').
Definition step (c : file_call) (p : fpart) : outcome fpart unit :=
  with_part w (multipart (utf8 (f_used c)) [f_part c]) (Some (form_data x)) (f_used c) (f_type c) (f_name c) p.
Lemma same_headers : forall h, SpecFfiBody.headers_of h = or_empty h.
Proof. destruct h; reflexivity. Qed.
Lemma first_step : forall c p, unmarked_body (fp_body p) -> exists p', step c p = Ok p' /\ first_file c p p'.
Proof.
  intros c p U. unfold step, with_part. rewrite type_path. cbn [bind].
  assert (add_part (fp_body p) (multipart (utf8 (f_used c)) [f_part c]) (utf8 (f_used c)) = None) as ->.
  { unfold add_part. destruct (existing_marker (fp_body p)) as [m|] eqn:E; [exfalso|reflexivity]. unfold existing_marker in E. destruct (fp_body p) as [| | |l ct h] eqn:B; try discriminate.
    apply C116_first_marker in E as (before & M & _). exact (U l ct h eq_refl before m M). }
  eexists. split; [reflexivity|]. unfold first_file. cbn [fp_body fp_gens fp_rules fp_headers fp_header_rules].
  split; [reflexivity|]. split; [reflexivity|]. split; [apply pushed_types|].
  assert (X : forall n, header_vals w n (SpecFfiBody.headers_of (set_header w (fp_headers p) type_header [S_ "multipart/form-data; boundary=" ++ f_used c])) =
    if str_eqb (to_lower w (S_ "Content-Type")) (to_lower w n) then [S_ "multipart/form-data; boundary=" ++ f_used c] else header_vals w n (SpecFfiBody.headers_of (fp_headers p))).
  { intro n. unfold set_header. rewrite !same_headers. fold (key_for w type_header (or_empty (fp_headers p))). cbn [or_empty]. rewrite header_vals_put. reflexivity. }
  split; [rewrite X, str_eqb_refl; reflexivity|]. split; [|apply rule_pushed].
  intros n NS. rewrite X. destruct (str_eqb_spec (to_lower w (S_ "Content-Type")) (to_lower w n)) as [E|_]; [exfalso; apply NS; symmetry; exact E | reflexivity].
Qed.
Lemma next_step : forall c p b q l ct h, proper b -> fp_body p = BPresent (multipart b (q :: l)) ct h ->
  exists p', step c p = Ok p' /\ next_file c p p' /\ fp_body p' = BPresent (multipart b (q :: l ++ [f_part c])) ct h.
Proof.
  intros c p b q l ct h P B. unfold step, with_part. rewrite type_path. cbn [bind]. rewrite B, (part_appended ct h b q l (f_part c) (utf8 (f_used c)) P).
  eexists. split; [reflexivity|]. cbn [fp_body fp_gens fp_rules fp_headers fp_header_rules body_content_type]. split; [|reflexivity].
  split; [reflexivity|]. split; [reflexivity|]. split; [reflexivity | apply pushed_types].
Qed.
(** After all the calls: [cs] are those after the first. *)
Definition files_set (c : file_call) (cs : list file_call) (p p' : fpart) : Prop :=
  fp_body p' = BPresent (multipart (utf8 (f_used c)) (map f_part (c :: cs))) (Some (Builder.content_type_of x (S_ "multipart/form-data"))) None /\
  fp_gens p' = fp_gens p /\ types_added (c :: cs) (fp_rules p) (fp_rules p') /\
  header_vals w (S_ "Content-Type") (SpecFfiBody.headers_of (fp_headers p')) = [S_ "multipart/form-data; boundary=" ++ f_used c] /\
  (forall n, ~ same_header w n (S_ "Content-Type") -> header_vals w n (SpecFfiBody.headers_of (fp_headers p')) = header_vals w n (SpecFfiBody.headers_of (fp_headers p))) /\
  rule_added any_multipart type_at (fp_header_rules p) (fp_header_rules p').
Lemma steps : forall cs c p, unmarked_body (fp_body p) -> proper (utf8 (f_used c)) ->
  exists p', bind (step c p) (foldM (fun p c => step c p) cs) = Ok p' /\ files_set c cs p p'.
Proof.
  intros cs c p U P. destruct (first_step c p U) as (p1 & -> & B & G & T & H & HO & HR). cbn [bind].
  assert (G0 : forall cs done p1, fp_body p1 = BPresent (multipart (utf8 (f_used c)) (map f_part (c :: done))) (Some (Builder.content_type_of x (S_ "multipart/form-data"))) None ->
    types_added (c :: done) (fp_rules p) (fp_rules p1) ->
    exists p', foldM (fun p c => step c p) cs p1 = Ok p' /\
      fp_body p' = BPresent (multipart (utf8 (f_used c)) (map f_part (c :: done ++ cs))) (Some (Builder.content_type_of x (S_ "multipart/form-data"))) None /\
      types_added (c :: done ++ cs) (fp_rules p) (fp_rules p') /\ fp_gens p' = fp_gens p1 /\ fp_headers p' = fp_headers p1 /\ fp_header_rules p' = fp_header_rules p1).
  { clear cs p1 B G T H HO HR. induction cs as [|d cs IH]; intros done p1 B T.
    - exists p1. rewrite app_nil_r. split; [reflexivity|]. split; [exact B|]. split; [exact T|]. auto.
    - cbn [map] in B. destruct (next_step d p1 _ _ _ _ _ P B) as (p2 & E & (A1 & A2 & A3 & A4) & B2).
      replace (foldM (fun p c => step c p) (d :: cs) p1) with (bind (step d p1) (foldM (fun p c => step c p) cs)) by reflexivity. rewrite E. cbn [bind].
      destruct (IH (done ++ [d]) p2) as (p' & E' & B' & T' & C1 & C2 & C3).
      + rewrite B2. cbn [map]. rewrite map_app. reflexivity.
      + exact (types_app (c :: done) [d] _ _ _ T A4).
      + exists p'. rewrite <- app_assoc in B', T'. cbn [app] in B', T'. split; [exact E'|]. split; [exact B'|]. split; [exact T'|].
        split; [congruence|]. split; congruence. }
  destruct (G0 cs [] p1 B T) as (p' & E & B' & T' & C1 & C2 & C3). exists p'. split; [exact E|]. unfold files_set. cbn [app] in B', T'.
  split; [exact B'|]. split; [congruence|]. split; [exact T'|]. rewrite C2, C3. auto.
Qed.
Lemma add_file_step : forall started s q p c, add_file started s (FIHttp q p) c =
  match s with Request => bind (step c q) (fun q => Ok (FIHttp q p)) | Response => bind (step c p) (fun p => Ok (FIHttp q p)) end.
Proof.
  intros started s q p c. unfold add_file, with_multipart_file, made, step, f_used. cbn [fst snd].
  destruct (f_boundary c) as [b|]; cbn [fst snd]; rewrite ?C116_new_boundary; destruct s;
    match goal with |- bind (bind (bind ?o _) _) _ = _ => destruct o; reflexivity end.
Qed.
Lemma files_steps : forall started s cs q p, add_files started s cs (FIHttp q p) =
  match s with Request => bind (foldM (fun p c => step c p) cs q) (fun q => Ok (FIHttp q p)) | Response => bind (foldM (fun p c => step c p) cs p) (fun p => Ok (FIHttp q p)) end.
Proof.
  intros started s cs. unfold add_files. induction cs as [|c cs IH]; intros q p; [destruct s; reflexivity|]. cbn [foldM]. rewrite add_file_step. destruct s.
  - destruct (step c q); [apply IH | reflexivity | reflexivity].
  - destruct (step c p); [apply IH | reflexivity | reflexivity].
Qed.
(** Any number of files on a part whose body has no marker make one multipart body, with the boundary of the first, of the files in the order
    of the calls; the header is that of the first call; every file has a rule on its type. *)
Theorem C116_files : forall started s c cs q p, proper (utf8 (f_used c)) -> unmarked_body (fp_body (match s with Request => q | Response => p end)) ->
  exists i', add_files started s (c :: cs) (FIHttp q p) = Ok i' /\
    match s with
    | Request => exists q', i' = FIHttp q' p /\ files_set c cs q q'
    | Response => exists p', i' = FIHttp q p' /\ files_set c cs p p'
    end.
Proof.
  intros started s c cs q p P U. rewrite files_steps. destruct s.
  - destruct (steps cs c q U P) as (q' & E & F). exists (FIHttp q' p). split; [|eauto]. transitivity (bind (bind (step c q) (foldM (fun p c => step c p) cs)) (fun q => @Ok _ unit (FIHttp q p))); [reflexivity | rewrite E; reflexivity].
  - destruct (steps cs c p U P) as (p' & E & F). exists (FIHttp q p'). split; [|eauto]. transitivity (bind (bind (step c p) (foldM (fun p c => step c p) cs)) (fun p => @Ok _ unit (FIHttp q p))); [reflexivity | rewrite E; reflexivity].
Qed.
(** One file on a part whose body has a marker, whatever put it there: the body loses the end of that marker, if it has it, and gets the part
    with that marker. Nothing else changes but the rule of the part. *)
Theorem C116_appended : forall c p l ct h m, fp_body p = BPresent l ct h -> first_marker l m ->
  exists p' base, with_part w (multipart (utf8 (f_used c)) [f_part c]) (Some (form_data x)) (f_used c) (f_type c) (f_name c) p = Ok p' /\
    without_end (line (dashes ++ m ++ dashes)) l base /\ fp_body p' = BPresent (base ++ multipart m [f_part c]) ct h /\ next_file c p p'.
Proof.
  intros c p l ct h m B FM. unfold with_part. rewrite type_path. cbn [bind]. apply C116_first_marker in FM. rewrite B. unfold add_part, existing_marker. rewrite FM, C116_new_boundary.
  exists (mkFP (fp_headers p) (BPresent (or_same (strip_suffix (end_marker_of m) l) l ++ multipart m [f_part c]) ct h)
    (x_add_rule (fp_rules p) (push_field path_root (f_name c)) (XRule (RContentType (f_type c))) And) (fp_header_rules p) (fp_gens p)).
  exists (or_same (strip_suffix (end_marker_of m) l) l). split; [reflexivity|]. split; [destruct (markers_as_lines m) as [_ <-]; apply or_same_suffix|]. split; [reflexivity|].
  split; [reflexivity|]. split; [reflexivity|]. split; [reflexivity | apply pushed_types].
Qed.
(** What does nothing: no type, a file that cannot be read, a message. The result is an error then; otherwise it is one only after the start. *)
Theorem C116_results : forall started s ct mk name b i i' ok, with_multipart_file w x started s ct mk name b i = Ok (i', ok) ->
  (ok = true <-> started = false /\ ct <> None /\ mk <> None /\ exists q p, i = FIHttp q p) /\
  ((ct = None \/ mk = None \/ forall q p, i <> FIHttp q p) -> i' = i).
Proof.
  intros started s ct mk name b i i' ok H. unfold with_multipart_file in H.
  destruct ct as [ct|]; [|injection H as <- <-; split; [split; [discriminate | intros (_ & N & _); contradiction] | reflexivity]].
  destruct mk as [[bytes r]|]; [|injection H as <- <-; split; [split; [discriminate | intros (_ & _ & N & _); contradiction] | reflexivity]].
  destruct i as [q p|m|q l].
  - apply bind_ok' in H as (i1 & _ & E). apply ok_same in E. apply pair_equal_spec in E as [-> ->]. split.
    + destruct started; cbn [negb]; split; try discriminate; try reflexivity; [intros (N & _); discriminate|]. intros _. split; [reflexivity|]. split; [discriminate|]. split; [discriminate | eauto].
    + intros [N|[N|N]]; try discriminate. exfalso. exact (N q p eq_refl).
  - injection H as <- <-. split; [split; [discriminate | intros (_ & _ & _ & q & p & N); discriminate] | reflexivity].
  - injection H as <- <-. split; [split; [discriminate | intros (_ & _ & _ & q' & p & N); discriminate] | reflexivity].
Qed.
End Files.

(** ** Examples *)
Definition file (t n drawn : string) (part : string) (b : option string) : file_call := mkFile (S_ t) (S_ n) (S_ part) (S_ drawn) (option_map S_ b).
Definition two_files : list file_call := [file "image/png" "picture" "abc" "one" None; file "text/plain" "note" "xyz" "two" (Some "given"%string)].
Example C116_example : exists q', add_files digits_world ffi_ext false Request two_files (fresh None) = Ok (FIHttp q' (empty_part None)) /\
  body_bytes (fp_body q') = line (S_ "--abc") ++ S_ "one" ++ line (S_ "--abc") ++ S_ "two" ++ line (S_ "--abc--") /\
  fp_headers q' = Some [(S_ "Content-Type", [S_ "multipart/form-data; boundary=abc"])] /\
  map (fun e => path_expr (fst e)) (cat_rules (fp_rules q')) = [S_ "$.picture"; S_ "$.note"].
Proof. eexists. split; [vm_compute; reflexivity|]. repeat (apply conj); vm_compute; reflexivity. Qed.
Example C116_example_meets : proper (utf8 (f_used (hd (file "" "" "" "" None) two_files))) /\ unmarked_body (fp_body (empty_part None)).
Proof. split; [|intros l ct h E; discriminate]. apply proper_chars. repeat constructor. Qed.
(** Found: a text that happens to have a line with "--" takes the part behind it: no header and no rule of the header is set. *)
Example C116_text_with_dashes : exists q',
  add_files digits_world ffi_ext false Request [file "image/png" "picture" "abc" "one" None]
    (FIHttp (mkFP None (BPresent (line (S_ "see -- below")) None None) (mkCat CBody []) (mkCat CHeader []) []) (empty_part None)) = Ok (FIHttp q' (empty_part None)) /\
  body_bytes (fp_body q') = line (S_ "see -- below") ++ line (S_ "-- below") ++ S_ "one" ++ line (S_ "-- below--") /\ fp_headers q' = None.
Proof. eexists. split; [vm_compute; reflexivity|]. repeat (apply conj); vm_compute; reflexivity. Qed.
(** Found: with a boundary of other characters the marker of the second part is the one at the end, "--" without a boundary: the body is broken. *)
Example C116_improper_boundary : exists q', add_files digits_world ffi_ext false Request
    [file "image/png" "picture" "abc" "one" (Some "a!b"%string); file "text/plain" "note" "xyz" "two" (Some "a!b"%string)] (fresh None) = Ok (FIHttp q' (empty_part None)) /\
  body_bytes (fp_body q') = line (S_ "--a!b") ++ S_ "one" ++ line (S_ "--a!b--") ++ line (S_ "--") ++ S_ "two" ++ line (S_ "----") /\ length (cat_rules (fp_rules q')) = 2%nat.
Proof. eexists. split; [vm_compute; reflexivity|]. repeat (apply conj); vm_compute; reflexivity. Qed.
