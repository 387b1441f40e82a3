(** C33, C60, C61: text handed to C callers. *)
From Coq Require Import Ascii String List Arith NArith ZArith Lia Bool.
From Verif Require Import Base CBuf.
Import ListNotations.

(** ** Specification *)
(** What a C program reads at a buffer: the bytes up to the first zero byte. *)
Definition c_string (buf s : bytes) : Prop := ~ In 0%N s /\ exists rest, buf = s ++ 0%N :: rest.

Lemma has_nul_iff : forall b, has_nul b = true <-> In 0%N b.
Proof.
  intro b. unfold has_nul. rewrite existsb_exists. split.
  - intros [x [I E]]. apply N.eqb_eq in E. subst x. exact I.
  - intro I. exists 0%N. split; [exact I|reflexivity].
Qed.

(** ** C33: writing a string to a buffer *)
Lemma write_ok : forall src dst m, m = S (length src) -> ~ In 0%N src -> (length src < length dst)%nat ->
  write_to_c_buf src dst =
    (Ok m, src ++ 0%N :: (firstn m (skipn m dst) ++ repeat 0%N (length (skipn m dst) - m))).
Proof.
  intros src dst m M NZ L. unfold write_to_c_buf.
  destruct (has_nul src) eqn:E; [apply has_nul_iff in E; contradiction|].
  assert (LL : length (src ++ [0%N]) = m) by (rewrite app_length, M; cbn; lia).
  rewrite LL. destruct (Nat.ltb_spec (length dst) m) as [X|_]; [lia|].
  unfold zeroized_write, slice_write. rewrite LL. rewrite Nat.min_l by lia.
  rewrite firstn_all2 by (rewrite LL; lia). f_equal. rewrite <- app_assoc. cbn [app]. f_equal. f_equal.
  set (rest := skipn m dst). destruct (Nat.leb_spec m (length rest)) as [A|A]; [reflexivity|].
  rewrite firstn_all2 by lia. replace (length rest - m)%nat with 0%nat by lia. cbn [repeat].
  rewrite app_nil_r. reflexivity.
Qed.

(** It succeeds exactly if the string has no zero byte and fits with its terminator. *)
Theorem C33_succeeds_iff : forall src dst,
  (exists n, fst (write_to_c_buf src dst) = Ok n) <-> (~ In 0%N src /\ (length src < length dst)%nat).
Proof.
  intros src dst. split.
  - intros [n H]. unfold write_to_c_buf in H. destruct (has_nul src) eqn:E; [discriminate|].
    rewrite app_length in H. cbn [length] in H.
    destruct (Nat.ltb_spec (length dst) (length src + 1)); [discriminate|]. split; [|lia].
    intro I. apply has_nul_iff in I. congruence.
  - intros [NZ L]. rewrite (write_ok src dst _ eq_refl) by assumption. eexists. reflexivity.
Qed.

(** If it fails the buffer is as it was, and the error tells why. *)
Theorem C33_failure_changes_nothing : forall src dst e,
  fst (write_to_c_buf src dst) = Err e ->
  snd (write_to_c_buf src dst) = dst /\
  match e with InteriorNul => In 0%N src | DstTooShort => ~ In 0%N src /\ (length dst <= length src)%nat end.
Proof.
  intros src dst e H. unfold write_to_c_buf in *. destruct (has_nul src) eqn:E.
  - injection H as <-. split; [reflexivity|]. apply has_nul_iff. exact E.
  - rewrite app_length in *. cbn [length] in *.
    destruct (Nat.ltb_spec (length dst) (length src + 1)).
    + injection H as <-. split; [reflexivity|]. split; [|lia]. intro I. apply has_nul_iff in I. congruence.
    + destruct (zeroized_write dst (src ++ [0%N])). discriminate.
Qed.

(** If it succeeds it reports the length with the terminator, the buffer keeps its length
    (nothing is written outside) and a C program reads the string back. *)
Theorem C33_reads_back : forall src dst n out,
  write_to_c_buf src dst = (Ok n, out) ->
  n = S (length src) /\ length out = length dst /\ c_string out src.
Proof.
  intros src dst n out H.
  assert (O : exists n, fst (write_to_c_buf src dst) = Ok n) by (rewrite H; exists n; reflexivity).
  apply C33_succeeds_iff in O. destruct O as [NZ L]. remember (S (length src)) as m eqn:M. rewrite (write_ok src dst m M) in H by assumption. injection H as <- <-.
  split; [reflexivity|]. split; [|split; [exact NZ|eexists; reflexivity]].
  rewrite app_length. cbn [length]. rewrite app_length, firstn_length, repeat_length, skipn_length. lia.
Qed.

(** The rest of the buffer: a stretch as long as the string and its terminator keeps its old
    bytes, what follows is zero. *)
Theorem C33_rest_of_the_buffer : forall src dst n out i,
  write_to_c_buf src dst = (Ok n, out) -> (n <= i < length dst)%nat ->
  nth i out 0%N = if (i <? 2 * n)%nat then nth i dst 0%N else 0%N.
Proof.
  intros src dst n out i H R.
  assert (O : exists n, fst (write_to_c_buf src dst) = Ok n) by (rewrite H; exists n; reflexivity).
  apply C33_succeeds_iff in O. destruct O as [NZ L]. remember (S (length src)) as m eqn:M. rewrite (write_ok src dst m M) in H by assumption. injection H as <- <-.
  rewrite app_nth2 by lia. destruct (i - length src)%nat as [|j] eqn:J; [lia|]. cbn [nth].
  destruct (Nat.ltb_spec i (2 * m)) as [A|A].
  - rewrite app_nth1 by (rewrite firstn_length, skipn_length; lia).
    assert (NF : forall k m (l : bytes), (k < m)%nat -> nth k (firstn m l) 0%N = nth k l 0%N).
    { clear. induction k as [|k IH]; intros m l Lt; destruct m, l; try lia; try reflexivity. cbn. apply IH. lia. }
    rewrite NF by lia.
    assert (NS : forall m k (l : bytes), nth k (skipn m l) 0%N = nth (m + k) l 0%N).
    { clear. induction m as [|m IH]; intros k l; [reflexivity|]. destruct l as [|x l]; [destruct k; reflexivity|]. cbn. apply IH. }
    rewrite NS. f_equal. lia.
  - rewrite app_nth2 by (rewrite firstn_length, skipn_length; lia). apply nth_repeat.
Qed.

(** So the excess of the buffer is not cleared in general: it is exactly if the stretch after
    the string was clear before. *)
Theorem C33_excess_cleared_iff : forall src dst n out,
  write_to_c_buf src dst = (Ok n, out) ->
  ((forall i, (n <= i < length dst)%nat -> nth i out 0%N = 0%N) <->
   (forall i, (n <= i < length dst)%nat -> (i < 2 * n)%nat -> nth i dst 0%N = 0%N)).
Proof.
  intros src dst n out H. split; intros A i R.
  - intro B. specialize (A i R). rewrite (C33_rest_of_the_buffer _ _ _ _ _ H R) in A.
    destruct (Nat.ltb_spec i (2 * n)); [exact A|lia].
  - rewrite (C33_rest_of_the_buffer _ _ _ _ _ H R). destruct (Nat.ltb_spec i (2 * n)); [apply A; assumption|reflexivity].
Qed.

Example C33_example : write_to_c_buf [104; 105]%N [9; 9; 9; 9; 9; 9; 9; 9; 9]%N = (Ok 3%nat, [104; 105; 0; 9; 9; 9; 0; 0; 0]%N).
Proof. reflexivity. Qed.

(** ** C60: the last error of a thread *)
(** The calls of one thread. *)
Definition thread_of (c : error_call) : nat := match c with SetError t _ => t | GetError t _ => t end.
(** The message that waits after the calls of a thread, latest call first: the one set most
    recently, unless a buffer (of any size) was passed since. *)
Inductive waiting (t : nat) : list error_call -> option bytes -> Prop :=
  | w_none : waiting t [] None
  | w_other : forall c h m, thread_of c <> t -> waiting t h m -> waiting t (h ++ [c]) m
  | w_set : forall h e, waiting t (h ++ [SetError t e]) (Some e)
  | w_null : forall h m, waiting t h m -> waiting t (h ++ [GetError t None]) m
  | w_fetched : forall h b, waiting t (h ++ [GetError t (Some b)]) None.

Lemma get_error_state : forall s t b, snd (get_error_message s t b) = match b with None => s | Some _ => upd s t None end.
Proof.
  intros s t [b|]; [|reflexivity]. cbn [get_error_message].
  destruct (write_to_c_buf _ b) as [[n|e|] d]; reflexivity.
Qed.
Lemma upd_same : forall {A} (f : nat -> A) t v, upd f t v t = v.
Proof. intros. unfold upd. rewrite Nat.eqb_refl. reflexivity. Qed.
Lemma upd_other : forall {A} (f : nat -> A) t u v, u <> t -> upd f t v u = f u.
Proof. intros. unfold upd. destruct (Nat.eqb_spec u t); [contradiction|reflexivity]. Qed.

Lemma waiting_after : forall h t, waiting t h (errors_after h t).
Proof.
  intros h t. induction h as [|c h IH] using rev_ind; [constructor|].
  unfold errors_after in *. rewrite fold_left_app. cbn [fold_left].
  set (s := fold_left error_step h (fun _ => None)) in *.
  destruct (Nat.eq_dec (thread_of c) t) as [E|N].
  - destruct c as [u e|u b]; cbn [thread_of] in E; subst u; cbn [error_step].
    + unfold set_error_msg. rewrite upd_same. apply w_set.
    + rewrite get_error_state. destruct b as [b|]; [rewrite upd_same; apply w_fetched|apply w_null; exact IH].
  - replace (error_step s c t) with (s t); [apply w_other; assumption|].
    destruct c as [u e|u b]; cbn [thread_of] in N; cbn [error_step].
    + unfold set_error_msg. rewrite upd_other by congruence. reflexivity.
    + rewrite get_error_state. destruct b; [rewrite upd_other by congruence|]; reflexivity.
Qed.

(** Fetching the error of a thread after any history of calls of all threads: the caller reads
    the message that waits (the empty string if there is none) if that fits; a null pointer and
    a message that does not fit or contains a zero byte are told apart by the code. *)
Theorem C60_last_error : forall h t dst, exists m,
  waiting t h m /\
  let text := match m with Some e => e | None => [] end in
  match get_error_message (errors_after h) t (Some dst) with
  | (code, Some out, _) =>
      length out = length dst /\
      ((code = Z.of_nat (S (length text)) /\ (length text < length dst)%nat /\ c_string out text) \/
       (code = (-2)%Z /\ (length dst <= length text)%nat /\ out = dst) \/
       (code = (-4)%Z /\ In 0%N text /\ out = dst))
  | _ => False
  end.
Proof.
  intros h t dst. exists (errors_after h t). split; [apply waiting_after|]. cbv zeta. cbn [get_error_message].
  set (text := match errors_after h t with Some e => e | None => [] end).
  destruct (write_to_c_buf text dst) as [[n|e|] out] eqn:W.
  - assert (O : exists n, fst (write_to_c_buf text dst) = Ok n) by (rewrite W; exists n; reflexivity).
    apply C33_succeeds_iff in O. destruct (C33_reads_back _ _ _ _ W) as [-> [L C]].
    split; [exact L|]. left. split; [reflexivity|]. split; [apply O|exact C].
  - destruct (C33_failure_changes_nothing text dst e) as [A B]; [rewrite W; reflexivity|].
    rewrite W in A. cbn [snd] in A. subst out. split; [reflexivity|]. right. destruct e.
    + left. split; [reflexivity|]. split; [apply B|reflexivity].
    + right. split; [reflexivity|]. split; [exact B|reflexivity].
  - exfalso. unfold write_to_c_buf in W. destruct (has_nul text); [discriminate|].
    destruct (_ <? _)%nat; [discriminate|]. destruct (zeroized_write dst (text ++ [0%N])). discriminate.
Qed.

(** A thread sees nothing of the errors of others. *)
Theorem C60_threads_apart : forall h h' t,
  filter (fun c => Nat.eqb (thread_of c) t) h = filter (fun c => Nat.eqb (thread_of c) t) h' ->
  errors_after h t = errors_after h' t.
Proof.
  assert (F : forall h t, errors_after h t = errors_after (filter (fun c => Nat.eqb (thread_of c) t) h) t).
  { intros h t. unfold errors_after.
    assert (G : forall s s' : last_errors, s t = s' t ->
              fold_left error_step h s t = fold_left error_step (filter (fun c => Nat.eqb (thread_of c) t) h) s' t).
    { induction h as [|c h IH]; intros s s' E; [exact E|]. cbn [fold_left filter].
      destruct (Nat.eqb_spec (thread_of c) t) as [T|T].
      - cbn [fold_left]. apply IH. destruct c as [u e|u b]; cbn [thread_of] in T; subst u; cbn [error_step].
        + unfold set_error_msg. rewrite !upd_same. reflexivity.
        + rewrite !get_error_state. destruct b; [rewrite !upd_same; reflexivity|exact E].
      - apply IH. rewrite <- E. destruct c as [u e|u b]; cbn [thread_of] in T; cbn [error_step].
        + unfold set_error_msg. rewrite upd_other by congruence. reflexivity.
        + rewrite get_error_state. destruct b; [rewrite upd_other by congruence|]; reflexivity. }
    apply G. reflexivity. }
  intros h h' t E. rewrite (F h), (F h'), E. reflexivity.
Qed.

(** A message that does not fit is lost: asking again with a buffer of any size gives the
    empty string. *)
Theorem C60_too_small_loses_the_message : forall h t e small large,
  ~ In 0%N e -> (length small <= length e)%nat -> (0 < length large)%nat ->
  let s := errors_after (h ++ [SetError t e]) in
  fst (fst (get_error_message s t (Some small))) = (-2)%Z /\
  exists out s', get_error_message (snd (get_error_message s t (Some small))) t (Some large) = (1%Z, Some out, s') /\ c_string out [].
Proof.
  intros h t e small large NZ L L1. cbv zeta. unfold errors_after. rewrite fold_left_app. cbn [fold_left error_step].
  set (s := fold_left error_step h (fun _ => None)).
  assert (T : set_error_msg s t e t = Some e) by apply upd_same.
  split.
  - cbn [get_error_message]. rewrite T. unfold write_to_c_buf.
    destruct (has_nul e) eqn:E; [apply has_nul_iff in E; contradiction|].
    rewrite app_length. cbn [length]. destruct (Nat.ltb_spec (length small) (length e + 1)); [reflexivity|lia].
  - rewrite get_error_state. cbn [get_error_message]. rewrite upd_same.
    rewrite (write_ok [] large _ eq_refl); [|intros []|cbn; lia]. eexists _, _. split; [reflexivity|].
    split; [intros []|]. eexists. reflexivity.
Qed.

Example C60_example :
  waiting 1 [SetError 1 [65%N]; SetError 2 [66%N]; GetError 2 (Some []); GetError 1 None] (Some [65%N]).
Proof.
  change [SetError 1 [65%N]; SetError 2 [66%N]; GetError 2 (Some []); GetError 1 None]
    with ([SetError 1 [65%N]; SetError 2 [66%N]; GetError 2 (Some [])] ++ [GetError 1 None]). apply w_null.
  change [SetError 1 [65%N]; SetError 2 [66%N]; GetError 2 (Some [])]
    with ([SetError 1 [65%N]; SetError 2 [66%N]] ++ [GetError 2 (Some [])]). apply w_other; [discriminate|].
  change [SetError 1 [65%N]; SetError 2 [66%N]] with ([SetError 1 [65%N]] ++ [SetError 2 [66%N]]).
  apply w_other; [discriminate|]. apply (w_set 1 []).
Qed.

(** ** C61: the log buffers *)
(** The bytes written for an id, in order, and the bytes fetched for it. *)
Definition written_for (id : str) (h : list log_call) : bytes :=
  flat_map (fun c => match c with
                     | LogWrite (Some i) b => if str_eqb i id then b else []
                     | LogWrite None b => if str_eqb GLOBAL id then b else []
                     | LogFetch _ => []
                     end) h.
Definition fetched_for (id : str) (h : list log_call) (out : list bytes) : bytes :=
  flat_map (fun cb => match fst cb with
                      | LogFetch i => if str_eqb i id then snd cb else []
                      | _ => []
                      end) (combine h out).

(** In any history, what was fetched for an id and what is still there are together exactly
    what was written for it, in order: nothing is lost, given twice or mixed between ids. *)
Theorem C61_logs_once : forall h out s id,
  log_run (fun _ => []) h = (out, s) ->
  length out = length h /\ fetched_for id h out ++ s id = written_for id h.
Proof.
  assert (G : forall h s0 out s id, log_run s0 h = (out, s) ->
            length out = length h /\ fetched_for id h out ++ s id = s0 id ++ written_for id h).
  { induction h as [|c h IH]; intros s0 out s id H; cbn [log_run] in H.
    - injection H as <- <-. split; [reflexivity|]. cbn. rewrite app_nil_r. reflexivity.
    - destruct c as [o b|i].
      + destruct (log_run (write_to_log_buffer s0 o b) h) as [out' s'] eqn:R. injection H as <- <-.
        destruct (IH _ _ _ id R) as [L E]. split; [cbn; lia|].
        change (fetched_for id (LogWrite o b :: h) ([] :: out')) with (fetched_for id h out'). rewrite E.
        unfold written_for. cbn [flat_map]. unfold write_to_log_buffer.
        destruct o as [i|]; unfold upd_log; rewrite (str_eqb_sym id);
          match goal with |- context [str_eqb ?x id] => destruct (str_eqb_spec x id) as [->|N] end;
          rewrite ?app_assoc, ?app_nil_r; reflexivity.
      + cbn [fetch_buffer_contents] in H. destruct (log_run (upd_log s0 i []) h) as [out' s'] eqn:R. injection H as <- <-.
        destruct (IH _ _ _ id R) as [L E]. split; [cbn; lia|].
        change (fetched_for id (LogFetch i :: h) (s0 i :: out')) with ((if str_eqb i id then s0 i else []) ++ fetched_for id h out').
        change (written_for id (LogFetch i :: h)) with (written_for id h).
        rewrite <- app_assoc, E. unfold upd_log. rewrite (str_eqb_sym id).
        destruct (str_eqb_spec i id) as [->|N]; reflexivity. }
  intros h out s id H. exact (G h (fun _ => []) out s id H).
Qed.

Example C61_example :
  let h := [LogWrite None [1%N]; LogWrite (Some (S_ "x")) [2%N]; LogFetch (S_ "x"); LogWrite None [3%N]; LogFetch GLOBAL] in
  fst (log_run (fun _ => []) h) = [[]; []; [2%N]; []; [1%N; 3%N]].
Proof. reflexivity. Qed.
