(** C86, C88: which answers are asked for again; the report on synchronous messages. *)
From Coq Require Import Ascii String List Arith NArith ZArith Lia Bool.
From Verif Require Import Base PathExp Json Text MatchingRules Matchers JsonCompare Headers Query ContentType Http Merge VerifierClient Verifier StateChange Report
  SpecReport SpecVerifierClient PropStateChange PropReport.
Import ListNotations.
Open Scope N_scope.

(** C86: a request is repeated for the answers with a status from 500 to 599 (or an error that has such a status), and
    for no others. *)
Theorem C86_server_errors : forall r, failed_on_server r = true <->
  exists status, 500 <= status <= 599 /\ ((exists a, r = Answered a /\ nr_status a = status) \/ r = Unanswered (Some status)).
Proof.
  intro r. unfold failed_on_server, is_server_error. destruct r as [a|[n|]].
  - rewrite andb_true_iff, N.leb_le, N.ltb_lt. split.
    + intro H. exists (nr_status a). split; [lia|]. left. eauto.
    + intros (s & B & [(a' & E & <-)|E]); [injection E as <-; lia|discriminate].
  - rewrite andb_true_iff, N.leb_le, N.ltb_lt. split.
    + intro H. exists n. split; [lia|]. right. reflexivity.
    + intros (s & B & [(a' & E & _)|E]); [discriminate|injection E as <-; lia].
  - split; [discriminate|]. intros (s & _ & [(a' & E & _)|E]); discriminate.
Qed.

Section Sync.
Variable w : world.
Variable message : error_kind -> str.
(** C88: when a request/response message passed, every response is reported as matching; when it did not, one report
    is printed whatever the number of responses, with the metadata of the first. *)
Theorem C88_sync_passed : forall responses,
  exists parts, report_sync_message w message responses None = concat parts /\
    Forall2 (fun m lines => message_report w (msg_metadata m) (fun _ => False) False lines) responses parts.
Proof.
  intro l. induction l as [|m l (parts & E & F)]; [exists []; split; [reflexivity|constructor]|].
  eexists (_ :: parts). split; [unfold report_sync_message in *; cbn [flat_map concat]; rewrite E; reflexivity|].
  constructor; [|exact F]. apply (message_shape w (msg_metadata m) (fun _ => false) false False (fun _ => False)); [split; [discriminate|tauto]|].
  intros. split; [discriminate|tauto].
Qed.
Theorem C88_sync_mismatches : forall responses ms id,
  message_report w (match responses with m :: _ => msg_metadata m | [] => [] end)
    (fun k => exists m, In (MMetadata k m) ms) (exists m, In m ms /\ (m = MBodyType \/ exists b, m = MBody b))
    (report_sync_message w message responses (Some (RMismatches ms id))).
Proof.
  intros l ms id. unfold report_sync_message. apply (message_shape w _ (fun k => existsb (is_metadata k) ms) (existsb is_body ms)).
  - rewrite existsb_exists. split; [intros (m & I1 & H); exists m; split; [exact I1|]; destruct m; try discriminate; eauto|].
    intros (m & I1 & [-> | (b & ->)]); eexists; (split; [exact I1|reflexivity]).
  - intros k v _. rewrite existsb_exists. split.
    + intros (m & I1 & H). destruct m; try discriminate. cbn in H. apply str_eqb_eq in H. subst. eauto.
    + intros (m & I1). exists (MMetadata k m). split; [exact I1|apply str_eqb_refl].
Qed.
Theorem C88_sync_error : forall responses k id, report_sync_message w message responses (Some (RError k id)) = [S_ "      Request Failed - " ++ message k].
Proof. reflexivity. Qed.
End Sync.
Example C88_sync_example : forall w message k,
  report_sync_message w message [mkMsg BMissing [(S_ "a", JStr (S_ "1"))] [] ; mkMsg BMissing [] []]
    (Some (RMismatches [MMetadata (S_ "a") k] None)) =
  [S_ "    generates a message which"; S_ "      includes metadata"; S_ "        ""a"" with value ""1"" (FAILED)"; S_ "      has a matching body (OK)"].
Proof. reflexivity. Qed.
