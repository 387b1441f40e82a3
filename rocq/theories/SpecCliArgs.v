(** What a command line of the verifier may be and what it means, for C123. *)
From Coq Require Import Ascii String List Arith NArith ZArith Lia Bool.
From Verif Require Import Base PathExp Json Text VerifierClient Verifier Broker VerifierHandle CliArgs.
Import ListNotations.
Open Scope N_scope.

Section Spec.
Variable word : N -> bool.
Variable decimal : N -> bool.
Variable w : world.
Variable valid_regex : str -> bool.
Variable parse_json : str -> option json.

(** ** Values *)
Definition digit (c : N) : Prop := 48 <= c <= 57.
Definition decimal_digit (c : N) : Prop := digit c \/ (128 <= c /\ decimal c = true).
Definition word_character (c : N) : Prop :=
  digit c \/ 65 <= c <= 90 \/ 97 <= c <= 122 \/ c = 95 \/ (128 <= c /\ word c = true).
(** [n] written with decimal digits, below [bound]. *)
Definition numeral (bound : N) (ds : str) (n : N) : Prop :=
  ds <> [] /\ Forall digit ds /\ fold_left (fun a c => 10 * a + (c - 48)) ds 0 = n /\ n < bound.
(** A number as an argument: it can have a plus sign. *)
Definition a_number (bound : N) (v : str) (n : N) : Prop := numeral bound v n \/ exists ds, v = 43 :: ds /\ numeral bound ds n.
(** name:port or name:port/path. *)
Definition a_transport (t name port : str) (path : option str) : Prop :=
  t = name ++ [58] ++ port ++ match path with Some p => p | None => [] end /\
  name <> [] /\ Forall word_character name /\ port <> [] /\ Forall decimal_digit port /\
  (forall p, path = Some p -> (exists p', p = 47 :: p') /\ Forall (fun c => is_space w c = false) p).
(** A transport that can be used: its port is a port. *)
Definition usable_transport (t : str) (r : str * N * option str) : Prop :=
  exists port, a_transport t (fst (fst r)) port (snd r) /\ numeral 65536 port (snd (fst r)).
(** A transport whose port is none. *)
Definition bad_port (t : str) : Prop := exists name port path, a_transport t name port path /\ forall n, ~ numeral 65536 port n.
(** The parts of a text between the separators [d]. *)
Definition parts (d : N) (v : str) (ps : list str) : Prop := ps <> [] /\ Forall (fun p => ~ In d p) ps /\ join_with [d] ps = v.

Definition fine_value (a : arg) (v : str) : Prop :=
  match a with
  | AMulti MTransports => exists ts rs, parts 32 v ts /\ Forall2 usable_transport ts rs
  | AMulti MSelectors => exists j, parse_json v = Some j
  | ASingle SLoglevel => In v (map S_ ["error"; "warn"; "info"; "debug"; "trace"; "none"]%string)
  | ASingle SPort => exists n, a_number 65536 v n
  | ASingle STimeout => exists n, a_number (2 ^ 64) v n
  | ASingle SDescription | ASingle SState => v <> [] /\ valid_regex v = true
  | AListed _ => exists ps, parts 44 v ps /\ ~ In [] ps
  | ASwitch _ => True
  | _ => v <> []
  end.

(** ** The line as a whole *)
Definition is_given (l : list occurrence) (a : arg) : Prop := exists v, In (a, v) l.
Definition only_once (l : list occurrence) : Prop :=
  forall l1 a v l2 v' l3, l = l1 ++ (a, v) :: l2 ++ (a, v') :: l3 -> exists m, a = AMulti m.
Definition together (l : list occurrence) (a b : arg) : Prop := is_given l a /\ is_given l b.
Record consistent (l : list occurrence) : Prop := {
  (* there is a place to take pacts from *)
  has_source : is_given l (AMulti MFile) \/ is_given l (AMulti MDir) \/ is_given l (AMulti MUrl) \/ is_given l (ASingle SBroker);
  (* a broker is asked for a provider *)
  broker_named : is_given l (ASingle SBroker) -> is_given l (ASingle SName);
  (* what is for a broker *)
  needs_broker : forall a, In a [ASingle SWebhook; ASwitch FPublish; AListed LConsumerTags; AMulti MSelectors; ASwitch FPending; ASingle SWip] ->
    is_given l a -> is_given l (ASingle SBroker);
  publish_version : is_given l (ASwitch FPublish) -> is_given l (ASingle SVersion);
  (* a webhook's pact is the only one *)
  webhook_alone : is_given l (ASingle SWebhook) -> ~ is_given l (AMulti MFile) /\ ~ is_given l (AMulti MDir) /\ ~ is_given l (AMulti MUrl);
  (* alternatives *)
  one_format : ~ together l (ASwitch FPretty) (ASwitch FFull) /\ ~ together l (ASwitch FPretty) (ASwitch FCompact) /\ ~ together l (ASwitch FFull) (ASwitch FCompact);
  one_authentication : is_given l (ASingle SToken) -> ~ is_given l (ASingle SUser) /\ ~ is_given l (ASingle SPassword);
  one_state_filter : ~ together l (ASingle SState) (ASwitch FNoState);
  one_selection : ~ together l (AListed LConsumerTags) (AMulti MSelectors) }.
Definition acceptable (l : list occurrence) : Prop :=
  (forall a v, In (a, v) l -> fine_value a v) /\ only_once l /\ consistent l.
(** The line is read up to a transport whose port is none: everything before is in order. *)
Definition breaks (l : list occurrence) : Prop :=
  exists l1 v l2 ts1 t ts2, l = l1 ++ (AMulti MTransports, v) :: l2 /\
    (forall a u, In (a, u) l1 -> fine_value a u) /\ only_once l1 /\
    parts 32 v (ts1 ++ t :: ts2) /\ (forall t', In t' ts1 -> exists r, usable_transport t' r) /\ bad_port t.

(** ** What it means *)
(** The values given for [a], in order. *)
Inductive values_of (a : arg) : list occurrence -> list str -> Prop :=
| vo_nil : values_of a [] []
| vo_this : forall v l vs, values_of a l vs -> values_of a ((a, v) :: l) (v :: vs)
| vo_other : forall b v l vs, b <> a -> values_of a l vs -> values_of a ((b, v) :: l) vs.
Definition the_value (l : list occurrence) (s : single) (r : option str) : Prop := forall v, r = Some v <-> In (ASingle s, v) l.
Definition the_number (l : list occurrence) (bound : N) (s : single) (r : option N) : Prop :=
  forall n, r = Some n <-> exists v, In (ASingle s, v) l /\ a_number bound v n.
Definition the_switch (l : list occurrence) (f : switch) (r : bool) : Prop := r = true <-> is_given l (ASwitch f).
(** The parts of the one value; [None] if there is none. *)
Definition the_parts (l : list occurrence) (c : listed) (r : option (list str)) : Prop :=
  forall ps, r = Some ps <-> exists v, In (AListed c, v) l /\ parts 44 v ps.
Record meant (l : list occurrence) (o : options) : Prop := {
  m_files : values_of (AMulti MFile) l (o_files o);
  m_dirs : values_of (AMulti MDir) l (o_dirs o);
  m_urls : values_of (AMulti MUrl) l (o_urls o);
  m_broker : the_value l SBroker (o_broker_url o);
  m_webhook : the_value l SWebhook (o_webhook_url o);
  m_user : the_value l SUser (o_user o);
  m_password : the_value l SPassword (o_password o);
  m_token : the_value l SToken (o_token o);
  m_host : the_value l SHost (o_hostname o);
  m_port : the_number l 65536 SPort (o_port o);
  m_transport : forall t, o_transport o = Some t <-> In (ASingle STransport, t) l \/ (~ is_given l (ASingle STransport) /\ t = S_ "http");
  m_transports : exists vs tss, values_of (AMulti MTransports) l vs /\ Forall2 (parts 32) vs tss /\ Forall2 usable_transport (concat tss) (o_transports o);
  m_name : the_value l SName (o_provider_name o);
  m_base : the_value l SBase (o_base_path o);
  m_state_url : the_value l SStateUrl (o_state_url o);
  m_as_query : the_switch l FAsQuery (o_state_as_query o);
  m_teardown : the_switch l FTeardown (o_state_teardown o);
  m_description : the_value l SDescription (o_filter_description o);
  m_state : the_value l SState (o_filter_state o);
  m_no_state : the_switch l FNoState (o_filter_no_state o);
  m_consumers : values_of (AMulti MConsumer) l (o_filter_consumers o);
  m_publish : the_switch l FPublish (o_publish o);
  m_version : the_value l SVersion (o_provider_version o);
  m_build : the_value l SBuild (o_build_url o);
  m_tags : (is_given l (AListed LProviderTags) -> the_parts l LProviderTags (Some (o_provider_tags o))) /\
           (~ is_given l (AListed LProviderTags) -> o_provider_tags o = []);
  m_branch : the_value l SBranch (o_provider_branch o);
  m_selectors : (~ is_given l (AMulti MSelectors) -> o_selectors o = None) /\
    (is_given l (AMulti MSelectors) -> exists vs js, values_of (AMulti MSelectors) l vs /\ o_selectors o = Some js /\
                                                     Forall2 (fun v j => parse_json v = Some j) vs js);
  m_consumer_tags : the_parts l LConsumerTags (o_consumer_tags o);
  m_pending : the_switch l FPending (o_pending o);
  m_wip : the_value l SWip (o_wip_since o);
  m_no_ssl : the_switch l FNoSsl (o_no_ssl o);
  m_timeout : the_number l (2 ^ 64) STimeout (o_timeout o);
  m_headers : values_of (AMulti MHeader) l (o_custom_headers o);
  m_colour : the_switch l FNoColour (o_no_colour o);
  m_ignore : the_switch l FIgnoreNoPacts (o_ignore_no_pacts o);
  m_json : the_value l SJson (o_json_file o);
  m_junit : the_value l SJunit (o_junit_file o) }.
End Spec.
