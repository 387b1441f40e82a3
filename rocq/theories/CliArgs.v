(** Model of the arguments of the verifier command line: rust/pact_verifier_cli/src/args.rs and the way main.rs reads them.

    A command line is the list of the arguments given, in order, each with its value. What clap (an external crate) does is modelled as
    far as args.rs uses it: a value is checked when it is met; an argument that is set, split at commas or a flag is given once; then
    [requires], [conflicts_with] and [required_unless_present_any] are checked. Not modelled: the spelling of the arguments (short
    names, aliases, "="), help and version, values from environment variables (an argument given there counts as given at the end of the
    line, without being a second one). The case of an error ends the program with the code 2 before anything is run. *)
From Coq Require Import Ascii String List Arith NArith ZArith Lia Bool.
From Verif Require Import Base PathExp Json Text VerifierClient Verifier Broker VerifierHandle.
Import ListNotations.
Open Scope N_scope.

(** args.rs:53-320. Arguments that can be repeated, that are given once, once with a list of values, and flags. *)
(* Arguments that can be repeated. *)
Inductive multi := MFile | MDir | MUrl | MTransports | MHeader | MConsumer | MSelectors.
Inductive single := SLoglevel | SJson | SJunit | SBroker | SWebhook | SUser | SPassword | SToken | SHost | SPort | STransport | SName | SBase
| STimeout | SStateUrl | SDescription | SState | SVersion | SBuild | SBranch | SWip.
Inductive listed := LProviderTags | LConsumerTags.
Inductive switch := FPretty | FFull | FCompact | FNoColour | FIgnoreNoPacts | FNoSsl | FAsQuery | FTeardown | FNoState | FPublish | FPending.
Inductive arg := AMulti (m : multi) | ASingle (s : single) | AListed (c : listed) | ASwitch (f : switch).
Definition arg_eq_dec (a b : arg) : {a = b} + {a <> b}.
Proof. repeat decide equality. Defined.
(** The value of a switch is not used. *)
Definition occurrence : Type := arg * str.

Section Args.
Variable word : N -> bool.       (* [\w] outside ASCII *)
Variable decimal : N -> bool.    (* [\d] outside ASCII *)
Variable w : world.              (* [\s] is [uni_space] *)
Variable valid_regex : str -> bool.
Variable parse_json : str -> option json.

Definition ascii_word (c : N) : bool := is_digit c || is_lower c || is_upper c || (c =? 95).
Definition is_word (c : N) : bool := if c <? 128 then ascii_word c else word c.
Definition is_decimal (c : N) : bool := if c <? 128 then is_digit c else decimal c.

(** [str::parse::<u16>] and [::<u64>]: an optional "+", then digits. *)
Definition parse_unsigned (bound : N) (s : str) : option N :=
  let ds := match s with c :: s' => if c =? 43 then s' else s | [] => [] end in
  match ds with
  | [] => None
  | _ => if all_digits ds then (if dec_value ds 0 <? bound then Some (dec_value ds 0) else None) else None
  end.
Fixpoint take_while (f : N -> bool) (s : str) : str * str :=
  match s with
  | [] => ([], [])
  | c :: s' => if f c then let '(a, b) := take_while f s' in (c :: a, b) else ([], s)
  end.
(** args.rs:28-51: a text of word characters, a colon, decimal digits and a path or nothing (the expression decides the text in one way); the port is unwrapped. *)
Definition transport_value (v : str) : outcome (str * N * option str) unit :=
  let '(name, rest) := take_while is_word v in
  match name, rest with
  | _ :: _, colon :: rest =>
      if negb (colon =? 58) then Err tt else
      let '(port, rest) := take_while is_decimal rest in
      match port with
      | [] => Err tt
      | _ =>
          let path := match rest with
                      | [] => Some None
                      | c :: _ => if (c =? 47) && forallb (fun c => negb (is_space w c)) rest then Some (Some rest) else None
                      end in
          match path with
          | Some path => match parse_unsigned 65536 port with
                         | Some n => Ok (name, n, path)
                         | None => Panic
                         end
          | None => Err tt
          end
      end
  | _, _ => Err tt
  end.
Fixpoint all_ok {A} (f : str -> outcome A unit) (l : list str) : outcome (list A) unit :=
  match l with
  | [] => Ok []
  | s :: l' => bind (f s) (fun a => bind (all_ok f l') (fun r => Ok (a :: r)))
  end.
Definition nonempty_value (s : str) : outcome str unit := match s with [] => Err tt | _ => Ok s end.
Definition loglevels : list str := [S_ "error"; S_ "warn"; S_ "info"; S_ "debug"; S_ "trace"; S_ "none"].
Definition when (b : bool) : outcome unit unit := if b then Ok tt else Err tt.
Definition is_some {A} (o : option A) : bool := match o with Some _ => true | None => false end.
(** The parsers of the values: 6-26 and the [value_parser]s. *)
Definition check_value (o : occurrence) : outcome unit unit :=
  match fst o with
  | AMulti MTransports => bind (all_ok transport_value (split_on 32 (snd o))) (fun _ => Ok tt)
  | AMulti MSelectors => when (is_some (parse_json (snd o)))
  | ASingle SLoglevel => when (existsb (str_eqb (snd o)) loglevels)
  | ASingle SPort => when (is_some (parse_unsigned 65536 (snd o)))
  | ASingle STimeout => when (is_some (parse_unsigned two64 (snd o)))
  | ASingle SDescription | ASingle SState => bind (nonempty_value (snd o)) (fun s => when (valid_regex s))
  | AListed _ => bind (all_ok nonempty_value (split_on 44 (snd o))) (fun _ => Ok tt)
  | ASwitch _ => Ok tt
  | _ => bind (nonempty_value (snd o)) (fun _ => Ok tt)
  end.
Definition repeatable (a : arg) : bool := match a with AMulti _ => true | _ => false end.
Definition given (l : list occurrence) (a : arg) : bool := existsb (fun o => if arg_eq_dec (fst o) a then true else false) l.
Fixpoint check_values (seen : list occurrence) (l : list occurrence) : outcome unit unit :=
  match l with
  | [] => Ok tt
  | o :: l' => if negb (repeatable (fst o)) && given seen (fst o) then Err tt
               else bind (check_value o) (fun _ => check_values (o :: seen) l')
  end.

(** [requires], [conflicts_with(_all)], [required_unless_present_any]. *)
Definition requirements : list (arg * arg) :=
  [(ASingle SBroker, ASingle SName); (ASingle SWebhook, ASingle SBroker); (ASwitch FPublish, ASingle SBroker); (ASwitch FPublish, ASingle SVersion);
   (AListed LConsumerTags, ASingle SBroker); (AMulti MSelectors, ASingle SBroker); (ASwitch FPending, ASingle SBroker); (ASingle SWip, ASingle SBroker)].
Definition conflicts : list (arg * arg) :=
  [(ASwitch FPretty, ASwitch FCompact); (ASwitch FPretty, ASwitch FFull); (ASwitch FFull, ASwitch FCompact);
   (ASingle SWebhook, AMulti MFile); (ASingle SWebhook, AMulti MDir); (ASingle SWebhook, AMulti MUrl);
   (ASingle SUser, ASingle SToken); (ASingle SPassword, ASingle SToken); (ASingle SState, ASwitch FNoState);
   (AListed LConsumerTags, AMulti MSelectors)].
Definition check_relations (l : list occurrence) : bool :=
  forallb (fun r => negb (given l (fst r)) || given l (snd r)) requirements &&
  forallb (fun c => negb (given l (fst c) && given l (snd c))) conflicts &&
  (given l (AMulti MFile) || given l (AMulti MDir) || given l (AMulti MUrl) || given l (ASingle SBroker)).

(** [get_many], [get_one], [get_flag]. *)
Definition values (a : arg) (l : list occurrence) : list str := flat_map (fun o => if arg_eq_dec (fst o) a then [snd o] else []) l.
Definition one (a : arg) (l : list occurrence) : option str := match values a l with [] => None | v :: _ => Some v end.
Definition number (bound : N) (a : arg) (l : list occurrence) : option N :=
  match one a l with Some v => parse_unsigned bound v | None => None end.
Definition ok_or_nil {A} (o : outcome (list A) unit) : list A := match o with Ok l => l | _ => [] end.
Definition options_of (l : list occurrence) : options :=
  mkOptions (values (AMulti MFile) l) (values (AMulti MDir) l) (values (AMulti MUrl) l) (one (ASingle SBroker) l) (one (ASingle SWebhook) l)
    (one (ASingle SUser) l) (one (ASingle SPassword) l) (one (ASingle SToken) l)
    (one (ASingle SHost) l) (number 65536 (ASingle SPort) l)
    (Some (match one (ASingle STransport) l with Some t => t | None => S_ "http" end))
    (flat_map (fun v => ok_or_nil (all_ok transport_value (split_on 32 v))) (values (AMulti MTransports) l))
    (one (ASingle SName) l) (one (ASingle SBase) l)
    (one (ASingle SStateUrl) l) (given l (ASwitch FAsQuery)) (given l (ASwitch FTeardown))
    (one (ASingle SDescription) l) (one (ASingle SState) l) (given l (ASwitch FNoState)) (values (AMulti MConsumer) l)
    (given l (ASwitch FPublish)) (one (ASingle SVersion) l) (one (ASingle SBuild) l)
    (flat_map (split_on 44) (values (AListed LProviderTags) l)) (one (ASingle SBranch) l)
    (if given l (AMulti MSelectors)
     then Some (flat_map (fun v => match parse_json v with Some j => [j] | None => [] end) (values (AMulti MSelectors) l)) else None)
    (if given l (AListed LConsumerTags) then Some (flat_map (split_on 44) (values (AListed LConsumerTags) l)) else None)
    (given l (ASwitch FPending)) (one (ASingle SWip) l)
    (given l (ASwitch FNoSsl)) (number two64 (ASingle STimeout) l) (values (AMulti MHeader) l) (given l (ASwitch FNoColour))
    (given l (ASwitch FIgnoreNoPacts)) (one (ASingle SJson) l) (one (ASingle SJunit) l).
(** [try_get_matches]: [Err] is a usage error. *)
Definition parse_args (l : list occurrence) : outcome options unit :=
  bind (check_values [] l) (fun _ => if check_relations l then Ok (options_of l) else Err tt).
(** [handle_cli] and [main]: the exit code of the program, 2 for a usage error. A panic is [None]. *)
Definition cli_main (l : list occurrence) (run : config -> report + str) (written : str -> report -> bool) : option N :=
  match parse_args l with
  | Ok o => cli_run o run written
  | Err _ => Some 2
  | Panic => None
  end.
End Args.
