(** The command line of src/matrix_multiply_application/matrix_multiply.cpp, and the
    command lines in evaluate.py and README.md.  Definitions only.

    hpx::init parses with boost::program_options (not part of /repo) in the style
    unix_style: --name=value or --name value, where a name may be shortened to a
    prefix that no other option has.  Not modelled: response files and HPX's short
    options.  HPX's own options have names that begin with hpx: (line 314). *)
From Coq Require Import ZArith NArith Ascii String.
From Flocq Require Import IEEE754.Binary IEEE754.Bits.
From Verif Require Import Base Conc Num MDouble MPrint MBalance MApp MTranscript.
Local Open Scope string_scope.

Inductive value := VUnsigned (n : N) | VBool (b : bool) | VString (s : string) | VDouble (x : binary64).
(** TFlag: an option that takes no value *)
Inductive vtype := TUnsigned | TBool | TString | TDouble | TFlag.
Record row := Row { r_name : string; r_type : vtype; r_default : option value }.

(** matrix_multiply.cpp:248-285 *)
Definition table : list row :=
  [Row "n-value" TUnsigned (Some (VUnsigned 4));
   Row "transposed" TBool (Some (VBool true));
   Row "repetitions" TUnsigned (Some (VUnsigned 1));
   Row "verbose" TUnsigned (Some (VUnsigned 0));
   Row "block-result" TUnsigned (Some (VUnsigned 128));
   Row "block-input" TUnsigned (Some (VUnsigned 128));
   Row "check" TBool (Some (VBool false));
   Row "algorithm" TString (Some (VString "single"));
   Row "min-work-size" TUnsigned (Some (VUnsigned 256));
   Row "max-work-difference" TUnsigned (Some (VUnsigned 10000));
   Row "max-relative-work-difference" TDouble (Some (VDouble five_percent));
   Row "help" TFlag None].

(** boost::lexical_cast<std::uint64_t>: a sign and digits; a number above 2^64-1 is
    no value, a negative one wraps around. *)
Fixpoint read_decimal (acc : N) (s : string) : option N :=
  match s with
  | EmptyString => Some acc
  | String c s =>
      let n := N_of_ascii c in
      if ((48 <=? n) && (n <=? 57))%N%bool then read_decimal (10 * acc + (n - 48))%N s else None
  end.
Definition split_sign (s : string) : bool * string :=
  match s with
  | String c r => if (c =? "-")%char then (true, r) else if (c =? "+")%char then (false, r) else (false, s)
  | EmptyString => (false, s)
  end.
Definition cast_unsigned (s : string) : option N :=
  let '(minus, digits) := split_sign s in
  match digits with
  | EmptyString => None
  | _ => match read_decimal 0 digits with
         | Some v => if (v <? 2 ^ 64)%N then Some (if minus then (2 ^ 64 - v) mod 2 ^ 64 else v)%N else None
         | None => None
         end
  end.
(** validate for bool: the letters are made small. *)
Definition lower (c : ascii) : ascii :=
  let n := N_of_ascii c in if ((65 <=? n) && (n <=? 90))%N%bool then ascii_of_N (n + 32) else c.
Fixpoint lower_all (s : string) : string :=
  match s with EmptyString => "" | String c s => String (lower c) (lower_all s) end.
Definition cast_bool (s : string) : option bool :=
  let s := lower_all s in
  if (s =? "") || (s =? "on") || (s =? "yes") || (s =? "1") || (s =? "true") then Some true
  else if (s =? "off") || (s =? "no") || (s =? "0") || (s =? "false") then Some false
  else None.

(** A word --name or --name=text without its dashes *)
Fixpoint split_name (s : string) : string * option string :=
  match s with
  | EmptyString => ("", None)
  | String c s => if (c =? "=")%char then ("", Some s) else let '(n, a) := split_name s in (String c n, a)
  end.

Inductive lookup := Found (r : row) | NotFound | Ambiguous.
(** The option meant by a name: the one so called, or the only one that begins so. *)
Definition find_option (name : string) : lookup :=
  match find (fun r => r_name r =? name) table with
  | Some r => Found r
  | None =>
      match List.filter (fun r => String.prefix name (r_name r)) table with
      | [] => NotFound
      | [r] => if String.prefix name "hpx:" then Ambiguous else Found r
      | _ => Ambiguous
      end
  end.

(** The values that were given; a rejected command line; a word that begins with a
    dash where a value is due (its treatment depends on the version of boost). *)
Inductive parsed := Parsed (m : list (string * value)) | Rejected | Unmodelled.

Section Parse.
  (** std::strtod, for the one option that is a double *)
  Context (strtod : string -> option binary64).
  (** Whether HPX goes on when it meets a word that is none of the options above:
      one of its own options, an unknown option or a plain word *)
  Context (accepts : string -> bool).

  Definition cast (t : vtype) (s : string) : option value :=
    match t with
    | TUnsigned => option_map VUnsigned (cast_unsigned s)
    | TBool => option_map VBool (cast_bool s)
    | TString => Some (VString s)
    | TDouble => option_map VDouble (strtod s)
    | TFlag => None
    end.
  (** An option may be given once. *)
  Definition given (m : list (string * value)) (name : string) : bool := existsb (fun p => p.1 =? name) m.
  Definition store (r : row) (v : option value) (m : list (string * value)) : parsed :=
    if given m (r_name r) then Rejected
    else match v with Some v => Parsed ((r_name r, v) :: m) | None => Rejected end.
  Fixpoint parse (m : list (string * value)) (args : list string) : parsed :=
    match args with
    | [] => Parsed m
    | a :: rest =>
        if a =? "--" then if forallb accepts rest then Parsed m else Rejected
        else match behind "--" a with
        | None => if accepts a then parse m rest else Rejected
        | Some w =>
            let '(name, text) := split_name w in
            match find_option name with
            | Ambiguous => Rejected
            | NotFound => if accepts a then parse m rest else Rejected
            | Found r =>
                match r_type r, text, rest with
                | TFlag, None, _ =>
                    match store r (Some (VString "")) m with Parsed m => parse m rest | e => e end
                | TFlag, Some _, _ => Rejected
                | _, Some EmptyString, _ => Rejected
                | t, Some s, _ => match store r (cast t s) m with Parsed m => parse m rest | e => e end
                | _, None, [] => Rejected
                | t, None, s :: rest =>
                    if String.prefix "-" s then Unmodelled
                    else match store r (cast t s) m with Parsed m => parse m rest | e => e end
                end
            end
        end
    end.

  (** vm[name]: what was given, or else the default *)
  Definition lookup_value (m : list (string * value)) (name : string) : option value :=
    match find (fun p => p.1 =? name) m with
    | Some p => Some p.2
    | None => match find (fun r => r_name r =? name) table with Some r => r_default r | None => None end
    end.
  (** vm[name].as<T>(), which throws for a value of another type *)
  Definition as_unsigned (m : list (string * value)) (name : string) : option N :=
    match lookup_value m name with Some (VUnsigned n) => Some n | _ => None end.
  Definition as_bool (m : list (string * value)) (name : string) : option bool :=
    match lookup_value m name with Some (VBool b) => Some b | _ => None end.
  Definition as_string (m : list (string * value)) (name : string) : option string :=
    match lookup_value m name with Some (VString s) => Some s | _ => None end.
  Definition as_double (m : list (string * value)) (name : string) : option binary64 :=
    match lookup_value m name with Some (VDouble x) => Some x | _ => None end.
  (** matrix_multiply.cpp:62-76 *)
  Definition extract (m : list (string * value)) : option options :=
    match as_unsigned m "n-value", as_unsigned m "block-result", as_unsigned m "verbose", as_string m "algorithm",
          as_bool m "check", as_bool m "transposed", as_unsigned m "block-input", as_unsigned m "repetitions",
          as_unsigned m "min-work-size", as_unsigned m "max-work-difference", as_double m "max-relative-work-difference" with
    | Some n, Some block_result, Some verbose, Some algorithm, Some check, Some transposed, Some block_input, Some repetitions,
      Some min_work_size, Some max_work_difference, Some max_relative_work_difference =>
        Some (Options (N.to_nat n) transposed (N.to_nat repetitions) (N.to_nat verbose) (N.to_nat block_result)
                (N.to_nat block_input) check algorithm (Z.of_N min_work_size) (Z.of_N max_work_difference)
                (rel64 max_relative_work_difference) (given m "help"))
    | _, _, _, _, _, _, _, _, _, _, _ => None
    end.

  (** The program called with the words [args] behind its name.  If HPX rejects them
      hpx::init returns [init_error] without calling hpx_main, so that the globals
      have their initial values (lines 32-55): main goes on to line 430 and returns
      it.  None: not modelled. *)
  Definition command {T} `{NumOps T} (absdiff : T -> T -> T) (small : T -> bool) (init_error : nat)
      (num_localities : nat) (gen : nat -> T) (args : list string) : option (app T (outcome T)) :=
    match parse [] args with
    | Parsed m =>
        match extract m with
        | Some o => Some (main absdiff small o num_localities gen)
        | None => Some (AFail EException)
        end
    | Rejected => Some (ADone (Outcome init_error false None []))
    | Unmodelled => None
    end.
  (** What it writes, in pieces (for --verbose=0 and without --help, see MTranscript.v) *)
  Definition command_chunks (c : clocks) (verdict : option bool) (args : list string) : list string :=
    match parse [] args with
    | Parsed m => match extract m with Some o => app_chunks o c verdict | None => [] end
    | _ => [put ["before HPX"; newline]; put ["after HPX"; newline]]
    end.
End Parse.

(** Words separated by single blanks (shlex.split on a text without quotes and
    backslashes, and the shell) *)
Fixpoint words (s : string) : list string :=
  match s with
  | EmptyString => [""]
  | String c s => if (c =? " ")%char then "" :: words s
                  else match words s with w :: ws => String c w :: ws | [] => [String c ""] end
  end.
(** Python's str() of a bool *)
Definition str_bool (b : bool) : string := if b then "True" else "False".
(** evaluate.py:7-10, with cores and threads of lines 42 and 43 *)
Definition evaluate_cmd (n repetition : N) (transposed : bool) (blockInput : N) : string :=
  put ["release/matrix_multiply --n-value="; show_int n; " --repetitions="; show_int repetition;
       " --small-block-size=128 --verbose=0 --check=false --algorithm=pseudodynamic --hpx:cores=";
       show_int 16; " --hpx:thread="; show_int 16; " --max-work-difference=0 --transposed=";
       str_bool transposed; " --block-input="; show_int blockInput].
(** evaluate.py:13 and 15: the words behind the name of the program *)
Definition evaluate_args (n repetition : N) (transposed : bool) (blockInput : N) : list string :=
  tail (words (evaluate_cmd n repetition transposed blockInput)).
(** evaluate.py:40-41, 47-48 and 54-55: the ten calls of run *)
Definition evaluate_calls : list (N * N * bool * N) :=
  flat_map (fun blockInput => map (fun p => (p, true, blockInput)) (combine [512; 1024; 2048; 4096; 8192]%N [10; 10; 5; 2; 1]%N))
    [128; 0]%N.
(** README.md:58, 68, 79, 93 and 103 *)
Definition readme_cmd (algorithm : string) : string :=
  put ["./release/matrix_multiply --n-value=8192 --check=False --algorithm="; algorithm;
       " --block-result=128 --block-input=128 --hpx:threads=4"].
Definition readme_args (algorithm : string) : list string := tail (words (readme_cmd algorithm)).
(** src/tests/tests.cpp:10-32: the words behind the name of the program that the tests
    hand to HPX; [bind] is whether DISABLE_BIND_FOR_CIRCLE_CI is defined. *)
Definition runner_args (bind : bool) (threads : N) : list string :=
  put ["--hpx:threads="; show_int threads] :: if bind then [" --hpx:bind=none"] else [].
