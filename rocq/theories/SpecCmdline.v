(** Which command lines set which options, as a relation.  Of the model only the
    table of options is used. *)
From Coq Require Import ZArith NArith Ascii String.
From stdpp Require Import list.
From Flocq Require Import IEEE754.Binary IEEE754.Bits.
From Verif Require Import MBalance MApp MCmdline SpecPrint.
Local Open Scope string_scope.

(** At least one digit and nothing else, with the value m *)
Definition decimal (s : string) (m : N) : Prop := exists n, (0 < n)%Z /\ read_digits 0 0 s = (Z.of_N m, n, "").
(** s with its capital letters made small is t *)
Inductive spelled : string -> string -> Prop :=
| spelled_nil : spelled "" ""
| spelled_same c s t : spelled s t -> spelled (String c s) (String c t)
| spelled_capital c s t : (65 <= N_of_ascii c <= 90)%N -> spelled s t -> spelled (String c s) (String (ascii_of_N (N_of_ascii c + 32)) t).

(** The text of a value *)
Inductive means (strtod : string -> option binary64) : vtype -> string -> value -> Prop :=
| means_plain sign s m : sign ∈ [""; "+"] -> decimal s m -> (m < 2 ^ 64)%N -> means strtod TUnsigned (sign ++ s) (VUnsigned m)
| means_minus s m : decimal s m -> (0 < m < 2 ^ 64)%N -> means strtod TUnsigned ("-" ++ s) (VUnsigned (2 ^ 64 - m))
| means_minus_zero s : decimal s 0 -> means strtod TUnsigned ("-" ++ s) (VUnsigned 0)
| means_true s t : t ∈ [""; "on"; "yes"; "1"; "true"] -> spelled s t -> means strtod TBool s (VBool true)
| means_false s t : t ∈ ["off"; "no"; "0"; "false"] -> spelled s t -> means strtod TBool s (VBool false)
| means_string s : means strtod TString s (VString s)
| means_double s x : strtod s = Some x -> means strtod TDouble s (VDouble x).

(** [p] begins [s]. *)
Definition begins (p s : string) : Prop := exists q, s = p ++ q.
(** The name [p] is the name of the option, or a beginning of it that no other
    option has (those of HPX begin with hpx:). *)
Definition names (p : string) (r : row) : Prop :=
  p = r_name r \/
  begins p (r_name r) /\ (forall r', r' ∈ table -> begins p (r_name r') -> r' = r) /\ ~ begins p "hpx:".
Definition no_equals (s : string) : Prop := forall p q, s <> p ++ "=" ++ q.

(** A word that has nothing to do with the options of the program *)
Definition foreign (w : string) : Prop :=
  w <> "--" /\
  (~ begins "--" w \/
   exists name rest, w = "--" ++ name ++ rest /\ no_equals name /\ (rest = "" \/ begins "=" rest) /\
     forall r, r ∈ table -> ~ begins name (r_name r)).

(** [sets l args]: the command line [args] sets exactly the options [l]. *)
Inductive sets (strtod : string -> option binary64) (accepts : string -> bool) : list (string * value) -> list string -> Prop :=
| sets_nil : sets strtod accepts [] []
| sets_end ws : Forall (fun w => accepts w = true) ws -> sets strtod accepts [] ("--" :: ws)
| sets_foreign w l args : foreign w -> accepts w = true -> sets strtod accepts l args -> sets strtod accepts l (w :: args)
| sets_adjacent p r text v l args : r ∈ table -> names p r -> text <> "" -> means strtod (r_type r) text v ->
    sets strtod accepts l args -> sets strtod accepts ((r_name r, v) :: l) (("--" ++ p ++ "=" ++ text) :: args)
| sets_next p r text v l args : r ∈ table -> names p r -> means strtod (r_type r) text v -> ~ begins "-" text ->
    sets strtod accepts l args -> sets strtod accepts ((r_name r, v) :: l) (("--" ++ p) :: text :: args)
| sets_flag p r l args : r ∈ table -> r_type r = TFlag -> names p r ->
    sets strtod accepts l args -> sets strtod accepts ((r_name r, VString "") :: l) (("--" ++ p) :: args).

(** The value of an option: the one set, or the default [d] *)
Definition chosen (l : list (string * value)) (name : string) (d v : value) : Prop :=
  (name, v) ∈ l \/ ~ (exists v', (name, v') ∈ l) /\ v = d.
(** The options of the run, one by one, with their defaults *)
Definition selects (l : list (string * value)) (o : options) : Prop :=
  chosen l "n-value" (VUnsigned 4) (VUnsigned (N.of_nat (o_n o))) /\
  chosen l "transposed" (VBool true) (VBool (o_transposed o)) /\
  chosen l "repetitions" (VUnsigned 1) (VUnsigned (N.of_nat (o_repetitions o))) /\
  chosen l "verbose" (VUnsigned 0) (VUnsigned (N.of_nat (o_verbose o))) /\
  chosen l "block-result" (VUnsigned 128) (VUnsigned (N.of_nat (o_block_result o))) /\
  chosen l "block-input" (VUnsigned 128) (VUnsigned (N.of_nat (o_block_input o))) /\
  chosen l "check" (VBool false) (VBool (o_check o)) /\
  chosen l "algorithm" (VString "single") (VString (o_algorithm o)) /\
  chosen l "min-work-size" (VUnsigned 256) (VUnsigned (Z.to_N (o_min_work_size o))) /\ (0 <= o_min_work_size o)%Z /\
  chosen l "max-work-difference" (VUnsigned 10000) (VUnsigned (Z.to_N (o_max_work_difference o))) /\ (0 <= o_max_work_difference o)%Z /\
  (exists x, chosen l "max-relative-work-difference" (VDouble five_percent) (VDouble x) /\ o_rel o = rel64 x) /\
  (o_help o = true <-> exists v, ("help", v) ∈ l).
(** A word that begins with a dash stands where the value of an option is due. *)
Definition dash_value (args : list string) : Prop :=
  exists before p r text rest, args = (before ++ ("--" ++ p)%string :: text :: rest)%list /\
    r ∈ table /\ names p r /\ r_type r <> TFlag /\ begins "-" text.
