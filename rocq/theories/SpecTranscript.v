(** What searching a text for a pattern means, and which lines a text has. *)
From Coq Require Import ZArith Ascii String.
From Flocq Require Import IEEE754.Binary IEEE754.Bits.
From Verif Require Import Base MTranscript MApp SpecApp.
Local Open Scope string_scope.

Definition occurs (c : ascii) (s : string) : Prop := exists a b, s = a ++ String c b.
Definition end_of_line : ascii := ascii_of_nat 10.

(** [lit], then [g] without an end of line, then [stop], behind [a] *)
Definition match_at (lit stop s a g : string) : Prop :=
  ~ occurs end_of_line g /\ exists b, s = a ++ lit ++ g ++ stop ++ b.
(** [g] is the group of the regular expression lit(.*?)stop in [s]: the leftmost
    match, and the shortest there. *)
Definition found (lit stop s g : string) : Prop :=
  exists a, match_at lit stop s a g /\
    (forall a' g', match_at lit stop s a' g' -> String.length a <= String.length a')%nat /\
    (forall g', match_at lit stop s a g' -> String.length g <= String.length g')%nat.

(** The duration a run reports: kernel_tiled reports the one measured inside. *)
Definition reported_time (v : choice) (k : clocks) : binary64 :=
  match v with KernelTiled => c_inner k | _ => c_total k end.
(** These two print the performance of the padded product before that of the run. *)
Definition reports_inner (v : choice) : Prop := v = Combined \/ v = KernelTiled.
(** The sizes of the padded product: the next multiples of 420, 256 and 256 *)
Definition padded_to (n m p : Z) : Prop := (n <= p < n + m /\ (m | p))%Z.
(** The names of localities have no colon; HPX writes hexadecimal digits, braces,
    a comma and a space. *)
Definition names_ok (k : clocks) : Prop := forall id, id ∈ c_ids k -> ~ occurs ":" id.
