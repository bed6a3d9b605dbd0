(** Specification for learning/MetaProgrammingCPP.cpp. *)
From Coq Require Import String.
From Verif Require Export MLearn SpecTile.
Local Open Scope nat_scope.

(** [cs] lists the tuples of [dim] numbers from [mn] up to but not including [mx],
    each once, in lexicographic order: the tuple t is at the place that the digits
    of t form in base mx - mn. *)
Definition all_tuples (dim mn mx : nat) (cs : list (list nat)) : Prop :=
  length cs = (mx - mn) ^ dim /\
  forall t, length t = dim -> Forall (fun x => mn <= x < mx) t ->
    cs !! row_major (replicate dim (mx - mn)) ((fun x => x - mn) <$> t) = Some t.
(** The texts of the pairs of a square, row by row. *)
Definition pair_text (i j : nat) : string := ("(" ++ show i ++ ", " ++ show j ++ ")")%string.
Definition pair_texts (mn mx : nat) : list string :=
  seq mn (mx - mn) ≫= fun i => pair_text i <$> seq mn (mx - mn).
