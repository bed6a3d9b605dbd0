(** What the lines written with --verbose say. *)
From Coq Require Import ZArith Ascii String.
From Flocq Require Import IEEE754.Binary IEEE754.Bits.
From Verif Require Import Base MPrint MSchedule MTranscript SpecCmdline SpecTranscript.
Local Open Scope string_scope.

(** The line of locality [here] about the block of [n] rows and columns at (x, y) *)
Definition says (line here : string) (x y n : nat) : Prop :=
  exists sx sy sn, decimal sx (N.of_nat x) /\ decimal sy (N.of_nat y) /\ decimal sn (N.of_nat n) /\
    line = here ++ " work on x: " ++ sx ++ ", y: " ++ sy ++ " blockSize: " ++ sn ++ newline.
(** A line about a block with at most [block_result] rows that contains entry (i, j) *)
Definition computes (block_result i j : nat) (line : string) : Prop :=
  exists here x y n, ~ occurs ":" here /\ says line here x y n /\ n <= block_result /\ x <= i < x + n /\ y <= j < y + n.
(** [n] elements of the list have the property. *)
Inductive counts {A} (P : A -> Prop) : list A -> nat -> Prop :=
| counts_nil : counts P [] 0
| counts_yes a l n : P a -> counts P l n -> counts P (a :: l) (S n)
| counts_no a l n : ~ P a -> counts P l n -> counts P (a :: l) n.
(** Halving [n] leads to blocks of at most [block_result] rows without a remainder. *)
Definition halves (block_result n : nat) : Prop := exists m d, n = m * 2 ^ d /\ m <= block_result.

(** A matrix as text: one line per row, the entries with six digits *)
Definition matrix_text (n : nat) (entry : nat -> nat -> binary64) : string :=
  put (map (fun i => String.concat ", " (map (fun j => show64 6 (entry i j)) (seq 0 n)) ++ newline) (seq 0 n)).
(** A schedule as text: one line per locality, the sizes of its packages *)
Definition schedule_text (all_work : list (list work)) : string :=
  "-----work-distribution:-----" ++ newline ++
  put (imap (fun i ws => "locality: " ++ show_nat i ++ " = " ++
    String.concat ", " (map (fun w => "[" ++ show_int (Z.to_N (wN w)) ++ "]") ws) ++ newline) all_work).
(** The message of a scheduler that gives up *)
Definition aborted : string := "aborted due to no valid work package to distribute found" ++ newline.
