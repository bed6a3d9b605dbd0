(** The names of the test cases, taken from the lines BOOST_AUTO_TEST_SUITE and
    BOOST_AUTO_TEST_CASE of src/tests/test_*.cpp, and the precision a check stands
    for. *)
From Coq Require Import Reals String.
From Verif Require Import Base MTests.
Local Open Scope string_scope.

Definition registered : list (string * list string) :=
  [("algorithms", ["apply_inverse_2"; "apply_inverse_4"; "apply_inverse_8";
     "random_matrices_2"; "random_matrices_4"; "random_matrices_8";
     "random_matrices_256"; "random_matrices_512"; "random_matrices_1024"]);
   ("combined", ["apply_inverse_2"; "apply_inverse_4"; "apply_inverse_8";
     "random_matrices_2"; "random_matrices_4"; "random_matrices_8";
     "random_matrices_256"; "random_matrices_512"; "random_matrices_1024"]);
   ("looped", ["apply_inverse_2"; "apply_inverse_4"; "apply_inverse_8";
     "random_matrices_2"; "random_matrices_4"; "random_matrices_8";
     "random_matrices_256"; "random_matrices_512"; "random_matrices_1024"]);
   ("pseudodynamic", ["apply_inverse_2"; "apply_inverse_4"; "apply_inverse_8";
     "random_matrices_2"; "random_matrices_4"; "random_matrices_8";
     "random_matrices_256"; "random_matrices_512"; "random_matrices_1024";
     "apply_inverse_2_transposed"; "apply_inverse_4_transposed"; "apply_inverse_8_transposed";
     "random_matrices_2_transposed"; "random_matrices_4_transposed"; "random_matrices_8_transposed";
     "random_matrices_256_transposed"; "random_matrices_512_transposed"; "random_matrices_1024_transposed"]);
   ("semi", ["identity_2"; "apply_inverse_2"; "apply_inverse_4";
     "apply_inverse_8"; "random_matrices_2"; "random_matrices_4";
     "random_matrices_8"; "random_matrices_256"; "random_matrices_512";
     "random_matrices_1024"]);
   ("single", ["apply_inverse_2"; "apply_inverse_4"; "apply_inverse_8";
     "random_matrices_2"; "random_matrices_4"; "random_matrices_8";
     "random_matrices_256"; "random_matrices_512"; "random_matrices_1024";
     "apply_inverse_2_transposed"; "apply_inverse_4_transposed"; "apply_inverse_8_transposed";
     "random_matrices_2_transposed"; "random_matrices_4_transposed"; "random_matrices_8_transposed";
     "random_matrices_256_transposed"; "random_matrices_512_transposed"; "random_matrices_1024_transposed"]);
   ("naive", ["apply_inverse_2"; "apply_inverse_4"; "apply_inverse_8"])].

(** The names with their suites. *)
Definition registered_names : list (string * string) :=
  flat_map (fun r => (fun n => (r.1, n)) <$> r.2) registered.

(** How far from the exact product an entry that passes can be. *)
Inductive precision : check -> R -> Prop :=
| precision_8 : precision (Check_small (Dec 1 8)) (2 / 10 ^ 8)
| precision_5 : precision (Check_small (Dec 1 5)) (2 / 10 ^ 5)
| precision_close : precision (Check_close (Dec 1 10)) (2 / 10 ^ 12).
