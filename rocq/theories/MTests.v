(** Models of src/tests: the hpx_main of the tests and the test cases that
    multiply matrices.  Definitions only.  The remaining two suites,
    test_iterate_tiles.cpp and test_tile_view.cpp, are in MTests2.v. *)
From Coq Require Import ZArith String.
From Flocq Require Import Core IEEE754.Binary IEEE754.Bits.
From Verif Require Import MCeil MDouble MContract.
From Verif Require Export MApp.
Local Open Scope nat_scope.

(** A decimal literal m * 10^-e of the test sources.  The double it denotes is the
    nearest one.  Both m and 10^e are below 2^53 in every literal used, so one
    rounded division yields it. *)
Record decimal := Dec { d_mant : Z; d_exp : Z }.
Definition double_literal (d : decimal) : binary64 :=
  b64_div rne (double_of (d_mant d)) (double_of (10 ^ d_exp d)).

(** Where a matrix of a test case comes from: a list of literals, such a list
    passed through util::transpose_matrix, or util::create_random_matrix
    (src/util/create_random_matrix.hpp:8-18). *)
Inductive source := Literal (l : list decimal) | Transposed_literal (l : list decimal) | Random.
(** What the result is compared with: create_identity_matrix, the naive product, or A. *)
Inductive reference := Ref_identity | Ref_naive | Ref_A.
(** BOOST_CHECK_CLOSE(C[i], C_reference[i], tol) or
    BOOST_CHECK_SMALL(fabs(C[i] - C_reference[i]), tol) for all i < N*N *)
Inductive check := Check_close (tol : decimal) | Check_small (tol : decimal).
(** One BOOST_AUTO_TEST_CASE.  [c_line] is the line of the macro in
    src/tests/test_<suite>.cpp.  All cases set repetitions to 1 and the three
    parameters of the scheduler to 0; the suite naive sets nothing and calls
    naive_matrix_multiply itself. *)
Record test_case := Case {
  c_suite : string; c_name : string; c_line : nat; c_N : nat; c_A : source; c_B : source; c_algorithm : string;
  c_transposed : bool; c_block_input : nat; c_block_result : nat; c_ref : reference; c_check : check }.

Section HpxMain.
  Context {T : Type} `{NumOps T}.
  (** src/tests/test_hpx_main.cpp:38-100.  C is empty before the call.  The
      constructors of single (src/variants/single.hpp:23) and of pseudodynamic
      (src/variants/pseudodynamic.hpp:28) take block_result before block_input, the
      calls in lines 44 and 48 pass them the other way round.  The test program
      runs one locality.  max_relative_work_difference is 0.0, and no quotient
      of work sizes is below that.  The C of the caller is a global; here it is
      the result. *)
  Definition test_hpx_main (algorithm : string) (N : nat) (A B : list T) (transposed : bool)
      (block_input block_result : nat) : app T (list T) :=
    let run p := ACall p ADone in
    if (algorithm =? "single")%string then
      let single_block_result := block_input in
      let single_block_input := block_result in
      run (single_matrix_multiply N A B transposed single_block_input single_block_result 1)
    else if (algorithm =? "pseudodynamic")%string then
      let ps_block_result := block_input in
      let ps_block_input := block_result in
      run (pseudodynamic_matrix_multiply N A B transposed ps_block_result ps_block_input 0 0 (fun _ _ => false) 1 1)
    else if (algorithm =? "algorithms")%string then
      if negb transposed then AFail EException
      else run (algorithms_matrix_multiply N A B block_input block_result)
    else if (algorithm =? "looped")%string then
      if negb transposed then AFail EException
      else run (looped_matrix_multiply N A B block_result block_input)
    else if (algorithm =? "semi")%string then
      if negb transposed then AFail EException
      else run (semi_matrix_multiply N A B block_result block_input)
    else if (algorithm =? "combined")%string then
      if transposed then AFail EException
      else run (combined_matrix_multiply shipped N A B 1)
    else if (algorithm =? "proposal")%string then
      run (proposal_matrix_multiply shipped 128 N A B)
    else ADone [].

  (** The product under test: hpx_main as above, except that
      src/tests/test_naive.cpp:27,49,103 call naive_matrix_multiply. *)
  Definition under_test (c : test_case) (A B : list T) : app T (list T) :=
    if (c_suite c =? "naive")%string then ACall (naive_matrix_multiply (c_N c) A B) ADone
    else test_hpx_main (c_algorithm c) (c_N c) A B (c_transposed c) (c_block_input c) (c_block_result c).
End HpxMain.

(** A run of a test case up to the comparison loop.  It yields C and C_reference
    as terms: every a*b+c that the code evaluates may be contracted, see
    MContract.v.  [gen k] is the k-th number of a fresh random engine; every call
    of create_random_matrix starts with a fresh one.  [mult] is the code under
    test. *)
Section Run.
  Context (gen : nat -> binary64) (mult : test_case -> list term -> list term -> app term (list term)).
  Definition matrix_from (N : nat) (s : source) : app term (list term) :=
    match s with
    | Literal l => ADone (TNum ∘ double_literal <$> l)
    | Transposed_literal l => ACall (transpose_matrix N (TNum ∘ double_literal <$> l)) ADone
    | Random => ADone (TNum ∘ gen <$> seq 0 (N * N))
    end.
  Definition reference_of (c : test_case) (A B : list term) : app term (list term) :=
    match c_ref c with
    | Ref_identity => ACall (create_identity_matrix (c_N c)) ADone
    | Ref_naive => ACall (if negb (c_transposed c) then naive_matrix_multiply (c_N c) A B
                          else naive_matrix_multiply_transposed (c_N c) A B) ADone
    | Ref_A => ADone A
    end.
  Definition run_case (c : test_case) : app term (list term * list term) :=
    abind (matrix_from (c_N c) (c_A c)) (fun A =>
    abind (matrix_from (c_N c) (c_B c)) (fun B =>
    abind (mult c A B) (fun C =>
    abind (reference_of c A B) (fun C_reference => ADone (C, C_reference))))).
End Run.

(** * The two checks of Boost.Test on doubles
    Boost is not part of /repo; this is boost/test/tools/floating_point_comparison.hpp
    of Boost 1.59 and later. *)
Definition lt64 (x y : binary64) : bool := match b64_compare x y with Some Lt => true | _ => false end.
Definition le64 (x y : binary64) : bool := match b64_compare x y with Some Lt | Some Eq => true | _ => false end.
Definition eq64 (x y : binary64) : bool := match b64_compare x y with Some Eq => true | _ => false end.
(** std::numeric_limits<double>::max() and min() *)
Definition max64 : binary64 := B754_finite 53 1024 false (2 ^ 53 - 1) 971 eq_refl.
Definition min64 : binary64 := B754_finite 53 1024 false (2 ^ 52) (-1074) eq_refl.
(** safe_fpt_division(f1, f2) *)
Definition safe_division (f1 f2 : binary64) : binary64 :=
  if lt64 f2 none1 && lt64 (nmul f2 max64) f1 then max64
  else if eq64 f1 nzero || (lt64 none1 f2 && lt64 f1 (nmul f2 min64)) then nzero
  else b64_div rne f1 f2.
(** close_at_tolerance with FPC_STRONG and a tolerance in percent *)
Definition check_close (tol x y : binary64) : bool :=
  let fraction := nmul tol (double_literal (Dec 1 2)) in
  let diff := absdiff64 x y in
  le64 (safe_division diff (b64_abs y)) fraction && le64 (safe_division diff (b64_abs x)) fraction.
(** small_with_tolerance: |fpv| < tol.  Newer versions of Boost accept equality. *)
Definition check_small (tol x : binary64) : bool := lt64 (b64_abs x) tol.

(** The body of the comparison loop, e.g. src/tests/test_single.cpp:66-68 and 119-121. *)
Definition check_entry (k : check) (c r : binary64) : bool :=
  match k with
  | Check_close tol => check_close (double_literal tol) c r
  | Check_small tol => check_small (double_literal tol) (absdiff64 c r)
  end.

(** * The test cases
    The lists below were extracted from the test sources by a script. *)
Local Open Scope string_scope.
Definition inverse_A2 : list decimal :=
  [Dec (2) 0; Dec (5) 0;
   Dec (1) 0; Dec (3) 0].
Definition inverse_B2 : list decimal :=
  [Dec (3) 0; Dec (-5) 0;
   Dec (-1) 0; Dec (2) 0].
Definition inverse_A4 : list decimal :=
  [Dec (-4) 0; Dec (5) 0; Dec (0) 0; Dec (-3) 0;
   Dec (-1) 0; Dec (2) 0; Dec (0) 0; Dec (2) 0;
   Dec (-8) 0; Dec (-3) 0; Dec (8) 0; Dec (-8) 0;
   Dec (-4) 0; Dec (3) 0; Dec (-4) 0; Dec (-1) 0].
Definition inverse_B4 : list decimal :=
  [Dec (1347150259) 10; Dec (-2124352332) 10; Dec (-829015544) 10; Dec (-1658031088) 10;
   Dec (2176165803) 10; Dec (414507772) 10; Dec (-569948187) 10; Dec (-1139896373) 10;
   Dec (660621762) 10; Dec (1554404145) 10; Dec (362694301) 10; Dec (-1774611399) 10;
   Dec (-1502590674) 10; Dec (3523316062) 10; Dec (155440415) 10; Dec (310880829) 10].
Definition inverse_A8 : list decimal :=
  [Dec (0) 0; Dec (0) 0; Dec (0) 0; Dec (-1) 0; Dec (-1) 0; Dec (1) 0; Dec (1) 0; Dec (0) 0;
   Dec (-1) 0; Dec (-2) 0; Dec (0) 0; Dec (0) 0; Dec (0) 0; Dec (-4) 0; Dec (-1) 0; Dec (0) 0;
   Dec (0) 0; Dec (0) 0; Dec (0) 0; Dec (-2) 0; Dec (0) 0; Dec (0) 0; Dec (-4) 0; Dec (0) 0;
   Dec (-3) 0; Dec (0) 0; Dec (4) 0; Dec (-2) 0; Dec (0) 0; Dec (-7) 0; Dec (-4) 0; Dec (-3) 0;
   Dec (0) 0; Dec (2) 0; Dec (0) 0; Dec (1) 0; Dec (-3) 0; Dec (-2) 0; Dec (-1) 0; Dec (-1) 0;
   Dec (0) 0; Dec (0) 0; Dec (0) 0; Dec (4) 0; Dec (0) 0; Dec (3) 0; Dec (0) 0; Dec (2) 0;
   Dec (0) 0; Dec (-1) 0; Dec (-4) 0; Dec (-2) 0; Dec (0) 0; Dec (3) 0; Dec (-5) 0; Dec (0) 0;
   Dec (1) 0; Dec (0) 0; Dec (1) 0; Dec (0) 0; Dec (-6) 0; Dec (1) 0; Dec (-5) 0; Dec (0) 0].
Definition inverse_B8 : list decimal :=
  [Dec (-945977686435702) 15; Dec (-125660598943042) 15; Dec (-92190252495597) 15; Dec (-206106870229008) 15; Dec (-196711685261304) 15; Dec (-407516147974163) 15; Dec (-142102172636524) 15; Dec (256018790369935) 15;
   Dec (237815619495009) 15; Dec (-87962419260129) 15; Dec (435466823253083) 15; Dec (-44274809160305) 15; Dec (362301820317088) 15; Dec (114738696418086) 15; Dec (-99471520845567) 15; Dec (-220786846741045) 15;
   Dec (-59894304169114) 15; Dec (-121550205519671) 15; Dec (36993540810335) 15; Dec (76335877862595) 15; Dec (-194950088079859) 15; Dec (17028772753964) 15; Dec (-146799765120376) 15; Dec (107457428068115) 15;
   Dec (-405167351732237) 15; Dec (-57545507927187) 15; Dec (-30857310628303) 14; Dec (45801526717557) 15; Dec (-24662360540223) 15; Dec (56371109806224) 15; Dec (65766294773928) 15; Dec (79859072225484) 15;
   Dec (-325308279506753) 15; Dec (-95478567234292) 15; Dec (42102172636524) 15; Dec (10687022900763) 15; Dec (-98062243100411) 15; Dec (-3300058719906) 14; Dec (-5167351732237) 15; Dec (-63417498532002) 15;
   Dec (66940692894891) 15; Dec (-181796829125073) 15; Dec (-170757486788021) 15; Dec (79389312977099) 15; Dec (-135055783910746) 15; Dec (51556077510276) 15; Dec (93482090428655) 15; Dec (56371109806224) 15;
   Dec (202583675866119) 15; Dec (28772753963594) 15; Dec (-95713446858485) 15; Dec (-22900763358779) 15; Dec (12331180270112) 15; Dec (-28185554903112) 15; Dec (-32883147386964) 15; Dec (-39929536112742) 15;
   Dec (709923664122137) 15; Dec (387786259541985) 15; Dec (873282442748091) 15; Dec (-210687022900763) 15; Dec (251908396946565) 15; Dec (309923664122138) 15; Dec (-27175572519084) 14; Dec (-244274809160305) 15].
Definition identity_B2 : list decimal :=
  [Dec (1) 0; Dec (0) 0;
   Dec (0) 0; Dec (1) 0].
(** src/tests/test_algorithms.cpp *)
Definition suite_algorithms : list test_case :=
  [Case "algorithms" "apply_inverse_2" 23 2 (Literal inverse_A2) (Transposed_literal inverse_B2) "algorithms" true 1 1 Ref_identity (Check_close (Dec 1 10));
   Case "algorithms" "apply_inverse_4" 72 4 (Literal inverse_A4) (Transposed_literal inverse_B4) "algorithms" true 1 1 Ref_identity (Check_small (Dec 1 8));
   Case "algorithms" "apply_inverse_8" 126 8 (Literal inverse_A8) (Transposed_literal inverse_B8) "algorithms" true 1 1 Ref_identity (Check_small (Dec 1 8));
   Case "algorithms" "random_matrices_2" 211 2 Random Random "algorithms" true 1 1 Ref_naive (Check_small (Dec 1 8));
   Case "algorithms" "random_matrices_4" 257 4 Random Random "algorithms" true 1 1 Ref_naive (Check_small (Dec 1 8));
   Case "algorithms" "random_matrices_8" 303 8 Random Random "algorithms" true 1 1 Ref_naive (Check_small (Dec 1 8));
   Case "algorithms" "random_matrices_256" 349 256 Random Random "algorithms" true 128 128 Ref_naive (Check_small (Dec 1 8));
   Case "algorithms" "random_matrices_512" 395 512 Random Random "algorithms" true 128 128 Ref_naive (Check_small (Dec 1 8));
   Case "algorithms" "random_matrices_1024" 441 1024 Random Random "algorithms" true 128 128 Ref_naive (Check_small (Dec 1 8))].
(** src/tests/test_combined.cpp *)
Definition suite_combined : list test_case :=
  [Case "combined" "apply_inverse_2" 23 2 (Literal inverse_A2) (Literal inverse_B2) "combined" false 1 1 Ref_identity (Check_close (Dec 1 10));
   Case "combined" "apply_inverse_4" 71 4 (Literal inverse_A4) (Literal inverse_B4) "combined" false 1 1 Ref_identity (Check_small (Dec 1 8));
   Case "combined" "apply_inverse_8" 124 8 (Literal inverse_A8) (Literal inverse_B8) "combined" false 1 1 Ref_identity (Check_small (Dec 1 8));
   Case "combined" "random_matrices_2" 208 2 Random Random "combined" false 1 1 Ref_naive (Check_small (Dec 1 8));
   Case "combined" "random_matrices_4" 254 4 Random Random "combined" false 1 1 Ref_naive (Check_small (Dec 1 8));
   Case "combined" "random_matrices_8" 300 8 Random Random "combined" false 1 1 Ref_naive (Check_small (Dec 1 8));
   Case "combined" "random_matrices_256" 346 256 Random Random "combined" false 128 128 Ref_naive (Check_small (Dec 1 8));
   Case "combined" "random_matrices_512" 392 512 Random Random "combined" false 128 128 Ref_naive (Check_small (Dec 1 8));
   Case "combined" "random_matrices_1024" 438 1024 Random Random "combined" false 128 128 Ref_naive (Check_small (Dec 1 8))].
(** src/tests/test_looped.cpp *)
Definition suite_looped : list test_case :=
  [Case "looped" "apply_inverse_2" 23 2 (Literal inverse_A2) (Transposed_literal inverse_B2) "looped" true 1 1 Ref_identity (Check_close (Dec 1 10));
   Case "looped" "apply_inverse_4" 72 4 (Literal inverse_A4) (Transposed_literal inverse_B4) "looped" true 1 1 Ref_identity (Check_small (Dec 1 8));
   Case "looped" "apply_inverse_8" 126 8 (Literal inverse_A8) (Transposed_literal inverse_B8) "looped" true 1 1 Ref_identity (Check_small (Dec 1 8));
   Case "looped" "random_matrices_2" 211 2 Random Random "looped" true 1 1 Ref_naive (Check_small (Dec 1 8));
   Case "looped" "random_matrices_4" 257 4 Random Random "looped" true 1 1 Ref_naive (Check_small (Dec 1 8));
   Case "looped" "random_matrices_8" 303 8 Random Random "looped" true 1 1 Ref_naive (Check_small (Dec 1 8));
   Case "looped" "random_matrices_256" 349 256 Random Random "looped" true 128 128 Ref_naive (Check_small (Dec 1 8));
   Case "looped" "random_matrices_512" 395 512 Random Random "looped" true 128 128 Ref_naive (Check_small (Dec 1 8));
   Case "looped" "random_matrices_1024" 441 1024 Random Random "looped" true 128 128 Ref_naive (Check_small (Dec 1 8))].
(** src/tests/test_pseudodynamic.cpp *)
Definition suite_pseudodynamic : list test_case :=
  [Case "pseudodynamic" "apply_inverse_2" 23 2 (Literal inverse_A2) (Literal inverse_B2) "pseudodynamic" false 1 1 Ref_identity (Check_close (Dec 1 10));
   Case "pseudodynamic" "apply_inverse_4" 71 4 (Literal inverse_A4) (Literal inverse_B4) "pseudodynamic" false 1 1 Ref_identity (Check_small (Dec 1 8));
   Case "pseudodynamic" "apply_inverse_8" 124 8 (Literal inverse_A8) (Literal inverse_B8) "pseudodynamic" false 1 1 Ref_identity (Check_small (Dec 1 8));
   Case "pseudodynamic" "random_matrices_2" 208 2 Random Random "pseudodynamic" false 1 1 Ref_naive (Check_small (Dec 1 8));
   Case "pseudodynamic" "random_matrices_4" 254 4 Random Random "pseudodynamic" false 1 1 Ref_naive (Check_small (Dec 1 8));
   Case "pseudodynamic" "random_matrices_8" 300 8 Random Random "pseudodynamic" false 1 1 Ref_naive (Check_small (Dec 1 8));
   Case "pseudodynamic" "random_matrices_256" 346 256 Random Random "pseudodynamic" false 128 128 Ref_naive (Check_small (Dec 1 8));
   Case "pseudodynamic" "random_matrices_512" 392 512 Random Random "pseudodynamic" false 128 128 Ref_naive (Check_small (Dec 1 8));
   Case "pseudodynamic" "random_matrices_1024" 438 1024 Random Random "pseudodynamic" false 128 128 Ref_naive (Check_small (Dec 1 8));
   Case "pseudodynamic" "apply_inverse_2_transposed" 484 2 (Literal inverse_A2) (Transposed_literal inverse_B2) "pseudodynamic" true 1 1 Ref_identity (Check_small (Dec 1 8));
   Case "pseudodynamic" "apply_inverse_4_transposed" 525 4 (Literal inverse_A4) (Transposed_literal inverse_B4) "pseudodynamic" true 1 1 Ref_identity (Check_small (Dec 1 8));
   Case "pseudodynamic" "apply_inverse_8_transposed" 572 8 (Literal inverse_A8) (Transposed_literal inverse_B8) "pseudodynamic" true 1 1 Ref_identity (Check_small (Dec 1 8));
   Case "pseudodynamic" "random_matrices_2_transposed" 652 2 Random Random "pseudodynamic" true 1 1 Ref_naive (Check_small (Dec 1 8));
   Case "pseudodynamic" "random_matrices_4_transposed" 698 4 Random Random "pseudodynamic" true 1 1 Ref_naive (Check_small (Dec 1 8));
   Case "pseudodynamic" "random_matrices_8_transposed" 744 8 Random Random "pseudodynamic" true 1 1 Ref_naive (Check_small (Dec 1 8));
   Case "pseudodynamic" "random_matrices_256_transposed" 790 256 Random Random "pseudodynamic" true 128 128 Ref_naive (Check_small (Dec 1 8));
   Case "pseudodynamic" "random_matrices_512_transposed" 836 512 Random Random "pseudodynamic" true 128 128 Ref_naive (Check_small (Dec 1 8));
   Case "pseudodynamic" "random_matrices_1024_transposed" 882 1024 Random Random "pseudodynamic" true 128 128 Ref_naive (Check_small (Dec 1 8))].
(** src/tests/test_semi.cpp *)
Definition suite_semi : list test_case :=
  [Case "semi" "identity_2" 23 2 (Literal inverse_A2) (Transposed_literal identity_B2) "semi" true 1 1 Ref_A (Check_close (Dec 1 10));
   Case "semi" "apply_inverse_2" 72 2 (Literal inverse_A2) (Transposed_literal inverse_B2) "semi" true 1 1 Ref_identity (Check_close (Dec 1 10));
   Case "semi" "apply_inverse_4" 121 4 (Literal inverse_A4) (Transposed_literal inverse_B4) "semi" true 1 1 Ref_identity (Check_small (Dec 1 8));
   Case "semi" "apply_inverse_8" 175 8 (Literal inverse_A8) (Transposed_literal inverse_B8) "semi" true 1 1 Ref_identity (Check_small (Dec 1 8));
   Case "semi" "random_matrices_2" 260 2 Random Random "semi" true 1 1 Ref_naive (Check_small (Dec 1 8));
   Case "semi" "random_matrices_4" 306 4 Random Random "semi" true 1 1 Ref_naive (Check_small (Dec 1 8));
   Case "semi" "random_matrices_8" 352 8 Random Random "semi" true 1 1 Ref_naive (Check_small (Dec 1 8));
   Case "semi" "random_matrices_256" 398 256 Random Random "semi" true 128 128 Ref_naive (Check_small (Dec 1 8));
   Case "semi" "random_matrices_512" 444 512 Random Random "semi" true 128 128 Ref_naive (Check_small (Dec 1 8));
   Case "semi" "random_matrices_1024" 490 1024 Random Random "semi" true 128 128 Ref_naive (Check_small (Dec 1 8))].
(** src/tests/test_single.cpp *)
Definition suite_single : list test_case :=
  [Case "single" "apply_inverse_2" 23 2 (Literal inverse_A2) (Literal inverse_B2) "single" false 1 1 Ref_identity (Check_close (Dec 1 10));
   Case "single" "apply_inverse_4" 71 4 (Literal inverse_A4) (Literal inverse_B4) "single" false 1 1 Ref_identity (Check_small (Dec 1 8));
   Case "single" "apply_inverse_8" 124 8 (Literal inverse_A8) (Literal inverse_B8) "single" false 1 1 Ref_identity (Check_small (Dec 1 8));
   Case "single" "random_matrices_2" 208 2 Random Random "single" false 1 1 Ref_naive (Check_small (Dec 1 8));
   Case "single" "random_matrices_4" 254 4 Random Random "single" false 1 1 Ref_naive (Check_small (Dec 1 8));
   Case "single" "random_matrices_8" 300 8 Random Random "single" false 1 1 Ref_naive (Check_small (Dec 1 8));
   Case "single" "random_matrices_256" 346 256 Random Random "single" false 128 128 Ref_naive (Check_small (Dec 1 8));
   Case "single" "random_matrices_512" 392 512 Random Random "single" false 128 128 Ref_naive (Check_small (Dec 1 8));
   Case "single" "random_matrices_1024" 438 1024 Random Random "single" false 128 128 Ref_naive (Check_small (Dec 1 8));
   Case "single" "apply_inverse_2_transposed" 484 2 (Literal inverse_A2) (Transposed_literal inverse_B2) "single" true 1 1 Ref_identity (Check_small (Dec 1 8));
   Case "single" "apply_inverse_4_transposed" 525 4 (Literal inverse_A4) (Transposed_literal inverse_B4) "single" true 1 1 Ref_identity (Check_small (Dec 1 8));
   Case "single" "apply_inverse_8_transposed" 572 8 (Literal inverse_A8) (Transposed_literal inverse_B8) "single" true 1 1 Ref_identity (Check_small (Dec 1 8));
   Case "single" "random_matrices_2_transposed" 652 2 Random Random "single" true 1 1 Ref_naive (Check_small (Dec 1 8));
   Case "single" "random_matrices_4_transposed" 698 4 Random Random "single" true 1 1 Ref_naive (Check_small (Dec 1 8));
   Case "single" "random_matrices_8_transposed" 744 8 Random Random "single" true 1 1 Ref_naive (Check_small (Dec 1 8));
   Case "single" "random_matrices_256_transposed" 790 256 Random Random "single" true 128 128 Ref_naive (Check_small (Dec 1 8));
   Case "single" "random_matrices_512_transposed" 836 512 Random Random "single" true 128 128 Ref_naive (Check_small (Dec 1 8));
   Case "single" "random_matrices_1024_transposed" 882 1024 Random Random "single" true 128 128 Ref_naive (Check_small (Dec 1 8))].
(** src/tests/test_naive.cpp *)
Definition suite_naive : list test_case :=
  [Case "naive" "apply_inverse_2" 16 2 (Literal inverse_A2) (Literal inverse_B2) "naive" false 1 1 Ref_identity (Check_small (Dec 1 5));
   Case "naive" "apply_inverse_4" 34 4 (Literal inverse_A4) (Literal inverse_B4) "naive" false 1 1 Ref_identity (Check_small (Dec 1 5));
   Case "naive" "apply_inverse_8" 56 8 (Literal inverse_A8) (Literal inverse_B8) "naive" false 1 1 Ref_identity (Check_small (Dec 1 5))].
Definition all_cases : list test_case :=
  (suite_algorithms ++ suite_combined ++ suite_looped ++ suite_pseudodynamic ++ suite_semi ++ suite_single ++ suite_naive)%list.
