(** Concrete cases for Properties30. *)
From Coq Require Import ZArith Reals String.
From Flocq Require Import Core IEEE754.Binary IEEE754.Bits.
From Verif Require Import Base Conc ConcFacts Num Spec Tools MRecursive PRecursive PPseudo Properties1 PApp PApp2 PWord Examples2 Examples10 Examples18 MUtil MNaive MDouble SpecRound MPrint MTests SpecTests PTests2 Properties11 MRandom SpecRandom PRandom PRandom2 PRandom3 Properties30 MApp SpecApp.
Local Open Scope nat_scope.

Definition separate (_ : nat) : bool := false.
Definition fused (_ : nat) : bool := true.
Definition libstdcxx : nat -> binary64 := draw true separate multiplier_libstdcxx.
Definition libcxx : nat -> binary64 := draw false fused multiplier_libcxx.
Lemma stdcxx_ok : is_multiplier multiplier_libstdcxx.
Proof. by left. Qed.
Lemma cxx_ok : is_multiplier multiplier_libcxx.
Proof. by right. Qed.

(** The first entries of every matrix, as they are printed. *)
Example ex_first : (fun k => show64 6 (libstdcxx k)) <$> [0; 1; 2; 3] = ["0.131538"; "0.45865"; "0.218959"; "0.678865"]%string.
Proof. vm_compute. reflexivity. Qed.
Example ex_first_bits : (fun k => show64 17 (libstdcxx k)) <$> [0; 1; 2] = ["0.13153778773876065"; "0.4586501320232198"; "0.21895918621247895"]%string.
Proof. vm_compute. reflexivity. Qed.
Example ex_first_libcxx : (fun k => show64 6 (libcxx k)) <$> [0; 1; 2] = ["0.0850324"; "0.891611"; "0.18969"]%string.
Proof. vm_compute. reflexivity. Qed.
Example ex_calls : calls = 2.
Proof. reflexivity. Qed.
(** minstd_rand0: the 10000th output is 1043618065, minstd_rand: 399268537, as the
    C++ standard requires ([rand.predef]). *)
Example ex_standard : N.iter 10000 (engine_step multiplier_libstdcxx) seed = 1043618065%Z /\ N.iter 10000 (engine_step multiplier_libcxx) seed = 399268537%Z.
Proof. vm_compute. done. Qed.

Example ex_C90_engine := C90_engine true separate _ stdcxx_ok.
Example ex_C90_draws := C90_draws false fused _ 7 cxx_ok.
Example ex_C90_guard := C90_guard separate _ 7 stdcxx_ok.
Example ex_C90_apart : (3 / 10 ^ 10 < Rabs (val64 (libstdcxx 3) - val64 (libstdcxx 8)))%R.
Proof. apply (C90_apart true separate _ 3 8 stdcxx_ok). by vm_compute. Qed.
Example ex_C90_distinct : NoDup (libstdcxx <$> seq 0 (100 * 100)).
Proof. apply (C90_distinct true separate _ 100 stdcxx_ok). done. Qed.
Example ex_C90_repeats : libcxx 5 = libcxx (5 + Z.to_nat period).
Proof.
  apply (C90_apart false fused _ 5 (5 + Z.to_nat period) cxx_ok). unfold same_phase. rewrite Nat2Z.inj_add, Z2Nat.id by done.
  by rewrite <- Z.add_mod_idemp_r, Z.mod_same, Z.add_0_r by done.
Qed.

Example ex_C43_identity : always (let! Id := create_identity_matrix 5 in naive_matrix_multiply 5 (libstdcxx <$> seq 0 25) Id) (fun C => C = libstdcxx <$> seq 0 25).
Proof.
  apply C43_identity_double; [reflexivity|]. apply Forall_forall. intros x (k&->&_)%elem_of_list_fmap. exact (draws_nonneg true separate _ stdcxx_ok k).
Qed.

(** An application run that succeeds, and the lost entry of an odd size. *)
Example ex_C90_end : app_always (tolerated Combined) (main absdiff64 small64 (opt 7 false 1 2 4 4 "combined") 1 libcxx)
  (fun r => r = Outcome 0 false (Some true) (libcxx <$> seq 0 49)).
Proof. apply (C90_end_to_end false fused _ (opt 7 false 1 2 4 4 "combined") 1 Combined cxx_ok); [reflexivity|set_solver|reflexivity|reflexivity]. Qed.
Example ex_C90_run : app_ends (main absdiff64 small64 (opt 7 false 1 2 4 4 "combined") 1 libcxx) (Ok (Outcome 0 false (Some true) (libcxx <$> seq 0 49))).
Proof. destruct (app_always_ends _ _ _ ex_C90_end) as (r&He&Hr). rewrite Hr in He. exact He. Qed.
Example ex_C90_check := C90_check_exact false fused multiplier_libcxx (opt 7 false 1 2 4 4 "combined") 1 Combined (Outcome 0 false (Some true) (libcxx <$> seq 0 49))
  eq_refl ltac:(set_solver) eq_refl eq_refl cxx_ok ltac:(done) ex_C90_run eq_refl (fun x Hx => or_intror Hx).
Definition o3 : options := opt 3 false 1 0 2 0 "single".
Lemma o3_ends : exists r, app_ends (main absdiff64 small64 o3 1 libstdcxx) (Ok r).
Proof.
  assert (H : app_always (fun _ => False) (main absdiff64 small64 o3 1 libstdcxx) (fun _ => True)).
  { destruct (main_dispatch absdiff64 small64 o3 1 libstdcxx Single eq_refl) as (B&HI&Hs); [set_solver|done|]. eapply same_always; [exact Hs|].
    cbn [app_always]. cbn [computation o3 opt o_repetitions Nat.eqb o_n o_transposed o_block_input o_block_result].
    unfold single_matrix_multiply. rewrite forS_step by lia. change (rng 0 1 1) with [0]. cbn [foldP]. rewrite pbind_ret_r.
    set (A := mat_A _ _) in *. assert (HA : length A = 3 * 3) by reflexivity.
    eapply must_mono; [|apply (C11_odd_block_contents 3 A B false 0 2 1 0 [0] 0 0 1); try done; try lia; apply HI].
    intros C m (HC&_). cbn beta.
    destruct (report_checked absdiff64 small64 o3 libstdcxx A B C eq_refl HA (proj1 HI) (or_intror HC)) as (ok&_&Ha).
    eapply app_always_mono; [|exact Ha]. done. }
  destruct (app_always_ends _ _ _ H) as (r&He&_). by exists r.
Qed.
Example ex_C90_single_odd : exists r, app_ends (main absdiff64 small64 o3 1 libstdcxx) (Ok r) /\ r_check r = Some false.
Proof.
  destruct o3_ends as [r Hr]. exists r. split; [done|].
  apply (C90_single_odd_noticed true separate multiplier_libstdcxx o3 1 Single r); [reflexivity|set_solver|exact I|reflexivity|exact stdcxx_ok|done|done|cbn; lia|cbn; lia|exact Hr].
Qed.
Definition p3 : options := Options 3 false 1 0 4 0 true "pseudodynamic" 1 2 Examples2.never false.
Lemma p3_run {T} `{NumOps T} (A B : list T) : length A = 9 -> length B = 9 ->
  exists C m, run (computation p3 3 Pseudodynamic A B) ∅ = Ok (C, m) /\ length C = 9.
Proof.
  do 10 (destruct A as [|? A]; try done). do 10 (destruct B as [|? B]; try done). intros _ _.
  eexists _, _. split; [vm_compute; reflexivity|reflexivity].
Qed.
Lemma p3_ends : exists r, app_ends (main absdiff64 small64 p3 3 libstdcxx) (Ok r).
Proof.
  assert (H : app_always (fun _ => False) (main absdiff64 small64 p3 3 libstdcxx) (fun _ => True)).
  { destruct (main_dispatch absdiff64 small64 p3 3 libstdcxx Pseudodynamic eq_refl) as (B&HI&Hs); [set_solver|done|]. eapply same_always; [exact Hs|].
    cbn [app_always]. set (A := mat_A _ _) in *. assert (HA : length A = 3 * 3) by reflexivity.
    destruct (p3_run A B HA (proj1 HI)) as (C0&m0&Hr&HL).
    eapply must_mono; [|eapply (always_intro _ C0 m0 (fun C => length C = 9)); [apply ps_drf; [done|done|lia]|exact Hr|exact HL]].
    intros C m HC. cbn beta.
    destruct (report_checked absdiff64 small64 p3 libstdcxx A B C eq_refl HA (proj1 HI) (or_intror HC)) as (ok&_&Ha).
    eapply app_always_mono; [|exact Ha]. done. }
  destruct (app_always_ends _ _ _ H) as (r&He&_). by exists r.
Qed.
Example ex_C90_pseudodynamic_odd : exists r, app_ends (main absdiff64 small64 p3 3 libstdcxx) (Ok r) /\ r_check r = Some false.
Proof.
  destruct p3_ends as [r Hr]. exists r. split; [done|].
  apply (C90_pseudodynamic_odd_noticed true separate multiplier_libstdcxx p3 3 Pseudodynamic r); try done; [set_solver|exact stdcxx_ok].
Qed.
Example ex_C90_suites c : c ∈ all_cases -> ~ two_by_two_semi c -> passes libstdcxx under_test c.
Proof. exact (C90_suites_pass true separate _ c stdcxx_ok). Qed.
