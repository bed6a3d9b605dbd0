(** Word arithmetic at the level of the application. *)
From Coq Require Import FunctionalExtensionality.
From Verif Require Import LoopFacts Tools SpecTiled SpecApp SpecWord PWord PWord2 PWord3 PWord4 MWordApp.

Section Eq.
  Context {T : Type} `{NumOps T} (absdiff : T -> T -> T) (small : T -> bool).
  Context (o : options) (G : nat) (gen : nat -> T).
  Notation N := (o_n o).
  Context (HN : N * N < M64).

  Lemma acall_eq {X R} (p p' : prog T X) (f g : X -> app T R) :
    p = p' -> (forall x, f x = g x) -> ACall p f = ACall p' g.
  Proof. intros -> E. by rewrite (functional_extensionality f g E). Qed.
  Lemma abind_eq {R S} (a a' : app T R) (f g : R -> app T S) :
    a = a' -> (forall x, f x = g x) -> abind a f = abind a' g.
  Proof. intros -> E. by rewrite (functional_extensionality f g E). Qed.
  Lemma NM : N <= N * N /\ 0 < M64.
  Proof. clear -HN. split; [nia|lia]. Qed.

  Lemma print_sq_w_eq m : print_matrix_sq_w M64 N m = print_matrix_sq (T := T) N m.
  Proof.
    pose proof NM. unfold print_matrix_sq_w, print_matrix_sq, print_grid_w, print_grid.
    repeat wstep.
  Qed.
  Lemma print_tr_w_eq m : print_matrix_transposed_sq_w M64 N m = print_matrix_transposed_sq (T := T) N m.
  Proof.
    pose proof NM. unfold print_matrix_transposed_sq_w, print_matrix_transposed_sq, print_grid_w, print_grid.
    repeat wstep.
  Qed.
  Lemma build_B_w_eq t : build_B_w M64 o t = build_B (T := T) o t.
  Proof.
    pose proof NM. unfold build_B_w, build_B. rewrite wmul_small by done. wstep. wstep.
    f_equal. destruct t; wexp; wside.
  Qed.
  Lemma finish_w_eq g : finish_w M64 absdiff small o g = finish absdiff small o g.
  Proof.
    unfold finish_w, finish. destruct (_ && _); [|done].
    apply acall_eq. { destruct (negb _); [by apply naive_w_eq|by apply naive_transposed_w_eq]. }
    intros Cref. destruct (2 <=? o_verbose o); [|done].
    apply acall_eq; [apply print_sq_w_eq|intros _].
    apply acall_eq; [|intros; by rewrite print_sq_w_eq].
    pose proof NM. unfold diff_matrix_w, diff_matrix. rewrite wmul_small by done. wstep. done.
  Qed.
  Lemma hpx_end_w_eq A B C : hpx_end_w M64 o A B C = hpx_end (T := T) o A B C.
  Proof. unfold hpx_end_w, hpx_end, when. destruct (2 <=? _); [|done]. by rewrite print_sq_w_eq. Qed.

  Context (Hr : o_repetitions o < M64).
  Context (Hfit : forall v, (o_algorithm o, v) ∈ accepted -> no_wrap o v).
  Lemma Hf name v : (o_algorithm o =? name)%string = true -> (name, v) ∈ accepted -> no_wrap o v.
  Proof. intros E%String.eqb_eq. rewrite <- E. apply Hfit. Qed.

  Lemma toM (a : nat) (z : Z) : Z.of_nat a = z -> (z < 2 ^ 64)%Z -> a < M64.
  Proof. clear. intros <- E. apply Nat2Z.inj_lt. by rewrite M64_Z. Qed.
  Ltac tom := eapply toM; [|eassumption]; lia.

  Lemma rec_fits_of : (o_transposed o = true -> Z.of_nat (o_block_input o) <> 0%Z ->
    (Z.of_nat N + 4) * (Z.of_nat N + Z.of_nat (o_block_input o)) < 2 ^ 64)%Z ->
    rec_fits M64 N (o_transposed o) (o_block_input o).
  Proof. intros E. split; [done|]. intros H1 H2. specialize (E H1 ltac:(lia)). tom. Qed.

  Lemma app_single_w_eq A B : no_wrap o Single -> app_single_w M64 o A B = app_single (T := T) o A B.
  Proof.
    intros [_ E]. pose proof NM. unfold app_single_w, app_single. wstep.
    apply distribute_w_eq; [by apply rec_fits_of|lia..].
  Qed.
  Lemma shipped_le S : 420 <= S ->
    (L3_X shipped <= S /\ L3_Y shipped <= S /\ L3_K shipped <= S) /\ (L2_X shipped <= S /\ L2_Y shipped <= S /\ L2_K shipped <= S) /\
    (L1_X shipped <= S /\ L1_Y shipped <= S /\ L1_K shipped <= S).
  Proof. clear. cbn. lia. Qed.
  Lemma kt_shipped_le S : 512 <= S ->
    (L3_X kt_shipped <= S /\ L3_Y kt_shipped <= S /\ L3_K kt_shipped <= S) /\ (L2_X kt_shipped <= S /\ L2_Y kt_shipped <= S /\ L2_K kt_shipped <= S) /\
    (L1_X kt_shipped <= S /\ L1_Y kt_shipped <= S /\ L1_K kt_shipped <= S).
  Proof. clear. cbn. lia. Qed.

  Lemma combined_M A B : no_wrap o Combined ->
    combined_matrix_multiply_w M64 shipped N A B (o_repetitions o) = combined_matrix_multiply (T := T) shipped N A B (o_repetitions o).
  Proof.
    intros E. destruct (shipped_le (N + 420) ltac:(lia)) as (?&?&?).
    apply (combined_w_eq M64 shipped (N + 420)); try assumption.
    - unfold no_wrap in E. tom.
    - cbn. lia.
    - cbn [L3_X L3_Y L3_K shipped]. apply (toM _ (420 * 256 * 256)%Z); lia.
    - cbn. lia.
    - cbn. lia.
    - cbn. lia.
  Qed.
  Lemma tiled_M A B : no_wrap o KernelTiled ->
    kernel_tiled_matrix_multiply_w M64 shipped N A B (o_transposed o) (o_repetitions o) =
    kernel_tiled_matrix_multiply (T := T) shipped N A B (o_transposed o) (o_repetitions o).
  Proof.
    intros E. destruct (shipped_le (N + 420) ltac:(lia)) as (?&?&?).
    apply (kernel_tiled_w_eq M64 shipped (N + 420)); try assumption.
    - unfold no_wrap in E. tom.
    - cbn. lia.
    - cbn. lia.
    - cbn. lia.
    - cbn. lia.
  Qed.
  Lemma ktest_M A B : no_wrap o KernelTest ->
    kernel_test_matrix_multiply_w M64 kt_shipped kt_padding N A B (o_transposed o) (o_repetitions o) =
    kernel_test_matrix_multiply (T := T) kt_shipped kt_padding N A B (o_transposed o) (o_repetitions o).
  Proof.
    intros E. destruct (kt_shipped_le (N + 512) ltac:(lia)) as (?&?&?).
    apply (kernel_test_w_eq M64 kt_shipped (N + 512)); try assumption.
    - unfold no_wrap in E. tom.
    - cbn. lia.
    - unfold kt_padding. lia.
  Qed.

  Lemma dispatch_w_eq A B : hpx_dispatch_w M64 o G A B = hpx_dispatch (T := T) o G A B.
  Proof.
    unfold hpx_dispatch_w, hpx_dispatch.
    assert (forall C, hpx_end_w M64 o A B C = hpx_end (T := T) o A B C) as HE by apply hpx_end_w_eq.
    destruct (_ =? "single")%string eqn:E1.
    { apply acall_eq; [|done]. apply app_single_w_eq. apply (Hf _ _ E1). unfold accepted. set_solver. }
    destruct (_ =? "pseudodynamic")%string eqn:E2.
    { apply acall_eq; [|done]. assert (no_wrap o Pseudodynamic) as (F1&F2&F3) by (apply (Hf _ _ E2); unfold accepted; set_solver).
      apply static_w_eq; [by apply rec_fits_of|exact F1|exact F2|done]. }
    destruct (_ =? "algorithms")%string eqn:E3.
    { destruct (negb _); [done|]. apply acall_eq; [|done]. apply algorithms_w_eq.
      assert (no_wrap o Algorithms) as E by (apply (Hf _ _ E3); unfold accepted; set_solver). unfold no_wrap in E.
      unfold alg_fits. tom. }
    destruct (_ =? "looped")%string eqn:E4.
    { destruct (negb _); [done|]. apply acall_eq; [|done]. apply looped_w_eq.
      assert (no_wrap o Looped) as (F1&F2&F3&F4) by (apply (Hf _ _ E4); unfold accepted; set_solver).
      unfold looped_fits. split; [eapply toM; [|exact F1]; lia|]. split; [eapply toM; [|exact F2]; lia|]. split; [eapply toM; [|exact F3]; lia|eapply toM; [|exact F4]; lia]. }
    destruct (_ =? "semi")%string eqn:E5.
    { destruct (negb _); [done|]. apply acall_eq; [|done]. apply semi_w_eq.
      assert (no_wrap o Semi) as E by (apply (Hf _ _ E5); unfold accepted; set_solver). unfold no_wrap in E.
      unfold semi_fits. tom. }
    destruct (_ =? "combined")%string eqn:E6.
    { destruct (o_transposed o); [done|]. apply acall_eq; [|done]. apply combined_M.
      apply (Hf _ _ E6); unfold accepted; set_solver. }
    destruct (_ =? "proposal")%string eqn:E7; [|done]. by apply acall_eq.
  Qed.
  Theorem main_w_eq : main_w M64 absdiff small o G gen = main absdiff small o G gen.
  Proof.
    unfold main_w, main. apply abind_eq.
    - unfold hpx_main_w, hpx_main. destruct (o_help o); [done|]. rewrite wmul_small by done.
      rewrite print_sq_w_eq. unfold when.
      assert (HH : forall X : list T,
        ACall (build_B_w M64 o (o_transposed o)) (fun B => if 2 <=? o_verbose o then
          ACall (if negb (o_transposed o) then print_matrix_sq_w M64 N B else print_matrix_transposed_sq_w M64 N B)
            (fun _ => hpx_dispatch_w M64 o G X B) else hpx_dispatch_w M64 o G X B) =
        ACall (build_B o (o_transposed o)) (fun B => if 2 <=? o_verbose o then
          ACall (if negb (o_transposed o) then print_matrix_sq N B else print_matrix_transposed_sq N B)
            (fun _ => hpx_dispatch o G X B) else hpx_dispatch o G X B)).
      { intros X. apply acall_eq; [apply build_B_w_eq|]. intros B. destruct (2 <=? o_verbose o); [|apply dispatch_w_eq].
        apply acall_eq; [destruct (negb _); [apply print_sq_w_eq|apply print_tr_w_eq]|]. intros. apply dispatch_w_eq. }
      rewrite HH. done.
    - intros g. cbv zeta.
      destruct (_ =? "kernel_test")%string eqn:E1.
      { apply acall_eq; [apply ktest_M; apply (Hf _ _ E1); unfold accepted; set_solver|].
        intros C. rewrite print_sq_w_eq, finish_w_eq. done. }
      destruct (_ =? "kernel_tiled")%string eqn:E2.
      { apply acall_eq; [apply tiled_M; apply (Hf _ _ E2); unfold accepted; set_solver|].
        intros C. rewrite print_sq_w_eq, finish_w_eq. done. }
      destruct (g_non_hpx g); [done|]. apply finish_w_eq.
  Qed.
End Eq.
