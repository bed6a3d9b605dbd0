(** Word arithmetic without wrap-around is unbounded arithmetic: loops, the naive
    kernels, the block kernels and the recursion. *)
From Coq Require Import FunctionalExtensionality.
From Verif Require Import LoopFacts Tools MNaive MWord.

(** ** Arithmetic *)
Lemma M64_pos : 0 < M64.
Proof. unfold M64. lia. Qed.
Lemma M64_Z : Z.of_nat M64 = (2 ^ 64)%Z.
Proof. unfold M64. rewrite Z2Nat.id; [done|]. lia. Qed.
Global Opaque M64.

Section Arith.
  Context (M : nat) (HM : 0 < M).
  Lemma wadd_small a b : a + b < M -> wadd M a b = a + b.
  Proof. apply Nat.mod_small. Qed.
  Lemma wmul_small a b : a * b < M -> wmul M a b = a * b.
  Proof. apply Nat.mod_small. Qed.
  Lemma wsub_small a b : b <= a -> a < M -> wsub M a b = a - b.
  Proof.
    intros Hb Ha. unfold wsub. rewrite (Nat.mod_small b) by lia.
    replace (a + (M - b)) with (a - b + 1 * M) by lia.
    rewrite Nat.mod_add by lia. apply Nat.mod_small. lia.
  Qed.
  Lemma wadd_mod_l a b : wadd M (a mod M) b = (a + b) mod M.
  Proof. apply Nat.add_mod_idemp_l. lia. Qed.
  Lemma wadd_mod_r a b : wadd M a (b mod M) = (a + b) mod M.
  Proof. apply Nat.add_mod_idemp_r. lia. Qed.
  Lemma wmul_mod_l a b : wmul M (a mod M) b = (a * b) mod M.
  Proof. apply Nat.mul_mod_idemp_l. lia. Qed.
  Lemma wmul_mod_r a b : wmul M a (b mod M) = (a * b) mod M.
  Proof. apply Nat.mul_mod_idemp_r. lia. Qed.
  Lemma wadd_lt a b : wadd M a b < M.
  Proof. apply Nat.mod_upper_bound. lia. Qed.
  Lemma wmul_lt a b : wmul M a b < M.
  Proof. apply Nat.mod_upper_bound. lia. Qed.

  (** ** Loops *)
  Lemma wrng_fuel_eq fuel cur hi st :
    0 < st -> hi + st <= M -> hi - cur < fuel -> wrng_fuel M fuel cur hi st = (rng cur hi st, true).
  Proof.
    intros Hst Hh. revert cur. induction fuel as [|f IH]; intros cur Hf; [lia|].
    cbn [wrng_fuel]. destruct (cur <? hi) eqn:E; rewrite ?Nat.ltb_lt, ?Nat.ltb_ge in E.
    - rewrite wadd_small by lia. rewrite IH by lia. cbn. by rewrite (rng_cons cur).
    - by rewrite rng_nil by lia.
  Qed.
  Lemma wrng_eq lo hi st : 0 < st -> hi + st <= M -> wrng M lo hi st = (rng lo hi st, true).
  Proof. intros. apply wrng_fuel_eq; lia. Qed.

  Context {T : Type}.
  Lemma pbind_eq {X Y} (p p' : prog T X) (f g : X -> prog T Y) :
    p = p' -> (forall x, f x = g x) -> pbind f p = pbind g p'.
  Proof. intros -> E. by rewrite (functional_extensionality f g E). Qed.
  Lemma pbind_ret_r {X} (p : prog T X) : pbind (fun x => Ret x) p = p.
  Proof.
    induction p; cbn; try done.
    - f_equal. by apply functional_extensionality.
    - f_equal. by apply functional_extensionality.
    - by rewrite IHp.
    - by rewrite IHp3.
  Qed.
  Lemma foldP_eq {X S} (l : list X) (f g : X -> S -> prog T S) s :
    (forall i s, i ∈ l -> f i s = g i s) -> foldP l f s = foldP l g s.
  Proof.
    revert s. induction l as [|i l IH]; intros s E; [done|]. cbn.
    apply pbind_eq; [apply E; by left|]. intros x. apply IH. intros. apply E. by right.
  Qed.
  Lemma parL_eq {X} (l : list X) (f g : X -> prog T unit) :
    (forall i, i ∈ l -> f i = g i) -> parL l f = parL l g.
  Proof.
    induction l as [|i l IH]; intros E; [done|]. cbn. rewrite E by (by left).
    rewrite IH; [done|]. intros. apply E. by right.
  Qed.
  Lemma pcatch_eq {X} e (h h' p p' : prog T X) : h = h' -> p = p' -> pcatch e h p = pcatch e h' p'.
  Proof. by intros -> ->. Qed.
  Lemma forW_eq {S} lo hi st (f g : nat -> S -> prog T S) s :
    hi + st <= M -> (forall i s, lo <= i < hi -> f i s = g i s) -> forW M lo hi st f s = forS lo hi st g s.
  Proof.
    intros Hh E. unfold forW, forS. destruct (lo <? hi) eqn:E1; cbn [andb].
    - destruct (st =? 0) eqn:E2.
      + apply Nat.ltb_lt in E1. rewrite E by lia. done.
      + apply Nat.eqb_neq in E2. rewrite wrng_eq by lia. cbn. rewrite pbind_ret_r.
        apply foldP_eq. intros i s' Hi. apply E. apply rng_bounds in Hi. lia.
    - rewrite rng_nil by (by apply Nat.ltb_ge). unfold wrng. cbn [wrng_fuel]. by rewrite E1.
  Qed.
  Lemma forPW_eq lo hi st (f g : nat -> prog T unit) :
    hi + st <= M -> (forall i, lo <= i < hi -> f i = g i) -> forPW M lo hi st f = forP lo hi st g.
  Proof. intros Hh E. apply forW_eq; [done|]. intros. by apply E. Qed.
  Lemma parW_eq lo hi st (f g : nat -> prog T unit) :
    0 < st -> hi + st <= M -> (forall i, lo <= i < hi -> f i = g i) -> parW M lo hi st f = parL (rng lo hi st) g.
  Proof.
    intros Hst Hh E. unfold parW. rewrite wrng_eq by lia. cbn. apply parL_eq.
    intros i Hi. apply E. apply rng_bounds in Hi. lia.
  Qed.
End Arith.

(** Wrapped expressions are congruent to the unbounded ones; if the value of the
    unbounded expression fits, they are equal. *)
Definition weq (M a b : nat) : Prop := a mod M = b mod M.
Section Weq.
  Context (M : nat) (HM : 0 < M).
  Lemma weq_refl a : weq M a a. Proof. done. Qed.
  Lemma weq_wadd a b a' b' : weq M a a' -> weq M b b' -> weq M (wadd M a b) (a' + b').
  Proof.
    unfold weq, wadd. intros Ha Hb. rewrite Nat.mod_mod by lia. rewrite (Nat.add_mod a), (Nat.add_mod a') by lia.
    by rewrite Ha, Hb.
  Qed.
  Lemma weq_add a b a' b' : weq M a a' -> weq M b b' -> weq M (a + b) (a' + b').
  Proof. unfold weq. intros Ha Hb. rewrite (Nat.add_mod a), (Nat.add_mod a') by lia. by rewrite Ha, Hb. Qed.
  Lemma weq_wmul a b a' b' : weq M a a' -> weq M b b' -> weq M (wmul M a b) (a' * b').
  Proof.
    unfold weq, wmul. intros Ha Hb. rewrite Nat.mod_mod by lia. rewrite (Nat.mul_mod a), (Nat.mul_mod a') by lia.
    by rewrite Ha, Hb.
  Qed.
  Lemma wadd_eq a b e : weq M (wadd M a b) e -> e < M -> wadd M a b = e.
  Proof. unfold weq. intros E He. rewrite !Nat.mod_small in E; [done..|by apply wadd_lt]. Qed.
  Lemma wmul_eq a b e : weq M (wmul M a b) e -> e < M -> wmul M a b = e.
  Proof. unfold weq. intros E He. rewrite !Nat.mod_small in E; [done..|by apply wmul_lt]. Qed.
End Weq.
Ltac wcong :=
  lazymatch goal with
  | |- weq ?M (wadd ?M _ _) _ => apply weq_wadd; [lia|wcong|wcong]
  | |- weq ?M (wmul ?M _ _) _ => apply weq_wmul; [lia|wcong|wcong]
  | |- weq _ _ _ => apply weq_refl
  end.
(** a word expression equals the same expression on nat; the bound is left *)
Ltac wexp :=
  lazymatch goal with
  | |- wadd ?M _ _ = _ => apply wadd_eq; [lia|wcong|]
  | |- wmul ?M _ _ = _ => apply wmul_eq; [lia|wcong|]
  | |- _ => reflexivity
  end.

(** [i * m + j] below [n * m] *)
Lemma idx_lt i n j m : i < n -> j < m -> i * m + j < n * m.
Proof. intros. nia. Qed.

Section Naive.
  Context (M : nat) {T : Type} `{NumOps T}.
  Lemma naive_w_eq N (A B : list T) : N * N < M -> naive_matrix_multiply_w M N A B = naive_matrix_multiply N A B.
  Proof.
    intros HN. destruct (decide (N = 0)) as [->|Hz].
    { unfold naive_matrix_multiply_w, naive_matrix_multiply, wmul. rewrite Nat.mod_small by lia.
      unfold parW. by rewrite wrng_eq by lia. }
    assert (N + 1 <= M) by nia. assert (0 < M) by lia.
    unfold naive_matrix_multiply_w, naive_matrix_multiply. rewrite wmul_small by done.
    apply pbind_eq; [done|intros _]. apply pbind_eq; [|done].
    apply parW_eq; [lia..|]. intros i Hi. unfold naive_row_w, naive_row. apply pcatch_eq; [done|].
    apply forPW_eq; [lia..|]. intros j Hj.
    pose proof (idx_lt i N j N). 
    apply pbind_eq; [|intros c; f_equal; wexp; lia].
    apply forW_eq; [lia..|]. intros k acc Hk.
    pose proof (idx_lt i N k N). pose proof (idx_lt k N j N).
    apply pbind_eq; [f_equal; wexp; lia|intros a].
    apply pbind_eq; [f_equal; wexp; lia|done].
  Qed.
End Naive.

Lemma idx_sq i j n M : n * n < M -> i < n -> j < n -> i * n + j < M.
Proof. intros. pose proof (idx_lt i n j n). lia. Qed.
Ltac wside := first [lia | eapply idx_sq; [eassumption|lia|lia] | nia].
Ltac wstep :=
  lazymatch goal with
  | |- pbind _ _ = pbind _ _ => apply pbind_eq; [|intros ?]
  | |- pcatch _ _ _ = pcatch _ _ _ => apply pcatch_eq; [try reflexivity|]
  | |- forW _ _ _ _ _ _ = forS _ _ _ _ _ => apply forW_eq; [wside|wside|intros ? ? ?] || (apply forW_eq; [wside|intros ? ? ?])
  | |- forPW _ _ _ _ _ = forP _ _ _ _ => apply forPW_eq; [wside|wside|intros ? ?] || (apply forPW_eq; [wside|intros ? ?])
  | |- vget _ _ = vget _ _ => f_equal; wexp; wside
  | |- vat _ _ = vat _ _ => f_equal; wexp; wside
  | |- vset _ _ _ = vset _ _ _ => f_equal; wexp; wside
  | |- vset_at _ _ _ = vset_at _ _ _ => f_equal; wexp; wside
  | |- vadd _ _ _ = vadd _ _ _ => f_equal; wexp; wside
  | |- wr _ _ _ = wr _ _ _ => f_equal; wexp; wside
  | |- wr_at _ _ _ = wr_at _ _ _ => f_equal; wexp; wside
  | |- rd _ _ = rd _ _ => f_equal; wexp; wside
  | |- rd_at _ _ = rd_at _ _ => f_equal; wexp; wside
  | |- Ret _ = Ret _ => reflexivity
  | |- Err _ = Err _ => reflexivity
  | |- valloc _ _ _ = valloc _ _ _ => f_equal; wexp; wside
  | |- vread _ _ = vread _ _ => f_equal; wexp; wside
  end.

Section Kernels.
  Context (M : nat) {T : Type} `{NumOps T}.
  Lemma naive_transposed_w_eq N (A B : list T) :
    N * N < M -> naive_matrix_multiply_transposed_w M N A B = naive_matrix_multiply_transposed N A B.
  Proof.
    intros HN. assert (N <= N * N) by nia.
    unfold naive_matrix_multiply_transposed_w, naive_matrix_multiply_transposed. rewrite wmul_small by done.
    apply pbind_eq; [done|intros _]. apply pbind_eq; [|done].
    apply parW_eq; [lia..|]. intros i Hi. unfold naive_row_transposed_w, naive_row_transposed.
    repeat wstep.
  Qed.

  Lemma kernel_w_eq (A B C : list T) N x y n :
    N * N < M -> x + n <= N -> y + n <= N -> kernel_w M A B C N x y n = kernel A B C N x y n.
  Proof.
    intros HN Hx Hy. assert (N <= N * N) by nia. assert (n * n < M) by nia.
    unfold kernel_w, kernel. wstep; [|done]. wstep. wstep. destruct s0 as [C' b]. cbn [fst snd].
    destruct b; [done|]. repeat wstep.
  Qed.

  Lemma kernel_transposed_w_eq (A B C : list T) N x y n :
    N * N < M -> x + n <= N -> y + n <= N -> kernel_transposed_w M A B C N x y n = kernel_transposed A B C N x y n.
  Proof.
    intros HN Hx Hy. assert (N <= N * N) by nia. assert (n * n < M) by nia.
    unfold kernel_transposed_w, kernel_transposed. repeat wstep.
  Qed.
End Kernels.

(** Nothing computed by the recursive component on an N x N matrix wraps. *)
Definition rec_fits (M N : nat) (transposed : bool) (block_input : nat) : Prop :=
  N * N < M /\ (transposed = true -> block_input <> 0 -> (N + 4) * (N + block_input) < M).

Section Recursion.
  Context (M : nat) {T : Type} `{NumOps T}.

  Lemma ktb_copy_w_eq (V s : list T) N x kb n bi :
    (N + 4) * (N + bi) < M -> x + n <= N -> kb < N ->
    ktb_copy_w M V s N x kb n bi = ktb_copy V s N x kb n bi.
  Proof.
    intros HM Hx Hk. assert (N * N + N * bi + 4 * N + 4 * bi < M) by lia.
    unfold ktb_copy_w, ktb_copy. wstep. wstep. assert ((x + i) * N + kb < N * N) by (apply idx_lt; lia).
    assert (i * bi + i0 < n * bi) by (apply idx_lt; lia). assert (n * bi <= N * bi) by nia. repeat wstep.
  Qed.

  Lemma ktb_block_w_eq (As Bs C : list T) N n bi i j :
    (N + 4) * (N + bi) < M -> n <= N -> i < n -> j < n ->
    ktb_block_w M As Bs n bi i j C = ktb_block As Bs n bi i j C.
  Proof.
    intros HM Hn Hi Hj. assert (N * N + N * bi + 4 * N + 4 * bi < M) by lia.
    assert (n * bi <= N * bi) by nia. assert (n * n <= N * N) by nia.
    unfold ktb_block_w, ktb_block. wstep.
    - wstep. unfold ktb_inner_w, ktb_inner. destruct s as [[[[[[[? ?] ?] ?] ?] ?] ?] ?].
      assert (forall a q, a < n -> q < 4 -> (a + q) * bi + i0 < M).
      { intros a q Ha Hq. assert ((a + q) * bi + i0 < (n + 3) * bi) by (apply idx_lt; lia). lia. }
      repeat wstep.
    - destruct x as [[[[[[[? ?] ?] ?] ?] ?] ?] ?].
      assert (forall q r, q < 4 -> r < 2 -> (i + q) * n + (j + r) < M).
      { intros q r Hq Hr. assert ((i + q) * n <= (n + 2) * n) by (apply Nat.mul_le_mono_r; lia). nia. }
      repeat wstep.
  Qed.

  Lemma ktb_w_eq (A B C : list T) N x y n bi :
    (N + 4) * (N + bi) < M -> x + n <= N -> y + n <= N ->
    kernel_transposed_blocked_w M A B C N x y n bi = kernel_transposed_blocked A B C N x y n bi.
  Proof.
    intros HM Hx Hy. assert (N * N + N * bi + 4 * N + 4 * bi < M) by lia. assert (bi * n <= N * bi) by nia.
    unfold kernel_transposed_blocked_w, kernel_transposed_blocked. rewrite wmul_small by lia.
    wstep; [|done]. wstep. destruct s as [[? ?] ?].
    wstep; [apply ktb_copy_w_eq; lia|]. wstep; [apply ktb_copy_w_eq; lia|].
    wstep; [|done]. wstep. wstep. eapply ktb_block_w_eq; [exact HM|lia..].
  Qed.

  Lemma calculate_submatrix_w_eq N (A B : list T) tr bi x y n :
    rec_fits M N tr bi -> x + n <= N -> y + n <= N ->
    calculate_submatrix_w M N A B tr bi x y n = calculate_submatrix N A B tr bi x y n.
  Proof.
    intros [HN Hb] Hx Hy. unfold calculate_submatrix_w, calculate_submatrix.
    rewrite wmul_small by nia. destruct tr; cbn [negb]; [|by apply kernel_w_eq].
    destruct (bi =? 0) eqn:E; cbn [orb]; [by apply kernel_transposed_w_eq|].
    destruct (n <? 4); [by apply kernel_transposed_w_eq|].
    apply Nat.eqb_neq in E. apply ktb_w_eq; auto.
  Qed.

  Context (N : nat) (A B : list T) (tr : bool) (bi br : nat) (Hfit : rec_fits M N tr bi).

  Lemma extract_w_eq (C : arr) (s : list T) ox oy n :
    2 * n * (2 * n) < M -> ox <= n -> oy <= n ->
    extract_submatrix_w M C s ox oy n = extract_submatrix C s ox oy n.
  Proof using.
    intros HM Hx Hy. unfold extract_submatrix_w, extract_submatrix. wstep.
    destruct (decide (n = 0)) as [->|Hn].
    { apply forPW_eq; [lia..|]. intros. lia. }
    assert (2 * n < M) by (pose proof (Nat.mul_le_mono_l 1 (2 * n) (2 * n)); lia). rewrite (wmul_small M 2) by lia. cbv zeta.
    assert (n * n < M) by nia. repeat wstep.
  Qed.

  Lemma dist_w_eq fuel path x y n :
    x + n <= N -> y + n <= N -> dist_w M N A B tr bi br fuel path x y n = dist N A B tr bi br fuel path x y n.
  Proof using Hfit.
    revert path x y n. induction fuel as [|f IH]; intros path x y n Hx Hy; cbn [dist_w dist].
    { by rewrite calculate_submatrix_w_eq. }
    destruct (n <=? br); [by rewrite calculate_submatrix_w_eq|].
    destruct Hfit as [HN _]. assert (n * n <= N * N) by nia.
    rewrite (wmul_small M n n) by lia. wstep; [done|].
    pose proof (Nat.div_mod n 2 ltac:(lia)). set (h := n / 2) in *.
    assert (2 * h * (2 * h) <= n * n) by nia.
    apply parL_eq. intros [[q ox] oy] Hq.
    assert (ox <= h /\ oy <= h) as [? ?].
    { repeat (apply elem_of_cons in Hq as [Hq|Hq]; [injection Hq as -> -> ->; lia|]). by apply elem_of_nil in Hq. }
    assert (N <= N * N) by nia.
    rewrite !wadd_small by lia. rewrite wmul_small by nia.
    wstep; [apply IH; lia|]. wstep; [done|]. apply extract_w_eq; lia.
  Qed.

  Lemma distribute_w_eq path x y n :
    x + n <= N -> y + n <= N ->
    distribute_recursively_w M N A B tr bi br path x y n = distribute_recursively N A B tr bi br path x y n.
  Proof using Hfit.
    intros. unfold distribute_recursively_w, distribute_recursively. rewrite dist_w_eq by done.
    destruct Hfit as [HN _]. rewrite wmul_small by nia. done.
  Qed.

  Lemma single_w_eq reps :
    reps < M -> single_matrix_multiply_w M N A B tr bi br reps = single_matrix_multiply N A B tr bi br reps.
  Proof using Hfit.
    intros Hr. unfold single_matrix_multiply_w, single_matrix_multiply. pose proof Hfit as [HN _].
    rewrite wmul_small by lia. wstep. by rewrite distribute_w_eq.
  Qed.
End Recursion.

From Verif Require Import SpecSched PSchedule.
Section Static.
  Context (M : nat) {T : Type} `{NumOps T}.
  Context (N : nat) (A B : list T) (tr : bool) (bi br : nat) (Hfit : rec_fits M N tr bi).

  Lemma insert_w_eq (C : arr) (s : list T) x y n :
    x + n <= N -> y + n <= N -> insert_submatrix_w M N C s x y n = insert_submatrix N C s x y n.
  Proof using Hfit.
    intros Hx Hy. destruct Hfit as [HN _]. assert (N <= N * N) by nia. assert (n * n < M) by nia.
    unfold insert_submatrix_w, insert_submatrix. repeat wstep.
  Qed.
  Lemma static_w_eq mws maxd rel L reps :
    (Z.of_nat N * Z.of_nat N < 2 ^ 62)%Z -> (0 <= mws)%Z -> reps < M ->
    static_improved_matrix_multiply_w M N A B tr bi br mws maxd rel L reps =
    static_improved_matrix_multiply N A B tr bi br mws maxd rel L reps.
  Proof using Hfit.
    intros HN2 Hm Hr. unfold static_improved_matrix_multiply_w, static_improved_matrix_multiply.
    destruct (create_schedule _ _ _ _ _ _) as [all|] eqn:E; [|done].
    apply schedule_disjoint in E as [Hin _]; [|lia..].
    pose proof Hfit as [HN _]. rewrite wmul_small by lia. wstep; [done|]. wstep; [|done]. wstep.
    apply parL_eq. intros [k w] (q&v&Heq&Hw)%elem_of_lookup_imap. injection Heq as -> ->.
    apply (Forall_lookup_1 _ _ _ _ Hin) in Hw. unfold inside in Hw. cbn [fst snd]. unfold package_task_w, package_task.
    wstep; [apply distribute_w_eq; [done|lia..]|]. apply insert_w_eq; lia.
  Qed.
End Static.
