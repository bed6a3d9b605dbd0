(** src/variants/combined.cpp: every schedule, and the race on [first]. *)
From Verif Require Import Tools Tools2 MIter SpecIter PIter PIter2 PKernels PRecursive PLooped MTiled SpecTiled PTiled PTiled2 PTiled3 Erase.

Section ErMore.
  Context {T : Type} (F : loc).
  Lemma er_bind_skip {A} (f : A -> prog T A) (p q : prog T A) :
    er F A p q -> (forall a, er F A (f a) (Ret a)) -> er F A (pbind f p) q.
  Proof.
    intros He. revert f. induction He; intros f0 Hf; simpl; try (constructor; auto; done); auto.
  Qed.
End ErMore.

Section Combined.
  Context {T : Type} `{NumOps T}.
  Context (b : blocks) (Hok : blocks_ok b) (N : nat) (A B : list T) (HA : length A = N * N) (HB : length B = N * N).
  Notation LX := (L1_X b). Notation LY := (L1_Y b). Notation LK := (L1_K b).
  Notation nX := (nX b N). Notation nY := (nY b N). Notation nK := (nK b N).
  Notation X := (nX * LX). Notation Y := (nY * LY). Notation K := (nK * LK).
  Definition onlyC (l : loc) : Prop := l.1 = idCp.

  Lemma acc_l1_C x y k X' Y' (At Bt : list T) : acc_in (fun _ => False) onlyC (l1_kernel b X' Y' At Bt x y k).
  Proof.
    clear. unfold l1_kernel. apply acc_in_forS. intros x1 _ _ _. apply acc_in_forS. intros y1 _ _ _. unfold reg_block.
    apply acc_in_bind; [apply simple_acc, simple_forS; intros ? ?; apply simple_reg_inner|].
    intros [[[[[[[[[c0 c1] c2] c3] c4] c5] c6] c7] c8] c9].
    do 9 (apply acc_in_bind; [apply acc_add4; done|]; intros ?). apply acc_add4; done.
  Qed.
  Lemma acc_untile_C X' Y' : acc_in (fun _ => False) onlyC (untile_C (T := T) b N X' Y').
  Proof.
    clear. unfold untile_C. do 4 (apply acc_in_forS; intros ? ? _ _). case_match; [|done].
    apply acc_in_bind; [split; [by right|]; intros [[]|]; done|]. intros v. unfold vset_at. by case_match.
  Qed.
  Lemma acc_valloc_C n : acc_in (fun _ => False) onlyC (valloc (T := T) idCp n nzero).
  Proof. clear. apply acc_in_valloc; done. Qed.

  Lemma er_clear_first a : er idFirst unit (clear_first (T := T)) (Ret a).
  Proof.
    clear. destruct a. unfold clear_first. apply er_skip_rd. intros [|]; [|constructor]. apply er_skip_wr. constructor.
  Qed.
  Lemma er_C {Z} (p : prog T Z) : acc_in (fun _ => False) onlyC p -> er idFirst Z p p.
  Proof. clear. intros Hp. eapply er_refl; [exact Hp|]. intros l [[]|Hl] ->. done. Qed.

  Definition rest0 (At Bt : list T) (reps : nat) : prog T (list T) :=
    valloc idCp (X * Y) nzero ;;; forP 0 reps 1 (fun _ => iter0 b nX nY nK At Bt) ;;; untile_C b N X Y.
  Definition flag_body (At Bt : list T) : prog T unit :=
    let! p := ofres (combined_policy b) in
    Wr idFirst (VF true) (fun ok : bool => if ok then Ret tt else Err EDangling) ;;;
    iterate_indices 3 p [0; 0; 0] [X; Y; K] (combined_callback b X Y At Bt).
  Definition rest1 (At Bt : list T) (reps : nat) : prog T (list T) :=
    valloc idCp (X * Y) nzero ;;; forP 0 reps 1 (fun _ => flag_body At Bt) ;;; untile_C b N X Y.
  Lemma er_callback At Bt p : er idFirst unit (combined_callback b X Y At Bt p) (callback0 b nX nY At Bt p).
  Proof.
    unfold combined_callback, callback0. do 3 (apply er_bind; [apply er_ofres|]; intros ?).
    apply er_bind_skip; [apply er_C, acc_l1_C|]. apply er_clear_first.
  Qed.
  Lemma er_flag_body At Bt : er idFirst unit (flag_body At Bt) (iter0 b nX nY nK At Bt).
  Proof.
    unfold flag_body. rewrite policy_eq. cbn [ofres pbind]. apply er_skip_wr. cbn [pbind].
    unfold iter0, iterate_indices. cbn [pconf]. apply er_iterate. intros p. apply er_callback.
  Qed.
  Lemma er_rest At Bt reps : er idFirst (list T) (rest1 At Bt reps) (rest0 At Bt reps).
  Proof.
    unfold rest1, rest0. apply er_bind; [apply er_C, acc_valloc_C|]. intros _. apply er_bind; [|intros _; apply er_C, acc_untile_C].
    apply er_forS. intros i _. apply er_flag_body.
  Qed.

  Definition tiledA (At : list T) : Prop := forall bx bk x k, bx < nX -> bk < nK -> x < LX -> k < LK ->
      At !! (LX * LK * (bk * nX + bx) + k * LX + x) = Some (pent N A (bx * LX + x) (bk * LK + k)).
  Definition tiledB (Bt : list T) : Prop := forall by' bk y k, by' < nY -> bk < nK -> y < LY -> k < LK ->
      Bt !! (LY * LK * (bk * nY + by') + k * LY + y) = Some (pent N B (bk * LK + k) (by' * LY + y)).
  Lemma combined_eq reps : exists At Bt, tiledA At /\ tiledB Bt /\
    combined_matrix_multiply b N A B reps = Alloc idFirst (VF true) (rest1 At Bt reps).
  Proof.
    destruct (prepare b Hok N A B HA HB) as (Ap&Bp&At&Bt&E1&E2&LA&E3&E4&H1&H2). exists At, Bt. split_and!; [exact H1|exact H2|].
    destruct (transpose_untiled_ok X K Ap LA) as [U E5].
    unfold combined_matrix_multiply. rewrite verify_ok by done. cbn [negb]. pose proof (sizes b Hok N) as (->&->&->).
    rewrite E1. cbn [pbind]. rewrite E2. cbn [pbind]. rewrite E5. cbn [pbind]. rewrite E3. cbn [pbind]. rewrite E4. cbn [pbind]. done.
  Qed.
  Lemma rest0_must At Bt reps : tiledA At -> tiledB Bt ->
    must (fun _ => False) (fun C _ => is_matrix N (tiled_entry_rep b reps N A B) C) (rest0 At Bt reps) ∅.
  Proof.
    intros HAt HBt. pose proof (pos1 b Hok) as (?&?&?). pose proof (sizes_eq b Hok N) as (E1&E2&E3). pose proof (sizes_ge b Hok N) as (?&?&?).
    destruct (run_valloc idCp (X * Y) (nzero : T) ∅) as (m1&Hr1&H1'&_).
    destruct (iters_run b Hok nX nY nK At Bt _ _ HAt HBt _ _ _ E1 E2 E3 reps m1 H1') as (m2&Hr2&H2').
    destruct (run_untile b nX nY N ltac:(done) ltac:(done) ltac:(done) ltac:(done) (tiled_entry_rep b reps N A B) m2) as (C&Hr3&HC).
    { intros i j Hi Hj. rewrite H2' by lia. do 2 f_equal. unfold tiled_entry_rep. 
      replace (round_up N (L3_K b) / LK) with nK; [done|]. unfold round_up. rewrite <- E3, Nat.div_mul by lia. done. }
    eapply drf_must.
    - unfold rest0. apply drf_bind; [apply drf_valloc|]. intros _. apply drf_bind.
      + apply drf_forS. intros i _ _ _. by apply (iter0_drf b Hok nX nY nK _ _ _ _ _ E1 E2 E3).
      + intros _. apply nopar_drf, nopar_untile.
    - unfold rest0. rewrite run_bind, Hr1, run_bind, Hr2. exact Hr3.
    - exact HC.
  Qed.
  Lemma combined_must reps : must (fun l => l = idFirst) (fun C _ => is_matrix N (tiled_entry_rep b reps N A B) C)
    (combined_matrix_multiply b N A B reps) ∅.
  Proof.
    destruct (combined_eq reps) as (At&Bt&HAt&HBt&->). apply must_step.
    - intros l [].
    - eexists _, _. constructor.
    - intros p' m' Hs. inversion Hs; subst.
      assert (Hw : forall (tol tol' : loc -> Prop) (Q : list T -> mem T -> Prop) p m, (forall l, tol l -> tol' l) -> must tol Q p m -> must tol' Q p m).
      { intros tol tol' Q p m Ht Hm. induction Hm as [a m Ha|p m Hr Hex _ IH]; [by apply must_ret|]. apply must_step; [auto|done|done]. }
      apply (Hw (fun l => False \/ l = idFirst)); [intros l [[]|?]; done|].
      apply (must_erase idFirst _ (fun C => is_matrix N (tiled_entry_rep b reps N A B) C) _ (rest0 At Bt reps) _ ∅).
      + by apply rest0_must.
      + apply er_rest.
      + split; [eexists; apply lookup_insert|]. intros l Hl. by rewrite lookup_insert_ne.
  Qed.
End Combined.

(** ** The race *)
Section Race.
  Context {T : Type}.
  Lemma step_bind {A B} (f : A -> prog T B) (p p' : prog T A) m m' : step A p m p' m' -> step B (pbind f p) m (pbind f p') m'.
  Proof. intros Hs. destruct Hs; simpl; by econstructor. Qed.
  Lemma steps_bind {A B} (f : A -> prog T B) (p p' : prog T A) m m' : steps A p m p' m' -> steps B (pbind f p) m (pbind f p') m'.
  Proof. induction 1; [constructor|]. econstructor; [by apply step_bind|done]. Qed.
  Lemma head_bind {A B} (f : A -> prog T B) (p : prog T A) l w : head p l w -> head (pbind f p) l w.
  Proof. by destruct p. Qed.
  Lemma races_bind {A B} (f : A -> prog T B) (p : prog T A) l : races p l -> races (pbind f p) l.
  Proof. by destruct p. Qed.

  (** Some schedule brings [p] to the point where it is about to access [l]. *)
  Definition touch {A} (p : prog T A) (m : mem T) (l : loc) (w : bool) (m' : mem T) : Prop :=
    exists p', steps A p m p' m' /\ head p' l w.
  Lemma acc_in_True {A} (p : prog T A) : acc_in (fun _ => True) (fun _ => True) p.
  Proof. induction p; simpl; auto. Qed.
  Lemma touch_bind {A B} (f : A -> prog T B) (p : prog T A) (m m' : mem T) l w : touch p m l w m' -> touch (pbind f p) m l w m'.
  Proof. intros (p'&Hs&Hh). eexists. split; [by apply steps_bind|by apply head_bind]. Qed.
  Lemma touch_after {A B} (f : A -> prog T B) (p : prog T A) (m m1 m' : mem T) (a : A) (l : loc) (w : bool) :
    steps A p m (Ret a) m1 -> touch (f a) m1 l w m' -> touch (pbind f p) m l w m'.
  Proof.
    intros H1 (p'&Hs&Hh). exists p'. split; [|done]. eapply steps_trans; [apply steps_bind; exact H1|]. exact Hs.
  Qed.
  Lemma touch_foldP {S X : Type} (x : X) (l' : list X) (f : X -> S -> prog T S) (s : S) (m m' : mem T) l w : touch (f x s) m l w m' -> touch (foldP (x :: l') f s) m l w m'.
  Proof. apply touch_bind. Qed.
  Lemma touch_forP (lo hi st : nat) (f : nat -> prog T unit) (m m' : mem T) l w : 0 < st -> lo < hi -> touch (f lo) m l w m' -> touch (forP lo hi st f) m l w m'.
  Proof.
    intros Hst Hlt Ht. unfold forP. rewrite forS_step by done.
    assert (exists r, rng lo hi st = lo :: r) as [r ->].
    { unfold rng. destruct (hi - lo) as [|n] eqn:E; [lia|]. cbn [rng_fuel]. rewrite (proj2 (Nat.ltb_lt lo hi)) by done. by eexists. }
    apply touch_foldP. exact Ht.
  Qed.
  Lemma touch_parL {X : Type} (x : X) (l' : list X) (f : X -> prog T unit) (m m' : mem T) l w : touch (f x) m l w m' -> touch (parL (x :: l') f) m l w m'.
  Proof. intros (p'&Hs&Hh). eexists. split; [cbn [parL]; by apply steps_par_l|]. left. done. Qed.
  Lemma parL_race {X : Type} (x y : X) (l' : list X) (f : X -> prog T unit) (m m1 m2 : mem T) l w1 w2 :
    touch (f x) m l w1 m1 -> touch (f y) m1 l w2 m2 -> (w1 || w2) = true -> may_race (parL (x :: y :: l') f) m l.
  Proof.
    intros (p1&Hs1&Hh1) (p2&Hs2&Hh2) Hw. eexists _, m2. split.
    - cbn [parL]. eapply steps_trans; [apply steps_par_l; exact Hs1|]. apply steps_par_r. apply steps_par_l. exact Hs2.
    - left. exists w1, w2. split; [done|]. split; [|done]. left. done.
  Qed.
  Lemma may_race_bind {A B} (f : A -> prog T B) (p : prog T A) (m : mem T) l : may_race p m l -> may_race (pbind f p) m l.
  Proof. intros (p'&m'&Hs&Hr). eexists _, _. split; [by apply steps_bind|by apply races_bind]. Qed.
  Lemma may_race_steps {A} (p p' : prog T A) (m m' : mem T) l : steps A p m p' m' -> may_race p' m' l -> may_race p m l.
  Proof. intros H1 (p2&m2&Hs&Hr). exists p2, m2. split; [by eapply steps_trans|done]. Qed.
  Lemma may_race_after {A B} (f : A -> prog T B) (p : prog T A) (m m1 : mem T) (a : A) (l : loc) :
    run p m = Ok (a, m1) -> may_race (f a) m1 l -> may_race (pbind f p) m l.
  Proof.
    intros E Hr. pose proof (run_steps p m) as Hs. rewrite E in Hs. eapply may_race_steps; [apply steps_bind; exact Hs|]. exact Hr.
  Qed.
End Race.

Section CombinedRace.
  Context {T : Type} `{NumOps T}.
  Context (b : blocks) (Hok : blocks_ok b) (N : nat) (A B : list T) (HA : length A = N * N) (HB : length B = N * N).
  Notation LX := (L1_X b). Notation LY := (L1_Y b). Notation LK := (L1_K b).
  Notation nX := (nX b N). Notation nY := (nY b N). Notation nK := (nK b N).
  Notation X := (nX * LX). Notation Y := (nY * LY). Notation K := (nK * LK).
  Context (At Bt : list T) (HAt : tiledA b N A At) (HBt : tiledB b N B Bt).
  Definition ready (m : mem T) : Prop :=
    (forall p, p < X * Y -> exists v, m !! ((idCp, p) : loc) = Some (VD v)) /\ m !! idFirst = Some (VF true).
  Lemma callback_touch (x y k : nat) (m : mem T) : valid b nX nY nK x y k -> ready m -> exists m', ready m' /\
    touch (combined_callback b X Y At Bt [x; y; k]) m idFirst false m' /\ touch (combined_callback b X Y At Bt [x; y; k]) m idFirst true m'.
  Proof.
    intros Hv [Hm Hf]. unfold combined_callback. cbn [lget lookup list_lookup ofres pbind].
    pose proof (l1_does' b Hok nX nY nK At Bt _ _ HAt HBt x y k Hv m) as Hd.
    assert (He : forall u, u ∈ us1 b nY (pent N A) (pent N B) x y k -> exists p, u.1 = (idCp, p) /\ p < X * Y).
    { intros u Hu. destruct (us1_elem b Hok nX nY nK _ _ _ _ _ _ Hv Hu) as (i&j&E&_&_&Hi&Hj). pose proof (pos1 b Hok) as (?&?&?).
      destruct (cell_lt b nX nY ltac:(done) ltac:(done) ltac:(done) i j Hi Hj) as (p&Ep&Hp). exists p. split; [|done]. etransitivity; [exact E|exact Ep]. }
    assert (Hr : run (l1_kernel b X Y At Bt x y k) m = Ok (tt, applyM (us1 b nY (pent N A) (pent N B) x y k) m)).
    { apply Hd. intros u Hu. destruct (He u Hu) as (p&E&Hp). destruct (Hm p Hp) as [v Hv']. exists v. etransitivity; [|exact Hv']. f_equal. exact E. }
    pose proof (run_steps (l1_kernel b X Y At Bt x y k) m) as Hs. rewrite Hr in Hs.
    set (m' := applyM (us1 b nY (pent N A) (pent N B) x y k) m) in *.
    assert (Hf' : m' !! idFirst = Some (VF true)).
    { unfold m'. rewrite applyM_lookup, Hf. done. }
    exists m'. split; [split|split].
    - intros p Hp. destruct (Hm p Hp) as [v Ev]. unfold m'. rewrite applyM_lookup, Ev. by eexists.
    - exact Hf'.
    - eapply touch_after; [exact Hs|]. eexists. split; [constructor|]. done.
    - eapply touch_after; [exact Hs|]. eexists. split; [eapply steps_step; [constructor|]; apply steps_refl|]. rewrite Hf'. done.
  Qed.
  Notation cb := (combined_callback b X Y At Bt).
  Lemma inner_touch (x3 y3 k3 : nat) (m : mem T) (w : bool) (m' : mem T) : touch (cb [x3; y3; k3]) m idFirst w m' ->
    touch (iterate_conf 3 (tail (cconf b)) [x3; y3; k3] [x3 + L3_X b; y3 + L3_Y b; k3 + L3_K b] cb) m idFirst w m'.
  Proof.
    intros Ht. pose proof (cconf_nested b Hok) as Hn. apply nested_step in Hn as (_&_&_&_&Hn). apply nested_step in Hn as (Lb&Lp&Hpos&_&_).
    pose proof (pos1 b Hok) as (?&?&?). pose proof (pos2 b Hok) as (?&?&?). pose proof Hok as ((?&?&?)&_).
    unfold cconf. cbn [tail]. rewrite iterate_conf_step by done.
    replace (partials [false; false; false] [x3; y3; k3] [x3 + L3_X b; y3 + L3_Y b; k3 + L3_K b] [L2_X b; L2_Y b; L2_K b]) with [[] : list nat] by done.
    apply touch_parL. rewrite part_task_ok; try done; [|by apply elem_of_list_singleton].
    unfold curs. cbn [fill count_flag]. rewrite !bt'. rewrite Nat.mul_1_r.
    assert (exists n, cdiv (x3 + L3_X b - x3) (L2_X b) * (cdiv (y3 + L3_Y b - y3) (L2_Y b) * cdiv (k3 + L3_K b - k3) (L2_K b)) = S n) as [n ->].
    { assert (0 < cdiv (x3 + L3_X b - x3) (L2_X b)) by (apply cdiv_pos; lia). assert (0 < cdiv (y3 + L3_Y b - y3) (L2_Y b)) by (apply cdiv_pos; lia).
      assert (0 < cdiv (k3 + L3_K b - k3) (L2_K b)) by (apply cdiv_pos; lia).
      exists (pred (cdiv (x3 + L3_X b - x3) (L2_X b) * (cdiv (y3 + L3_Y b - y3) (L2_Y b) * cdiv (k3 + L3_K b - k3) (L2_K b)))). nia. }
    cbn [seq fmap list_fmap]. apply touch_foldP. rewrite gpoint_0 by done. rewrite add_block_ok by done. cbn [ofres pbind].
    cbn [vadd2 zip_with]. rewrite iterate_conf_last by done.
    change (touch (forP x3 (x3 + L2_X b) LX (fun x => forP y3 (y3 + L2_Y b) LY (fun y => forP k3 (k3 + L2_K b) LK (fun k => cb [x; y; k])))) m idFirst w m').
    apply touch_forP; [done|lia|]. apply touch_forP; [done|lia|]. apply touch_forP; [done|lia|]. exact Ht.
  Qed.
  Notation l3b := [L3_X b; L3_Y b; L3_K b].
  Notation l3p := [true; true; false].
  Lemma part_shape part : part ∈ partials l3p [0; 0; 0] [X; Y; K] l3b ->
    exists a c, part = [a * L3_X b; c * L3_Y b] /\ a * L3_X b < X /\ c * L3_Y b < Y.
  Proof.
    clear HA HB HAt HBt. pose proof (sizes_eq b Hok N) as (->&->&->). pose proof Hok as ((?&?&?)&_). unfold partials. cbn [coords count_flag].
    rewrite bt, bf, !Nat.sub_0_r, !cdiv_mul, !Nat.mul_1_r by done. intros (q&->&Hq%elem_of_seq)%elem_of_list_fmap.
    assert (0 < cdiv N (L3_X b) /\ 0 < cdiv N (L3_Y b)) as [Q1 Q2] by nia.
    pose proof (Nat.div_mod q (cdiv N (L3_X b)) ltac:(lia)) as E. pose proof (Nat.mod_upper_bound q (cdiv N (L3_X b)) ltac:(lia)).
    assert (q / cdiv N (L3_X b) < cdiv N (L3_Y b)) by (apply Nat.div_lt_upper_bound; lia).
    exists (q mod cdiv N (L3_X b)), (q / cdiv N (L3_X b)). split; [|split; nia].
    replace q with (q / cdiv N (L3_X b) * cdiv N (L3_X b) + q mod cdiv N (L3_X b)) at 1 by lia.
    rewrite (gpoint2 0 0 _ _ _ _ (cdiv N (L3_X b)) (cdiv N (L3_Y b))); [done|by apply (ecount_mul 0)|by apply (ecount_mul 0)|done|done].
  Qed.
  Lemma length_part : length (partials l3p [0; 0; 0] [X; Y; K] l3b) = cdiv N (L3_X b) * cdiv N (L3_Y b).
  Proof.
    clear HA HB HAt HBt. pose proof (sizes_eq b Hok N) as (->&->&->). pose proof Hok as ((?&?&?)&_). unfold partials. cbn [coords count_flag].
    rewrite bt, bf, !Nat.sub_0_r, !cdiv_mul, !Nat.mul_1_r by done. by rewrite fmap_length, seq_length.
  Qed.
  Lemma nested3 : length l3b = 3 /\ length l3p = 3 /\ SpecIter.positive l3b /\ nested 3 (tail (cconf b)).
  Proof. clear HA HB HAt HBt. pose proof (cconf_nested b Hok) as Hn. apply nested_step in Hn as (?&?&?&_&Hn). done. Qed.
  Lemma task_touch (part : list nat) (m : mem T) : part ∈ partials l3p [0; 0; 0] [X; Y; K] l3b -> ready m -> exists m', ready m' /\
    touch (part_task 3 l3p l3b (tail (cconf b)) [0; 0; 0] [X; Y; K] cb part) m idFirst false m' /\
    touch (part_task 3 l3p l3b (tail (cconf b)) [0; 0; 0] [X; Y; K] cb part) m idFirst true m'.
  Proof.
    intros Hp Hm. destruct (part_shape _ Hp) as (a&c&E&Ha&Hc). pose proof (div_chain b Hok) as (Dx&Dy&Dk).
    pose proof (sizes_eq b Hok N) as (E1&E2&E3). pose proof (sizes_ge b Hok N) as (G1&G2&G3). pose proof Hok as ((P1&P2&P3)&_).
    assert (HN : 0 < N). { destruct N; [|lia]. rewrite E1 in Ha. unfold cdiv in Ha. rewrite Nat.div_small in Ha; lia. }
    destruct (callback_touch (a * L3_X b) (c * L3_Y b) 0 m) as (m'&Hm'&T1&T2); [|exact Hm|].
    { split_and!; [apply Nat.divide_mul_r; exact Dx|exact Ha|apply Nat.divide_mul_r; exact Dy|exact Hc|apply Nat.divide_0_r|lia]. }
    exists m'. split; [exact Hm'|]. destruct nested3 as (?&?&?&?).
    rewrite part_task_ok; [|done..]. rewrite E. unfold curs. cbn [fill count_flag]. rewrite bf', bt', Nat.sub_0_r, !Nat.mul_1_l, Nat.mul_1_r.
    assert (0 < cdiv K (L3_K b)) as Hk by (apply cdiv_pos; lia). destruct (cdiv K (L3_K b)) as [|n]; [lia|].
    cbn [seq fmap list_fmap]. rewrite gpoint_0 by done.
    split; (apply touch_foldP; rewrite add_block_ok by done; cbn [ofres pbind vadd2 zip_with]; apply inner_touch; assumption).
  Qed.
  Lemma iterate_race (m : mem T) : 2 <= cdiv N (L3_X b) * cdiv N (L3_Y b) -> ready m ->
    may_race (iterate_conf 3 (cconf b) [0; 0; 0] [X; Y; K] cb) m idFirst.
  Proof.
    intros H2 Hm. rewrite <- length_part in H2. destruct nested3 as (?&?&?&?). unfold cconf at 1. rewrite iterate_conf_step by done.
    destruct (partials l3p [0; 0; 0] [X; Y; K] l3b) as [|t1 [|t2 ts]] eqn:E; [simpl in H2; lia..|].
    destruct (task_touch t1 m) as (m1&Hm1&_&T1); [rewrite E; by left|done|].
    destruct (task_touch t2 m1) as (m2&Hm2&T2&_); [rewrite E; by right; left|done|].
    eapply parL_race; [exact T1|exact T2|done].
  Qed.
  (** One task: no race. *)
  Lemma nopar_cb p : nopar (cb p).
  Proof.
    clear. unfold combined_callback. destruct (lget p 0); [|done]. destruct (lget p 1); [|done]. destruct (lget p 2); [|done]. cbn [ofres pbind].
    apply nopar_bind; [apply nopar_l1|]. intros _. unfold clear_first. intros [[?|[]]|]; try done. intros []; done.
  Qed.
  Lemma iterate_single : cdiv N (L3_X b) * cdiv N (L3_Y b) <= 1 -> drf (iterate_conf 3 (cconf b) [0; 0; 0] [X; Y; K] cb).
  Proof.
    intros H1. rewrite <- length_part in H1. destruct nested3 as (?&?&?&Hn). unfold cconf at 1. rewrite iterate_conf_step by done.
    assert (Hd : forall part, part ∈ partials l3p [0; 0; 0] [X; Y; K] l3b -> drf (part_task 3 l3p l3b (tail (cconf b)) [0; 0; 0] [X; Y; K] cb part)).
    { intros part Hp. rewrite part_task_ok; [|done..]. apply drf_foldP. intros cur [] Hc. apply curs_length in Hc; [|done..].
      rewrite add_block_ok by done. cbn [ofres pbind].
      apply (drf_iterate (fun _ _ => True) (fun _ _ => True)); [done|done|by apply length_vadd2| | |].
      - intros p _. apply nopar_drf, nopar_cb.
      - intros p _. apply acc_in_True.
      - intros p q l Hp1 Hq Hne. destruct Hne. 
        assert (Hz : forall p, length p = 3 -> coords (par_dims 3 (tail (cconf b))) p = []).
        { intros [|? [|? [|? [|]]]]; done. }
        rewrite !Hz; [done| |]; (eapply vis_length; [exact Hn| | |eassumption]; [done|by apply length_vadd2]). }
    destruct (partials l3p [0; 0; 0] [X; Y; K] l3b) as [|t1 [|t2 ts]] eqn:E; [done| |simpl in H1; lia].
    apply (drf_parL _ _ (fun _ _ => True) (fun _ _ => True)).
    - apply NoDup_singleton.
    - exact Hd.
    - intros x _. apply acc_in_True.
    - intros x y c ->%elem_of_list_singleton ->%elem_of_list_singleton Hne. done.
  Qed.
End CombinedRace.

Section CombinedMain.
  Context {T : Type} `{NumOps T}.
  Context (b : blocks) (Hok : blocks_ok b) (N : nat) (A B : list T) (HA : length A = N * N) (HB : length B = N * N).
  Lemma combined_race (reps : nat) : 0 < reps -> L3_X b < N \/ L3_Y b < N ->
    may_race (combined_matrix_multiply b N A B reps) ∅ idFirst.
  Proof.
    intros Hr HN. destruct (combined_eq b Hok N A B HA HB reps) as (At&Bt&HAt&HBt&->). pose proof Hok as ((?&?&?)&_).
    eapply may_race_steps; [eapply steps_step; [constructor|apply steps_refl]|]. unfold rest1.
    destruct (run_valloc idCp (nX b N * L1_X b * (nY b N * L1_Y b)) (nzero : T) (<[idFirst := VF true]> ∅)) as (m1&Hr1&H1'&Hfr).
    eapply may_race_after; [exact Hr1|]. apply may_race_bind. unfold forP. rewrite forS_step by lia.
    destruct reps as [|r]; [lia|]. rewrite rng_1. cbn [seq Nat.sub foldP]. apply may_race_bind.
    unfold flag_body. rewrite policy_eq. cbn [ofres pbind].
    assert (Hf : m1 !! idFirst = Some (VF true)).
    { rewrite Hfr; [apply lookup_insert|]. by left. }
    eapply may_race_steps; [eapply steps_step; [eapply step_wr; exact Hf|apply steps_refl]|]. cbn [pbind]. unfold iterate_indices. cbn [pconf].
    apply (iterate_race b Hok N A B HA HB At Bt HAt HBt).
    - assert (0 < cdiv N (L3_X b)) by (apply cdiv_pos; lia). assert (0 < cdiv N (L3_Y b)) by (apply cdiv_pos; lia).
      assert (forall L, 0 < L -> L < N -> 1 < cdiv N L) as Hc.
      { intros L HL HLN. apply cdiv_spec; lia. }
      assert (forall u v, 1 < u -> 0 < v -> 2 <= u * v) as Hg by (clear; intros; nia).
      destruct HN as [HN|HN]; [|rewrite Nat.mul_comm]; apply Hg; auto.
    - split.
      + intros p Hp. exists nzero. rewrite lookup_insert_ne by done. by apply H1'.
      + apply lookup_insert.
  Qed.
  Lemma combined_single (reps : nat) : N <= L3_X b -> N <= L3_Y b ->
    always (combined_matrix_multiply b N A B reps) (is_matrix N (tiled_entry_rep b reps N A B)).
  Proof.
    intros HX HY. pose proof (combined_must b Hok N A B HA HB reps) as Hm.
    pose proof (run_steps (combined_matrix_multiply b N A B reps) ∅) as Hs.
    destruct (run (combined_matrix_multiply b N A B reps) ∅) as [[C m']|e] eqn:E.
    - eapply must_steps in Hs as Hm'; [|exact Hm]. apply must_ret_inv in Hm'.
      eapply always_intro; [|exact E|exact Hm'].
      destruct (combined_eq b Hok N A B HA HB reps) as (At&Bt&HAt&HBt&->). 
      assert (drf (rest1 b N At Bt reps)) as Hd; [|exact Hd]. unfold rest1.
      apply drf_bind; [apply drf_valloc|]. intros _. apply drf_bind; [|intros _; apply nopar_drf, nopar_untile].
      apply drf_forS. intros i _ _ _. unfold flag_body. rewrite policy_eq. cbn [ofres pbind].
      assert (drf (iterate_conf 3 (cconf b) [0; 0; 0] [nX b N * L1_X b; nY b N * L1_Y b; nK b N * L1_K b] (combined_callback b (nX b N * L1_X b) (nY b N * L1_Y b) At Bt))) as Hd.
      { apply (iterate_single b Hok N A B HA HB At Bt). pose proof Hok as ((?&?&?)&_).
        assert (forall L, 0 < L -> N <= L -> cdiv N L <= 1) as Hc.
        { intros L HL HLN. unfold cdiv. assert ((N + (L - 1)) / L < 2); [|lia]. apply Nat.div_lt_upper_bound; lia. }
        apply (Nat.mul_le_mono _ 1 _ 1); auto. }
      intros [|]; [exact Hd|done].
    - destruct Hs as [m' Hs]. eapply must_steps in Hs; [|exact Hm]. by apply must_no_err in Hs.
  Qed.
End CombinedMain.
