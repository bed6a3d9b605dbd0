(** Word arithmetic: sizes up to 2^29 do not wrap; sizes whose square wraps never
    give a result; looped with too many elementary products. *)
From Coq Require Import FunctionalExtensionality.
From Verif Require Import LoopFacts Tools ConcFacts SpecTiled SpecApp SpecDomain SpecWord PApp PApp2 PWord PWord2 PWord3 PWord4 PWord5 MWordApp.

(** ** Ordinary sizes *)
Lemma zsq a b c d : (0 <= a <= c)%Z -> (0 <= b <= d)%Z -> (a * b <= c * d)%Z.
Proof. intros. apply Z.mul_le_mono_nonneg; lia. Qed.
Lemma ordinary_no_wrap o v : ordinary o v -> no_wrap o v /\ o_n o * o_n o < M64 /\ o_repetitions o < M64.
Proof.
  intros (HN&Hbr&Hbi&Hr&Hm). set (P := (2 ^ 29)%Z).
  assert (0 <= Z.of_nat (o_n o) <= P)%Z as HN'.
  { split; [lia|]. etrans; [exact HN|]. unfold P. destruct v; cbn; lia. }
  assert (0 <= Z.of_nat (o_block_result o) <= P)%Z as Hbr' by lia.
  assert (0 <= Z.of_nat (o_block_input o) <= P)%Z as Hbi' by lia.
  split; [|split].
  - unfold no_wrap. set (N := Z.of_nat (o_n o)) in *. set (br := Z.of_nat (o_block_result o)) in *.
    set (bi := Z.of_nat (o_block_input o)) in *.
    pose proof (zsq N N P P HN' HN').
    pose proof (zsq (N + 4) (N + bi) (P + 4) (P + P) ltac:(lia) ltac:(lia)).
    destruct v.
    + split; [unfold P in *; lia|intros _ _; unfold P in *; lia].
    + split; [unfold P in *; lia|]. split; [auto|intros _ _; unfold P in *; lia].
    + pose proof (zsq (N + 2 * br + 2) (N + br + bi) (P + 2 * P + 2) (P + P + P) ltac:(lia) ltac:(lia)). unfold P in *; lia.
    + set (Q := (2 ^ 21)%Z) in *. assert (0 <= N <= Q)%Z as HQ by lia.
      pose proof (zsq N N Q Q HQ HQ). pose proof (zsq (N * N) N (Q * Q) Q ltac:(nia) HQ).
      pose proof (zsq (2 * N) (N + 1) (2 * Q) (Q + 1) ltac:(lia) ltac:(lia)). unfold P, Q in *. repeat split; lia.
    + unfold P in *; lia.
    + pose proof (zsq (N + 428) (N + 428) (P + 428) (P + 428) ltac:(lia) ltac:(lia)). unfold P in *; lia.
    + done.
    + pose proof (zsq (N + 520) (N + 520) (P + 520) (P + 520) ltac:(lia) ltac:(lia)). unfold P in *; lia.
    + pose proof (zsq (N + 428) (N + 428) (P + 428) (P + 428) ltac:(lia) ltac:(lia)). unfold P in *; lia.
  - apply (toM _ (Z.of_nat (o_n o) * Z.of_nat (o_n o))); [lia|]. pose proof (zsq _ _ P P HN' HN'). unfold P in *; lia.
  - apply (toM _ (Z.of_nat (o_repetitions o))); [done|lia].
Qed.

(** ** N * N wraps *)
Section Wrap.
  Context (M : nat) {T : Type} `{NumOps T}.

  Lemma foldP_err {X S} (P : S -> Prop) (e : err) (l : list X) (f : X -> S -> prog T S) s :
    (forall x s, x ∈ l -> P s -> f x s = Err e \/ exists s', f x s = Ret s' /\ P s') ->
    (exists x, x ∈ l /\ forall s, P s -> f x s = Err e) -> P s -> foldP l f s = Err e.
  Proof.
    revert s. induction l as [|x l IH]; intros s Hf (y&Hy&He) Hs; [by apply elem_of_nil in Hy|].
    cbn. destruct (Hf x s ltac:(by left) Hs) as [->|(s'&E&Hs')]; [done|].
    rewrite E. cbn. apply elem_of_cons in Hy as [->|Hy].
    - rewrite (He s Hs) in E. done.
    - apply IH; [|by exists y|done]. intros. apply Hf; [by right|done].
  Qed.
  Lemma foldP_ok {X S} (P : S -> Prop) (e : err) (l : list X) (f : X -> S -> prog T S) s :
    (forall x s, x ∈ l -> P s -> f x s = Err e \/ exists s', f x s = Ret s' /\ P s') ->
    P s -> foldP l f s = Err e \/ exists s', foldP l f s = Ret s' /\ P s'.
  Proof.
    revert s. induction l as [|x l IH]; intros s Hf Hs; [right; by exists s|].
    cbn. destruct (Hf x s ltac:(by left) Hs) as [->|(s'&E&Hs')]; [by left|]. rewrite E. cbn.
    apply IH; [|done]. intros. apply Hf; [by right|done].
  Qed.

  Context (N : nat) (HM : 0 < M) (HN : N < M) (Hw : M <= N * N).
  Lemma forW_1 {S} (f : nat -> S -> prog T S) s : forW M 0 N 1 f s = foldP (seq 0 N) f s.
  Proof.
    rewrite (forW_eq M HM 0 N 1 f f) by (lia || done). unfold forS. cbn [Nat.eqb]. rewrite andb_false_r.
    by rewrite rng_1, Nat.sub_0_r.
  Qed.
  (** two nested loops over all i, j < N hit every word *)
  Lemma sweep {S} (P : S -> Prop) e r (f : nat -> nat -> S -> prog T S) s :
    r < M ->
    (forall i j s, P s -> f i j s = Err e \/ exists s', f i j s = Ret s' /\ P s') ->
    (forall i j s, i < N -> j < N -> i * N + j = r -> P s -> f i j s = Err e) -> P s ->
    foldP (seq 0 N) (fun i s => foldP (seq 0 N) (fun j s => f i j s) s) s = Err e.
  Proof.
    intros Hr Hf He Hs. assert (0 < N) by nia.
    pose proof (Nat.div_mod r N ltac:(lia)). pose proof (Nat.mod_upper_bound r N ltac:(lia)).
    assert (r / N < N) by (apply Nat.div_lt_upper_bound; lia).
    apply (foldP_err P).
    - intros i s' _ Hs'. apply foldP_ok; [|done]. intros. by apply Hf.
    - exists (r / N). split; [apply elem_of_seq; lia|]. intros s' Hs'. apply (foldP_err P); [|exists (r mod N)|done].
      + intros. by apply Hf.
      + split; [apply elem_of_seq; lia|]. intros. apply He; [lia..|done].
    - done.
  Qed.
  Lemma sweep' {S} (P : S -> Prop) e r (f : nat -> nat -> S -> prog T S) s :
    r < M ->
    (forall i j s, P s -> f i j s = Err e \/ exists s', f i j s = Ret s' /\ P s') ->
    (forall i j s, i < N -> j < N -> j * N + i = r -> P s -> f i j s = Err e) -> P s ->
    foldP (seq 0 N) (fun i s => foldP (seq 0 N) (fun j s => f i j s) s) s = Err e.
  Proof.
    intros Hr Hf He Hs. assert (0 < N) by nia.
    pose proof (Nat.div_mod r N ltac:(lia)). pose proof (Nat.mod_upper_bound r N ltac:(lia)).
    assert (r / N < N) by (apply Nat.div_lt_upper_bound; lia).
    apply (foldP_err P).
    - intros i s' _ Hs'. apply foldP_ok; [|done]. intros. by apply Hf.
    - exists (r mod N). split; [apply elem_of_seq; lia|]. intros s' Hs'. apply (foldP_err P); [|exists (r / N)|done].
      + intros. by apply Hf.
      + split; [apply elem_of_seq; lia|]. intros. apply He; [lia..|done].
    - done.
  Qed.
  Lemma vset_at_cases (B : list T) i x : vset_at B i x = Err EOutOfRange \/ exists B', vset_at B i x = Ret B' /\ length B' = length B.
  Proof.
    unfold vset_at. destruct (i <? length B); [right|by left]. eexists. split; [done|]. by rewrite insert_length.
  Qed.
  Lemma build_wrap o t : o_n o = N -> build_B_w (T := T) M o t = Err EOutOfRange.
  Proof.
    intros Ho. unfold build_B_w. rewrite Ho. rewrite forW_1.
    set (r := wmul M N N). assert (r < M) by (by apply wmul_lt).
    erewrite foldP_eq; [|intros i s _; apply forW_1]. 
    assert (forall i j (s : list T), length s = r -> wadd M (wmul M i N) j = r -> forall x, vset_at s (wadd M (wmul M i N) j) x = Err EOutOfRange) as HO.
    { intros i j s Hs -> x. unfold vset_at. rewrite Hs, Nat.ltb_irrefl. done. }
    assert (forall i j, i * N + j = r -> wadd M (wmul M i N) j = r) as HI.
    { intros i j E. assert (wadd M (wmul M i N) j = i * N + j) as -> by (wexp; lia). done. }
    destruct t.
    - apply (sweep' (fun s => length s = r) EOutOfRange r
        (fun i j s => vset_at s (wadd M (wmul M j N) i) (if i =? j then none1 else nzero))); [done| | |by rewrite replicate_length].
      + intros i j s Hs. destruct (vset_at_cases s (wadd M (wmul M j N) i) (if i =? j then none1 else nzero)) as [E|(s'&E&Hl)];
          [by left|right]. exists s'. split; [done|lia].
      + intros i j s _ _ E Hs. apply HO; auto.
    - apply (sweep (fun s => length s = r) EOutOfRange r
        (fun i j s => vset_at s (wadd M (wmul M i N) j) (if i =? j then none1 else nzero))); [done| | |by rewrite replicate_length].
      + intros i j s Hs. destruct (vset_at_cases s (wadd M (wmul M i N) j) (if i =? j then none1 else nzero)) as [E|(s'&E&Hl)];
          [by left|right]. exists s'. split; [done|lia].
      + intros i j s _ _ E Hs. apply HO; auto.
  Qed.
  Lemma print_wrap (m : list T) : length m = wmul M N N -> print_matrix_sq_w M N m = Err EOutOfRange.
  Proof.
    intros Hl. unfold print_matrix_sq_w, print_grid_w. rewrite forW_1.
    set (r := wmul M N N) in *. assert (r < M) by (by apply wmul_lt). assert (0 < N) by nia.
    pose proof (Nat.div_mod r N ltac:(lia)). pose proof (Nat.mod_upper_bound r N ltac:(lia)).
    assert (r / N < N) by (apply Nat.div_lt_upper_bound; lia).
    assert (Hin : forall i, let p := forW M 0 N 1 (fun j line => let! v := vat m (wadd M (wmul M i N) j) in Ret (line ++ [v])) [] in
      p = Err EOutOfRange \/ exists l, p = Ret l).
    { intros i. cbv zeta. rewrite forW_1.
      destruct (foldP_ok (fun _ => True) EOutOfRange (seq 0 N)
        (fun j line => let! v := vat m (wadd M (wmul M i N) j) in Ret (line ++ [v])) []) as [E|(l&E&_)]; [|done|by left|right; by exists l].
      intros j line _ _. unfold vat. destruct (m !! _); cbn; [right; by eexists|by left]. }
    apply (foldP_err (fun _ => True)); [| |done].
    - intros i s _ _. destruct (Hin i) as [E|(l&E)]; rewrite E; cbn; [by left|right; by eexists].
    - exists (r / N). split; [apply elem_of_seq; lia|]. intros s _.
      match goal with |- pbind _ ?p = _ => assert (p = Err EOutOfRange) as E; [|by rewrite E] end.
      rewrite forW_1. apply (foldP_err (fun _ => True)); [| |done].
      + intros j line _ _. unfold vat. destruct (m !! _); cbn; [right; by eexists|by left].
      + exists (r mod N). split; [apply elem_of_seq; lia|]. intros line _.
        assert (wadd M (wmul M (r / N) N) (r mod N) = r / N * N + r mod N) as -> by (wexp; lia).
        unfold vat. rewrite lookup_ge_None_2 by lia. done.
  Qed.
End Wrap.

Lemma app_fails_err {T R X} (E : err -> Prop) e (k : X -> app T R) : E e -> app_fails E (ACall (Err e) k).
Proof. intros. left. by constructor. Qed.
Lemma main_wrap {T} `{NumOps T} absdiff small o G (gen : nat -> T) :
  o_help o = false -> o_n o < M64 -> M64 <= o_n o * o_n o ->
  app_fails (fun e => e = EOutOfRange) (main_w M64 absdiff small o G gen).
Proof.
  intros Hh Hl Hw. unfold main_w, hpx_main_w. rewrite Hh. unfold when.
  pose proof M64_pos. destruct (2 <=? o_verbose o); cbn [abind].
  - rewrite print_wrap; [by apply app_fails_err|done..|]. by rewrite fmap_length, seq_length.
  - rewrite (build_wrap M64 (o_n o)); [by apply app_fails_err|done..].
Qed.

(** ** looped *)
Lemma looped_wraps M {T} `{NumOps T} N (A B : list T) br bi :
  1 < M -> N < M -> N * N < M -> 0 < br -> 0 < bi -> (N / br * (N / br) * (N / bi)) mod M = 0 ->
  looped_matrix_multiply_w M N A B br bi = Ret (replicate (N * N) nzero).
Proof.
  intros H1 HN HNN Hbr Hbi Hc. unfold looped_matrix_multiply_w. rewrite (wmul_small M N N) by done.
  cbn [looped_iterate_w length Nat.eqb negb].
  assert (looped_count_w M 3 [0; 0; 0] [N; N; N] [br; br; bi] = Ok 0) as ->.
  { unfold looped_count_w. cbn [seq foldR lget lookup list_lookup rbind].
    destruct (br =? 0) eqn:E1; [apply Nat.eqb_eq in E1; lia|]. cbn [rbind].
    destruct (bi =? 0) eqn:E2; [apply Nat.eqb_eq in E2; lia|]. cbn [rbind]. f_equal.
    rewrite wsub_small by lia. rewrite Nat.sub_0_r.
    assert (weq M (wmul M (wmul M (wmul M 1 (N / br)) (N / br)) (N / bi)) (1 * (N / br) * (N / br) * (N / bi))) as E by wcong.
    unfold weq in E. rewrite Nat.mul_1_l, Hc in E. rewrite Nat.mod_small in E; [done|]. apply wmul_lt. lia. }
  cbn. done.
Qed.
Section Looped.
  Context {T : Type} `{NumOps T} (absdiff : T -> T -> T) (small : T -> bool) (o : options) (G : nat) (gen : nat -> T).
  Lemma main_looped_wraps :
    o_help o = false -> o_algorithm o = "looped"%string -> o_transposed o = true -> o_check o = false -> o_verbose o < 2 ->
    o_n o * o_n o < M64 -> 0 < o_block_result o -> 0 < o_block_input o ->
    (o_n o / o_block_result o * (o_n o / o_block_result o) * (o_n o / o_block_input o)) mod M64 = 0 ->
    app_always (fun _ => False) (main_w M64 absdiff small o G gen)
      (fun r => r = Outcome 0 false None (replicate (o_n o * o_n o) nzero)).
  Proof.
    intros Hh Ha Ht Hc Hv HN Hbr Hbi Hm.
    unfold main_w, hpx_main_w. rewrite Hh, Ht. unfold when.
    destruct (2 <=? o_verbose o) eqn:E; [apply Nat.leb_le in E; lia|].
    rewrite (build_B_w_eq o HN true). destruct (build_B_ok (T := T) o true) as (B&->&_).
    cbn [abind]. apply must_ret. unfold hpx_dispatch_w. rewrite Ha, Ht. cbn [String.eqb Ascii.eqb Bool.eqb negb].
    rewrite looped_wraps; [|pose proof M64_Z; lia|clear -HN; nia|assumption..]. cbn [abind]. apply must_ret. unfold hpx_end_w, when. rewrite E.
    cbn [abind g_non_hpx]. unfold finish_w. rewrite Hc. rewrite andb_false_r. done.
  Qed.
End Looped.

Lemma accepted_inj s v v' : (s, v) ∈ accepted -> (s, v') ∈ accepted -> v = v'.
Proof.
  unfold accepted. intros Hin Hin'.
  repeat (apply elem_of_cons in Hin as [Hin|Hin];
    [injection Hin as -> ->; repeat (apply elem_of_cons in Hin' as [Hin'|Hin']; [by simplify_eq|]); by apply elem_of_nil in Hin'|]).
  by apply elem_of_nil in Hin.
Qed.

(** 2^22: the number of elementary products is 2^66. *)
Definition N22 : nat := Z.to_nat (2 ^ 22).
Lemma N22_Z : Z.of_nat N22 = (2 ^ 22)%Z.
Proof. unfold N22. rewrite Z2Nat.id; [done|]. lia. Qed.
Global Opaque N22.
Lemma N22_sq : N22 * N22 < M64.
Proof. apply (toM _ (2 ^ 44)%Z); [|lia]. rewrite Nat2Z.inj_mul, N22_Z. done. Qed.
Lemma N22_cube : (N22 * N22 * N22) mod M64 = 0.
Proof.
  apply Nat.mod_divide; [pose proof M64_pos; lia|]. exists 4. apply Nat2Z.inj.
  rewrite !Nat2Z.inj_mul, N22_Z, M64_Z. done.
Qed.
Definition looped22 (rel : Z -> Z -> bool) : options :=
  Options N22 true 1 0 1 1 false "looped" 256 10000 rel false.
Lemma looped_unbounded_wrong : exists o,
  (Z.of_nat (o_n o) = 2 ^ 22)%Z /\ o_help o = false /\ (o_algorithm o, Looped) ∈ accepted /\ flag_ok o Looped /\
  forall localities, suitable o localities Looped /\ computes o localities Looped /\
  forall (T : Type) (HT : NumOps T) (absdiff : T -> T -> T) small gen,
    app_always (fun _ => False) (main_w M64 absdiff small o localities gen)
      (fun r => r = Outcome 0 false None (replicate (o_n o * o_n o) nzero)).
Proof.
  exists (looped22 (fun _ _ => true)). split; [apply N22_Z|]. split; [done|].
  split; [unfold accepted; cbn; set_solver|]. split; [done|].
  intros localities. assert (suitable (looped22 (fun _ _ => true)) localities Looped) as Hs.
  { cbn [suitable looped22 o_block_result o_block_input o_n]. split; [lia|]. split; [lia|].
    split; exists N22; lia. }
  split; [exact Hs|]. split; [exact Hs|]. intros T ? absdiff small gen.
  refine (main_looped_wraps absdiff small (looped22 (fun _ _ => true)) localities gen
    eq_refl eq_refl eq_refl eq_refl _ N22_sq _ _ _); cbn [looped22 o_block_result o_block_input o_n o_verbose]; [lia..|].
  rewrite !Nat.div_1_r. exact N22_cube.
Qed.
