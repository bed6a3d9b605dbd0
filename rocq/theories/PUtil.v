(** Proofs about src/util. *)
From Verif Require Import Tools MUtil MNaive PNaive.

Section PUtil.
  Context {T : Type} `{NumOps T}.

  (** ** create_identity_matrix *)
  Lemma create_identity_correct N : exists M : list T, create_identity_matrix N = Ret M /\ is_identity N M.
  Proof.
    unfold create_identity_matrix. rewrite forS_step by lia. rewrite rng_1, Nat.sub_0_r.
    rewrite (foldP_applyL (N * N) _ _ (fun i => [(i * N + i, fun _ => none1)])).
    - eexists. split; [reflexivity|]. split; [by rewrite length_applyL, replicate_length|].
      intros i j Hi Hj. rewrite applyL_lookup, lookup_replicate_2 by (by apply mixed_lt). simpl. f_equal.
      rewrite contrib_bind. case_decide as Hij.
      + subst j. rewrite (bind_select _ _ i); [by rewrite contrib_single_eq|apply NoDup_seq|apply elem_of_seq; lia|].
        intros i' Hi' Hne. apply elem_of_seq in Hi'. apply contrib_single_ne. intros He.
        apply mixed_inj in He; [|lia|lia]. lia.
      + rewrite bind_nil; [done|]. intros i' Hi'. apply elem_of_seq in Hi'. apply contrib_single_ne. intros He.
        apply mixed_inj in He; [|lia|lia]. lia.
    - apply replicate_length.
    - intros i s Hi Hs. apply elem_of_seq in Hi. rewrite vset_ok; [done|]. rewrite Hs. apply mixed_lt; lia.
  Qed.

  Lemma create_enumerating_correct (of_nat : nat -> T) N :
    create_enumerating_matrix of_nat N = Ret (of_nat <$> seq 0 (N * N)).
  Proof.
    unfold create_enumerating_matrix. rewrite forS_step by lia. rewrite rng_1, Nat.sub_0_r.
    rewrite (foldP_applyL (N * N) _ _ (fun i => [(i, fun _ => of_nat i)])).
    - f_equal. apply cells_list_eq; [by rewrite length_applyL, replicate_length|].
      intros i Hi. rewrite applyL_lookup, lookup_replicate_2 by done. simpl. f_equal.
      rewrite contrib_bind, (bind_select _ _ i); [by rewrite contrib_single_eq|apply NoDup_seq|apply elem_of_seq; lia|].
      intros i' Hi' Hne. by apply contrib_single_ne.
    - apply replicate_length.
    - intros i s Hi Hs. apply elem_of_seq in Hi. rewrite vset_ok; [done|]. lia.
  Qed.

  (** ** transpose_matrix *)
  (** org has [rows] = stride_result rows of [cols] = stride_org entries. *)
  Lemma transpose_rect_correct (cols rows : nat) (org : list T) : length org = rows * cols ->
    exists R, transpose_matrix_rect cols rows org = Ret R /\ is_transpose rows cols org R.
  Proof.
    intros Hl. unfold transpose_matrix_rect.
    rewrite (forS_grid (cols * rows) cols rows (fun i j _ => ent cols org j i)).
    - eexists. split; [reflexivity|]. split.
      + rewrite length_applyL, replicate_length. lia.
      + intros i j Hi Hj. rewrite grid_lookup by done.
        rewrite lookup_replicate_2 by (by apply mixed_lt). simpl. symmetry. apply ent_lookup.
        rewrite Hl. by apply mixed_lt.
    - apply replicate_length.
    - intros i j s Hi Hj Hs. rewrite (vget_lookup org _ (ent cols org j i)).
      + cbn [pbind]. rewrite vset_ok; [done|]. rewrite Hs. by apply mixed_lt.
      + apply ent_lookup. rewrite Hl. by apply mixed_lt.
  Qed.
  Lemma transpose_sq_rect N (org : list T) : transpose_matrix N org = transpose_matrix_rect N N org.
  Proof. done. Qed.

  Lemma is_transpose_unique rows cols (M R R' : list T) :
    is_transpose rows cols M R -> is_transpose rows cols M R' -> R = R'.
  Proof.
    intros [Hl HR] [Hl' HR']. apply list_eq. intros p. destruct (decide (p < rows * cols)) as [Hp|Hp].
    - assert (rows <> 0) by (intros ->; lia).
      rewrite (Nat.div_mod p rows) by done. rewrite Nat.mul_comm.
      assert (p / rows < cols) by (apply Nat.div_lt_upper_bound; lia).
      pose proof (Nat.mod_upper_bound p rows). by rewrite HR, HR' by lia.
    - rewrite !(proj2 (lookup_ge_None _ _)) by lia. done.
  Qed.
  Lemma is_transpose_sym rows cols (M R : list T) : length M = rows * cols ->
    is_transpose rows cols M R -> is_transpose cols rows R M.
  Proof. intros HM [Hl HR]. split; [lia|]. intros i j Hi Hj. by rewrite HR. Qed.

  Lemma transpose_rect_involutive cols rows (org : list T) : length org = rows * cols ->
    (let! R := transpose_matrix_rect cols rows org in transpose_matrix_rect rows cols R) = Ret org.
  Proof.
    intros Hl. destruct (transpose_rect_correct cols rows org Hl) as (R&->&HR). cbn [pbind].
    destruct (transpose_rect_correct rows cols R) as (R'&->&HR'); [destruct HR; lia|].
    f_equal. eapply is_transpose_unique; [exact HR'|]. by apply is_transpose_sym.
  Qed.

  (** naive_transposed on B = naive on the transpose of B *)
  Lemma prod_t_transpose N (A B B' : list T) i j : i < N -> j < N ->
    is_transpose N N B B' -> length B = N * N -> prod_entry N A B' i j = prod_t_entry N A B i j.
  Proof.
    intros Hi Hj [Hl HB'] HB. unfold prod_entry, prod_t_entry. apply dot_ext. intros k Hk%elem_of_seq. f_equal.
    unfold ent. rewrite HB' by lia. done.
  Qed.

  (** ** product with the identity *)
  Lemma dot_single `{!UnitLaws T} (f : nat -> T) n j : j < n -> (forall k, k < n -> k <> j -> f k = nzero) ->
    dot f (seq 0 n) = f j.
  Proof.
    intros Hj Hf. 
    assert (forall ks a, (forall k, k ∈ ks -> f k = nzero) -> foldl (fun acc k => nadd acc (f k)) a ks = a) as Hz.
    { induction ks as [|k ks IH]; intros a Hks; simpl; [done|].
      rewrite Hks by (apply elem_of_cons; by left). rewrite unit_add_r. apply IH.
      intros k' Hk'. apply Hks, elem_of_cons; by right. }
    replace n with (j + S (n - j - 1)) by lia. rewrite seq_app, dot_app. simpl.
    unfold dot. rewrite (Hz (seq 0 j)).
    - rewrite unit_add_l. apply Hz. intros k Hk%elem_of_seq. apply Hf; lia.
    - intros k Hk%elem_of_seq. apply Hf; lia.
  Qed.
  Lemma identity_product `{!UnitLaws T} N (A I : list T) i j : length A = N * N -> is_identity N I -> i < N -> j < N ->
    prod_entry N A I i j = ent N A i j.
  Proof.
    intros HA HI Hi Hj. unfold prod_entry. rewrite (dot_single _ N j Hj).
    - rewrite (is_matrix_ent N _ I j j HI) by done. rewrite decide_True by done. apply unit_mul_1.
    - intros k Hk Hne. rewrite (is_matrix_ent N _ I k j HI) by done. rewrite decide_False by done. apply unit_mul_0.
  Qed.
  Lemma ent_matrix N (A : list T) : length A = N * N -> is_matrix N (ent N A) A.
  Proof. intros HA. split; [done|]. intros. by apply ent_lookup_sq. Qed.
  Lemma naive_identity `{!UnitLaws T} N (A : list T) : length A = N * N ->
    always (let! Id := create_identity_matrix N in naive_matrix_multiply N A Id) (fun C => C = A).
  Proof.
    intros HA. destruct (create_identity_correct N) as (I&->&HI). cbn [pbind].
    assert (length I = N * N) by apply HI.
    eapply must_mono; [|by apply naive_correct]. intros C m HC. simpl in HC.
    eapply is_matrix_unique; [|by apply ent_matrix].
    eapply is_matrix_ext; [|exact HC]. intros i j Hi Hj. by apply identity_product.
  Qed.

  (** ** printing *)
  Lemma foldP_snoc {X Y} (l : list X) (f : X -> prog T Y) (g : X -> Y) acc :
    (forall x, x ∈ l -> f x = Ret (g x)) ->
    foldP l (fun x out => let! y := f x in Ret (out ++ [y])) acc = Ret (acc ++ (g <$> l)).
  Proof.
    revert acc. induction l as [|x l IH]; intros acc Hf; simpl; [by rewrite app_nil_r|].
    rewrite Hf by (apply elem_of_cons; by left). simpl. rewrite IH.
    - by rewrite <- app_assoc.
    - intros y Hy. apply Hf, elem_of_cons; by right.
  Qed.
  Lemma print_grid_ok rows cols idx (m : list T) (f : nat -> nat -> T) :
    (forall i j, i < rows -> j < cols -> m !! idx i j = Some (f i j)) ->
    print_grid rows cols idx m = Ret (grid_lines rows cols f).
  Proof.
    intros Hm. unfold print_grid, grid_lines. rewrite forS_step by lia. rewrite rng_1, Nat.sub_0_r.
    rewrite (foldP_snoc (seq 0 rows) _ (fun i => f i <$> seq 0 cols)); [done|].
    intros i Hi%elem_of_seq. rewrite forS_step by lia. rewrite rng_1, Nat.sub_0_r.
    rewrite (foldP_snoc (seq 0 cols) _ (f i)); [done|].
    intros j Hj%elem_of_seq. apply vat_lookup, Hm; lia.
  Qed.
  Lemma okI_vat (v : list T) i : okI (fun _ => True) EOutOfRange (vat v i).
  Proof. unfold okI, vat. destruct (v !! i); eauto. Qed.
  Lemma print_grid_fails rows cols idx (m : list T) i0 j0 :
    i0 < rows -> j0 < cols -> length m <= idx i0 j0 -> print_grid rows cols idx m = Err EOutOfRange.
  Proof.
    intros Hi Hj Hl. unfold print_grid. rewrite forS_step by lia.
    assert (forall i out, okI (fun _ => True) EOutOfRange (forS 0 cols 1 (fun j line =>
                     let! v := vat m (idx i j) in Ret (line ++ [v])) out)) as Hok.
    { intros i out. rewrite forS_step by lia. apply okI_foldP; [done|]. intros j s _ _.
      eapply okI_bind; [apply okI_vat|]. intros; left; eauto. }
    apply (foldP_fails (fun _ => True) _ _ i0); [done| | |].
    - intros i out _ _. eapply okI_bind; [apply Hok|]. intros; left; eauto.
    - apply elem_of_rng0; [lia|]. exists i0. lia.
    - intros out _. rewrite forS_step by lia.
      rewrite (foldP_fails (fun _ => True) EOutOfRange _ j0); [done|done| | |].
      + intros j s _ _. eapply okI_bind; [apply okI_vat|]. intros; left; eauto.
      + apply elem_of_rng0; [lia|]. exists j0. lia.
      + intros s _. unfold vat. by rewrite (proj2 (lookup_ge_None _ _)).
  Qed.
  Lemma print_host_ok rows cols (m : list T) : length m = rows * cols ->
    print_matrix_host rows cols m = Ret (grid_lines rows cols (ent cols m)).
  Proof.
    intros Hm. apply print_grid_ok. intros i j Hi Hj. apply ent_lookup. rewrite Hm. by apply mixed_lt.
  Qed.
  Lemma print_matrix_wide N M (m : list T) : length m = N * M -> N <= M ->
    print_matrix N M m = Ret (grid_lines N M (fun i j => ent N m i j)).
  Proof.
    intros Hm HNM. apply print_grid_ok. intros i j Hi Hj. apply ent_lookup. rewrite Hm.
    assert (i * N <= i * M) by (apply Nat.mul_le_mono_l; done).
    assert (S i * M <= N * M) by (apply Nat.mul_le_mono_r; lia). simpl in *. lia.
  Qed.
  Lemma print_matrix_tall N M (m : list T) : length m = N * M -> 0 < M -> M < N ->
    print_matrix N M m = Err EOutOfRange.
  Proof.
    intros Hm HM HNM. apply (print_grid_fails _ _ _ _ (N - 1) 0); [lia|done|]. rewrite Hm.
    destruct N as [|N]; [lia|]. replace (S N - 1) with N by lia. nia.
  Qed.

  Lemma naive_transposed_eq N (A B : list T) :
    length A = N * N -> length B = N * N ->
    exists C, always (naive_matrix_multiply_transposed N A B) (fun C' => C' = C) /\
              always (let! Bt := transpose_matrix N B in naive_matrix_multiply N A Bt) (fun C' => C' = C).
  Proof.
    intros HA HB. destruct (transpose_rect_correct N N B HB) as (Bt&HBt&Ht).
    assert (length Bt = N * N) by apply Ht.
    set (C := (fun p => prod_t_entry N A B (p / N) (p mod N)) <$> seq 0 (N * N)).
    assert (HC : is_product_t N A B C).
    { split; [unfold C; by rewrite fmap_length, seq_length|]. intros i j Hi Hj. unfold C.
      rewrite list_lookup_fmap, lookup_seq_lt by (by apply mixed_lt). simpl.
      rewrite Nat.div_add_l, Nat.div_small, Nat.add_0_r by lia.
      rewrite Nat.add_comm, Nat.mod_add, Nat.mod_small by lia. done. }
    exists C. split.
    - eapply must_mono; [|by apply naive_transposed_correct]. intros C' m HC'. simpl in HC'.
      by eapply is_matrix_unique.
    - rewrite transpose_sq_rect, HBt. cbn [pbind].
      eapply must_mono; [|by apply naive_correct]. intros C' m HC'. simpl in HC'.
      eapply is_matrix_unique; [|exact HC]. eapply is_matrix_ext; [|exact HC'].
      intros i j Hi Hj. by apply prod_t_transpose.
  Qed.
End PUtil.

Lemma print_matrix_wrong N M : 1 < N -> N < M ->
  exists m : list Z, length m = N * M /\
    print_matrix N M m <> Ret (grid_lines N M (fun i j => ent M m i j)).
Proof.
  intros HN HM. exists (Z.of_nat <$> seq 0 (N * M)). split; [by rewrite fmap_length, seq_length|].
  rewrite print_matrix_wide; [|by rewrite fmap_length, seq_length|lia]. intros [= He].
  assert (forall (f : nat -> nat -> Z) (i : nat), i < N -> grid_lines N M f !! i = Some (f i <$> seq 0 M)) as Hl.
  { intros f i Hi. unfold grid_lines. rewrite list_lookup_fmap, lookup_seq_lt by done. done. }
  apply (f_equal (fun l => l !! 1)) in He. rewrite !Hl in He by lia. injection He as He.
  apply (f_equal (fun l : list Z => l !! 0)) in He. rewrite !list_lookup_fmap, lookup_seq_lt in He by lia.
  simpl in He. injection He as He. revert He. unfold ent.
  assert (M < N * M) by nia. assert (N < N * M) by nia.
  rewrite !list_lookup_fmap, !lookup_seq_lt by lia. simpl. lia.
Qed.
