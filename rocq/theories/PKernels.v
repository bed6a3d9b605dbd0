(** Proofs about src/reference_kernels/kernel.hpp and multiplier.cpp. *)
From Verif Require Import Tools MKernels.

Section PKernels.
  Context {T : Type} `{NumOps T}.

  (** ** kernel *)
  Lemma kernel_correct (A B C : list T) N x y bs :
    length A = N * N -> length B = N * N -> length C = bs * bs -> x + bs <= N -> y + bs <= N ->
    exists C', kernel A B C N x y bs = Ret C' /\ is_block bs x y (prod_entry N A B) C'.
  Proof.
    intros HA HB HC Hx Hy. unfold kernel.
    set (f := fun i j => prod_entry N A B (x + i) (y + j)).
    set (n := bs * bs).
    assert (Hbody : forall i j (st : list T * bool), i < bs -> j < bs -> st.2 = false -> length st.1 = n ->
      (if st.2 then Ret st else
          pcatch EOutOfRange (Ret (st.1, true))
            (let! result_component :=
               forS 0 N 1 (fun k acc =>
                 let! a := vat A ((x + i) * N + k) in
                 let! b := vat B (k * N + (y + j)) in
                 Ret (nadd acc (nmul a b))) nzero in
             let! C' := vset_at st.1 (i * bs + j) result_component in
             Ret (C', false))) = Ret (applyL [(i * bs + j, fun _ => f i j)] st.1, false)).
    { intros i j st Hi Hj Hst Hl. rewrite Hst.
      rewrite (forS1_dot N _ (fun k => nmul (ent N A (x + i) k) (ent N B k (y + j)))).
      - cbn [pbind]. rewrite vset_at_ok by (rewrite Hl; by apply mixed_lt). done.
      - intros k acc Hk. rewrite (vat_lookup A _ _ (ent_lookup_sq N A (x + i) k HA ltac:(lia) Hk)). simpl.
        rewrite (vat_lookup B _ _ (ent_lookup_sq N B k (y + j) HB Hk ltac:(lia))). done. }
    set (I := fun st : list T * bool => st.2 = false /\ length st.1 = n).
    assert (Hrow : forall i st, i < bs -> I st ->
      forS 0 bs 1 (fun j (st : list T * bool) =>
          if st.2 then Ret st else
          pcatch EOutOfRange (Ret (st.1, true))
            (let! result_component :=
               forS 0 N 1 (fun k acc =>
                 let! a := vat A ((x + i) * N + k) in
                 let! b := vat B (k * N + (y + j)) in
                 Ret (nadd acc (nmul a b))) nzero in
             let! C' := vset_at st.1 (i * bs + j) result_component in
             Ret (C', false))) st
      = Ret (applyL (seq 0 bs ≫= fun j => [(i * bs + j, fun _ => f i j)]) st.1, false)).
    { intros i st Hi HI. rewrite forS_step by lia. rewrite rng_1, Nat.sub_0_r.
      assert (forall js st, (forall j, j ∈ js -> j < bs) -> I st ->
        foldP js (fun j (st : list T * bool) =>
          if st.2 then Ret st else
          pcatch EOutOfRange (Ret (st.1, true))
            (let! result_component :=
               forS 0 N 1 (fun k acc =>
                 let! a := vat A ((x + i) * N + k) in
                 let! b := vat B (k * N + (y + j)) in
                 Ret (nadd acc (nmul a b))) nzero in
             let! C' := vset_at st.1 (i * bs + j) result_component in
             Ret (C', false))) st
        = Ret (applyL (js ≫= fun j => [(i * bs + j, fun _ => f i j)]) st.1, false)) as Hjs.
      { clear st HI. induction js as [|j js IH]; intros st Hjs [HI1 HI2].
        - destruct st; simpl in *; by subst.
        - cbn [foldP]. rewrite Hbody; [|done|apply Hjs, elem_of_cons; by left|done|done].
          cbn [pbind]. rewrite IH.
          + rewrite bind_cons, applyL_app. done.
          + intros j' Hj'. apply Hjs, elem_of_cons; by right.
          + split; [done|]. cbn. by rewrite alter_length. }
      apply Hjs; [|done]. intros j Hj. apply elem_of_seq in Hj. lia. }
    assert (Hall : forall is st, (forall i, i ∈ is -> i < bs) -> I st ->
      foldP is (fun i st => forS 0 bs 1 (fun j (st : list T * bool) =>
          if st.2 then Ret st else
          pcatch EOutOfRange (Ret (st.1, true))
            (let! result_component :=
               forS 0 N 1 (fun k acc =>
                 let! a := vat A ((x + i) * N + k) in
                 let! b := vat B (k * N + (y + j)) in
                 Ret (nadd acc (nmul a b))) nzero in
             let! C' := vset_at st.1 (i * bs + j) result_component in
             Ret (C', false))) st) st
      = Ret (applyL (is ≫= fun i => seq 0 bs ≫= fun j => [(i * bs + j, fun _ => f i j)]) st.1, false)).
    { induction is as [|i is IH]; intros st His [HI1 HI2].
      - destruct st; simpl in *; by subst.
      - cbn [foldP]. rewrite Hrow; [|apply His, elem_of_cons; by left|done].
        cbn [pbind]. rewrite IH.
        + rewrite bind_cons, applyL_app. done.
        + intros j' Hj'. apply His, elem_of_cons; by right.
        + split; [done|]. cbn. by rewrite length_applyL. }
    rewrite forS_step by lia. rewrite rng_1, Nat.sub_0_r.
    rewrite (Hall (seq 0 bs) (C, false)).
    - eexists. split; [reflexivity|]. by apply (grid_matrix bs f).
    - intros i Hi. apply elem_of_seq in Hi. lia.
    - done.
  Qed.

  (** ** kernel_transposed *)
  Lemma kernel_transposed_correct (A B C : list T) N x y bs :
    length A = N * N -> length B = N * N -> length C = bs * bs -> x + bs <= N -> y + bs <= N ->
    exists C', kernel_transposed A B C N x y bs = Ret C' /\ is_block bs x y (prod_t_entry N A B) C'.
  Proof.
    intros HA HB HC Hx Hy. unfold kernel_transposed.
    rewrite (forS_grid (bs * bs) bs bs (fun i j _ => prod_t_entry N A B (x + i) (y + j))).
    - eexists. split; [reflexivity|]. by apply (grid_matrix bs (fun i j => prod_t_entry N A B (x + i) (y + j))).
    - done.
    - intros i j s Hi Hj Hs.
      rewrite (forS1_dot N _ (fun k => nmul (ent N A (x + i) k) (ent N B (y + j) k))).
      + cbn [pbind]. rewrite vset_ok by (rewrite Hs; by apply mixed_lt). done.
      + intros k acc Hk. rewrite (vget_lookup A _ _ (ent_lookup_sq N A (x + i) k HA ltac:(lia) Hk)). simpl.
        rewrite (vget_lookup B _ _ (ent_lookup_sq N B (y + j) k HB ltac:(lia) Hk)). done.
  Qed.

  (** ** kernel_transposed_blocked *)
  Lemma vadd_ok (C : list T) i v : i < length C -> vadd C i v = Ret (applyL [(i, fun c => nadd c v)] C).
  Proof.
    intros Hi. unfold vadd. destruct (lookup_lt_is_Some_2 C i Hi) as [c Hc].
    rewrite (vget_lookup _ _ _ Hc). cbn [pbind]. unfold vset. rewrite (proj2 (Nat.ltb_lt _ _)) by done.
    f_equal. simpl. apply list_eq. intros j. destruct (decide (i = j)) as [->|].
    - by rewrite list_lookup_insert, list_lookup_alter, Hc.
    - by rewrite list_lookup_insert_ne, list_lookup_alter_ne.
  Qed.

  Lemma ktb_copy_ok (M small : list T) N x kb br bi :
    length M = N * N -> length small = bi * br -> x + br <= N -> kb + bi <= N ->
    exists s, ktb_copy M small N x kb br bi = Ret s /\ length s = bi * br /\
      forall i k, i < br -> k < bi -> s !! (i * bi + k) = Some (ent N M (x + i) (kb + k)).
  Proof.
    intros HM Hs Hx Hk. unfold ktb_copy.
    rewrite (forS_grid (bi * br) br bi (fun i k _ => ent N M (x + i) (kb + k))).
    - eexists. split; [reflexivity|]. split; [by rewrite length_applyL|].
      intros i k Hi Hk'. rewrite grid_lookup by done.
      destruct (lookup_lt_is_Some_2 small (i * bi + k)) as [v ->]; [|done].
      rewrite Hs, (Nat.mul_comm bi br). by apply mixed_lt.
    - done.
    - intros i k s Hi Hk' Hl. rewrite <- Nat.add_assoc.
      rewrite (vget_lookup M _ _ (ent_lookup_sq N M (x + i) (kb + k) HM ltac:(lia) ltac:(lia))).
      cbn [pbind]. rewrite vset_ok; [done|]. rewrite Hl, (Nat.mul_comm bi br). by apply mixed_lt.
  Qed.

  Section Block.
    Context (As Bs : list T) (br bi : nat) (a b : nat -> nat -> T).
    Context (HAs : forall i k, i < br -> k < bi -> As !! (i * bi + k) = Some (a i k)).
    Context (HBs : forall j k, j < br -> k < bi -> Bs !! (j * bi + k) = Some (b j k)).

    Definition cell (i j : nat) : T := dot (fun k => nmul (a i k) (b j k)) (seq 0 bi).

    Lemma ktb_acc i j : i + 3 < br -> j + 1 < br ->
      forS 0 bi 1 (ktb_inner As Bs bi i j) (nzero, nzero, nzero, nzero, nzero, nzero, nzero, nzero)
      = Ret (cell (i+0) (j+0), cell (i+0) (j+1), cell (i+1) (j+0), cell (i+1) (j+1),
             cell (i+2) (j+0), cell (i+2) (j+1), cell (i+3) (j+0), cell (i+3) (j+1)).
    Proof.
      intros Hi Hj. rewrite forS_step by lia. rewrite rng_1, Nat.sub_0_r.
      assert (forall ks, (forall k, k ∈ ks -> k < bi) -> forall c00 c01 c10 c11 c20 c21 c30 c31,
        let ff := fun (c : T) i j => foldl (fun acc k => nadd acc (nmul (a i k) (b j k))) c ks in
        foldP ks (ktb_inner As Bs bi i j) (c00, c01, c10, c11, c20, c21, c30, c31) =
        Ret (ff c00 (i+0) (j+0), ff c01 (i+0) (j+1), ff c10 (i+1) (j+0), ff c11 (i+1) (j+1),
             ff c20 (i+2) (j+0), ff c21 (i+2) (j+1), ff c30 (i+3) (j+0), ff c31 (i+3) (j+1))) as Hk.
      { induction ks as [|k ks IH]; intros Hks c00 c01 c10 c11 c20 c21 c30 c31 ff; [done|].
        assert (k < bi) by (apply Hks, elem_of_cons; by left).
        cbn [foldP]. unfold ktb_inner at 2.
        rewrite (vget_lookup As _ _ (HAs (i+0) k ltac:(lia) ltac:(done))); cbn [pbind].
        rewrite (vget_lookup Bs _ _ (HBs (j+0) k ltac:(lia) ltac:(done))); cbn [pbind].
        rewrite (vget_lookup Bs _ _ (HBs (j+1) k ltac:(lia) ltac:(done))); cbn [pbind].
        rewrite (vget_lookup As _ _ (HAs (i+1) k ltac:(lia) ltac:(done))); cbn [pbind].
        rewrite (vget_lookup As _ _ (HAs (i+2) k ltac:(lia) ltac:(done))); cbn [pbind].
        rewrite (vget_lookup As _ _ (HAs (i+3) k ltac:(lia) ltac:(done))); cbn [pbind].
        rewrite IH; [done|]. intros k' Hk'. apply Hks, elem_of_cons; by right. }
      rewrite Hk; [done|]. intros k Hkin. apply elem_of_seq in Hkin. lia.
    Qed.

    Definition block_us (i j : nat) : list (nat * (T -> T)) :=
      seq 0 4 ≫= fun p => seq 0 2 ≫= fun q => [((i + p) * br + (j + q), fun c => nadd c (cell (i + p) (j + q)))].

    Lemma ktb_block_ok i j C : i + 3 < br -> j + 1 < br -> length C = br * br ->
      ktb_block As Bs br bi i j C = Ret (applyL (block_us i j) C).
    Proof.
      intros Hi Hj HC. unfold ktb_block. rewrite ktb_acc by done. cbn [pbind].
      assert (forall p q, p < 4 -> q < 2 -> (i + p) * br + (j + q) < br * br) by (intros; apply mixed_lt; lia).
      repeat (rewrite vadd_ok by (rewrite ?length_applyL, HC; auto with lia); cbn [pbind]).
      done.
    Qed.

    Lemma ktb_loops_ok C : (4 | br) -> length C = br * br ->
      forS 0 br 4 (fun i C => forS 0 br 2 (fun j C => ktb_block As Bs br bi i j C) C) C
      = Ret (applyL (rng 0 br 4 ≫= fun i => rng 0 br 2 ≫= fun j => block_us i j) C).
    Proof.
      intros Hd HC. rewrite forS_step by lia.
      assert (2 | br) by (transitivity 4; [by exists 2|done]).
      apply foldP_applyL with (n := br * br); [done|]. intros i s Hi Hs.
      rewrite forS_step by lia.
      apply foldP_applyL with (n := br * br); [done|]. intros j s' Hj Hs'.
      apply elem_of_rng0 in Hi as (qi&->&Hi); [|lia]. apply elem_of_rng0 in Hj as (qj&->&Hj); [|lia].
      apply ktb_block_ok; [| |done].
      - apply block_lt; [done|lia|lia|done].
      - apply block_lt; [done|lia|lia|done].
    Qed.

    Lemma contrib_ktb i j : (4 | br) -> i < br -> j < br ->
      contrib (i * br + j) (rng 0 br 4 ≫= fun i => rng 0 br 2 ≫= fun j => block_us i j)
      = [fun c => nadd c (cell i j)].
    Proof.
      intros Hd Hi Hj.
      assert (2 | br) by (transitivity 4; [by exists 2|done]).
      pose proof (Nat.div_mod i 4 ltac:(lia)) as Di. pose proof (Nat.mod_upper_bound i 4 ltac:(lia)).
      pose proof (Nat.div_mod j 2 ltac:(lia)) as Dj. pose proof (Nat.mod_upper_bound j 2 ltac:(lia)).
      assert (Hout : forall i' j' p q, i' ∈ rng 0 br 4 -> j' ∈ rng 0 br 2 -> p < 4 -> q < 2 ->
         (i' + p) * br + (j' + q) = i * br + j -> i' = i / 4 * 4 /\ j' = j / 2 * 2 /\ p = i mod 4 /\ q = j mod 2).
      { intros i' j' p q Hi' Hj' Hp Hq He.
        apply elem_of_rng0 in Hi' as (qi&->&Hi'); [|lia]. apply elem_of_rng0 in Hj' as (qj&->&Hj'); [|lia].
        assert (qj * 2 + q < br) by (apply block_lt; [done|lia|lia|done]).
        apply mixed_inj in He as [E1 E2]; [|done|done].
        rewrite Di, (Nat.mul_comm 4) in E1. apply mixed_inj in E1 as [-> ->]; [|done|lia].
        rewrite Dj, (Nat.mul_comm 2) in E2. apply mixed_inj in E2 as [-> ->]; [|done|lia]. done. }
      assert (Hin : i / 4 * 4 ∈ rng 0 br 4) by (apply elem_of_rng0; [lia|]; exists (i / 4); lia).
      assert (Hjn : j / 2 * 2 ∈ rng 0 br 2) by (apply elem_of_rng0; [lia|]; exists (j / 2); lia).
      rewrite contrib_bind, (bind_select _ _ (i / 4 * 4)); [|by apply NoDup_rng; lia|done|].
      2:{ intros i' Hi' Hne. apply contrib_none. intros u (j'&Hu&Hj')%elem_of_list_bind.
          apply elem_of_list_bind in Hu as (p&Hu&Hp). apply elem_of_list_bind in Hu as (q&Hu&Hq).
          apply elem_of_list_singleton in Hu as ->. apply elem_of_seq in Hp, Hq. simpl. intros He.
          eapply Hout in He as (?&?&?&?); [done|done|done|lia|lia]. }
      rewrite contrib_bind, (bind_select _ _ (j / 2 * 2)); [|by apply NoDup_rng; lia|done|].
      2:{ intros j' Hj' Hne. apply contrib_none. intros u Hu.
          apply elem_of_list_bind in Hu as (p&Hu&Hp). apply elem_of_list_bind in Hu as (q&Hu&Hq).
          apply elem_of_list_singleton in Hu as ->. apply elem_of_seq in Hp, Hq. simpl. intros He.
          eapply Hout in He as (?&?&?&?); [done|done|done|lia|lia]. }
      unfold block_us. rewrite contrib_bind, (bind_select _ _ (i mod 4)); [|apply NoDup_seq|apply elem_of_seq; lia|].
      2:{ intros p Hp Hne. apply contrib_none. intros u Hu. apply elem_of_list_bind in Hu as (q&Hu&Hq).
          apply elem_of_list_singleton in Hu as ->. apply elem_of_seq in Hp, Hq. simpl. intros He.
          eapply Hout in He as (?&?&?&?); [done|done|done|lia|lia]. }
      rewrite contrib_bind, (bind_select _ _ (j mod 2)); [|apply NoDup_seq|apply elem_of_seq; lia|].
      2:{ intros q Hq Hne. apply contrib_none. intros u Hu.
          apply elem_of_list_singleton in Hu as ->. apply elem_of_seq in Hq. simpl. intros He.
          eapply Hout in He as (?&?&?&?); [done|done|done|lia|lia]. }
      replace (i / 4 * 4 + i mod 4) with i by lia. replace (j / 2 * 2 + j mod 2) with j by lia.
      by rewrite contrib_single_eq.
    Qed.
  End Block.

  Lemma ktb_correct (A B : list T) N x y br bi :
    length A = N * N -> length B = N * N -> x + br <= N -> y + br <= N ->
    (4 | br) -> 0 < bi -> (bi | N) ->
    exists C', kernel_transposed_blocked A B (replicate (br * br) nzero) N x y br bi = Ret C' /\
               is_block br x y (prod_t_chunks bi N A B) C'.
  Proof.
    intros HA HB Hx Hy H4 Hbi HdN. unfold kernel_transposed_blocked. rewrite forS_step by done.
    set (cellv := fun kb i j => dot (fun k => nmul (ent N A (x + i) (kb + k)) (ent N B (y + j) (kb + k))) (seq 0 bi)).
    set (us := fun kb => rng 0 br 4 ≫= fun i => rng 0 br 2 ≫= fun j =>
       block_us br bi (fun i k => ent N A (x + i) (kb + k)) (fun j k => ent N B (y + j) (kb + k)) i j).
    assert (Hloop : forall kbs As Bs C, (forall kb, kb ∈ kbs -> kb + bi <= N) ->
       length As = bi * br -> length Bs = bi * br -> length C = br * br ->
       exists As' Bs', 
       foldP kbs (fun k_block (st : list T * list T * list T) =>
        let '(A_small, B_small, C) := st in
        let! A_small := ktb_copy A A_small N x k_block br bi in
        let! B_small := ktb_copy B B_small N y k_block br bi in
        let! C := forS 0 br 4 (fun i C =>
                    forS 0 br 2 (fun j C =>
                      ktb_block A_small B_small br bi i j C) C) C in
        Ret (A_small, B_small, C)) (As, Bs, C) = Ret (As', Bs', applyL (kbs ≫= us) C)).
    { induction kbs as [|kb kbs IH]; intros As Bs C Hkbs HAs HBs HC; [by eexists _, _|].
      cbn [foldP].
      assert (kb + bi <= N) by (apply Hkbs, elem_of_cons; by left).
      destruct (ktb_copy_ok A As N x kb br bi) as (As1&->&HlA&HA1); [done..|]. cbn [pbind].
      destruct (ktb_copy_ok B Bs N y kb br bi) as (Bs1&->&HlB&HB1); [done..|]. cbn [pbind].
      rewrite (ktb_loops_ok As1 Bs1 br bi (fun i k => ent N A (x + i) (kb + k)) (fun j k => ent N B (y + j) (kb + k)) HA1 HB1 C H4 HC).
      cbn [pbind]. destruct (IH As1 Bs1 (applyL (us kb) C)) as (As'&Bs'&He).
      - intros kb' Hkb'. apply Hkbs, elem_of_cons; by right.
      - done.
      - done.
      - by rewrite length_applyL.
      - exists As', Bs'. rewrite bind_cons, applyL_app. exact He. }
    destruct (Hloop (rng 0 N bi) (replicate (bi * br) nzero) (replicate (bi * br) nzero) (replicate (br * br) nzero)) as (As'&Bs'&->).
    - intros kb Hkb. apply elem_of_rng0 in Hkb as (q&->&Hq); [|done]. simpl in *.
      pose proof (block_lt bi N q (bi - 1) HdN Hbi ltac:(lia) Hq). lia.
    - apply replicate_length.
    - apply replicate_length.
    - apply replicate_length.
    - cbn [pbind]. eexists. split; [reflexivity|]. cbn. split; [by rewrite length_applyL, replicate_length|].
      intros i j Hi Hj. rewrite applyL_lookup, lookup_replicate_2 by (by apply mixed_lt). simpl. f_equal.
      rewrite contrib_bind.
      rewrite (bind_ext (fun kb => contrib (i * br + j) (us kb)) (fun kb => [fun c => nadd c (cellv kb i j)]) (rng 0 N bi))
        by (intros kb _; exact (contrib_ktb br bi _ _ i j H4 Hi Hj)).
      rewrite bind_ret_fmap.
      unfold prod_t_chunks, dot_chunks. rewrite (divide_div_mul N bi Hbi HdN) at 1.
      rewrite rng_0_exact by done. rewrite <- list_fmap_compose.
      assert (forall ks z, fold_upd ((fun (kb : nat) (c : T) => nadd c (cellv kb i j)) ∘ (fun q => q * bi) <$> ks) z
        = foldl (fun acc q => nadd acc (dot (fun k => nmul (ent N A (x + i) k) (ent N B (y + j) k)) (seq (q * bi) bi))) z ks) as Hf.
      { induction ks as [|q ks IH]; intros z; [done|]. simpl. unfold fold_upd in *. rewrite <- IH. simpl.
        f_equal. unfold cellv. f_equal. 
        replace (seq (q * bi) bi) with (Nat.add (q * bi) <$> seq 0 bi) by (rewrite fmap_add_seq; f_equal; lia).
        by rewrite dot_fmap. }
      apply Hf.
  Qed.

  (** ** kernel_transposed_blocked outside its conditions *)
  Lemma okI_weak {A} (I J : A -> Prop) E (p : prog T A) : (forall a, I a -> J a) -> okI I E p -> okI J E p.
  Proof. intros HIJ [(a&->&Ha)| ->]; [left; eauto|by right]. Qed.
  Lemma okI_forS1 {S} (I : S -> Prop) E lo hi st (f : nat -> S -> prog T S) s :
    0 < st -> I s -> (forall x s, x ∈ rng lo hi st -> I s -> okI I E (f x s)) -> okI I E (forS lo hi st f s).
  Proof. intros Hst Hs Hf. rewrite forS_step by done. by apply okI_foldP. Qed.
  Lemma forS_fails {S} (I : S -> Prop) E lo hi st x0 (f : nat -> S -> prog T S) s :
    0 < st -> I s -> (forall x s, x ∈ rng lo hi st -> I s -> okI I E (f x s)) -> x0 ∈ rng lo hi st ->
    (forall s, I s -> f x0 s = Err E) -> forS lo hi st f s = Err E.
  Proof. intros Hst Hs Hf Hin Hx. rewrite forS_step by done. by eapply foldP_fails. Qed.

  Lemma okI_copy (M small : list T) N x kb br bi n : length small = n ->
    okI (fun s => length s = n) EOob (ktb_copy M small N x kb br bi).
  Proof.
    intros Hn. apply okI_forS1; [lia|done|]. intros i s Hi Hs.
    apply okI_forS1; [lia|done|]. intros k s' Hk Hs'.
    eapply okI_bind; [apply okI_vget|]. intros v _.
    eapply okI_weak; [|apply okI_vset]. simpl. congruence.
  Qed.
  Lemma okI_vadd (C : list T) i v n : length C = n -> okI (fun s => length s = n) EOob (vadd C i v).
  Proof.
    intros Hn. eapply okI_bind; [apply okI_vget|]. intros c _.
    eapply okI_weak; [|apply okI_vset]. simpl. congruence.
  Qed.
  Lemma okI_block (As Bs C : list T) br bi i j n : length C = n ->
    okI (fun s => length s = n) EOob (ktb_block As Bs br bi i j C).
  Proof.
    intros Hn. eapply (okI_bind (fun _ => True)).
    - apply okI_forS1; [lia|done|]. intros k acc _ _. unfold ktb_inner.
      destruct acc as [[[[[[[c0 c1] c2] c3] c4] c5] c6] c7].
      do 6 (eapply okI_bind; [apply okI_vget|]; intros ? _). left; eexists; split; [reflexivity|done].
    - intros [[[[[[[c0 c1] c2] c3] c4] c5] c6] c7] _.
      do 8 (eapply (okI_bind (fun s => length s = n)); [by apply okI_vadd|]; intros ? ?). left; eexists; split; [reflexivity|done].
  Qed.
  Lemma okI_body (A B As Bs C : list T) N x y kb br bi :
    length As = bi * br -> length Bs = bi * br -> length C = br * br ->
    okI (fun st : list T * list T * list T => length st.1.1 = bi * br /\ length st.1.2 = bi * br /\ length st.2 = br * br) EOob
      (let! A_small := ktb_copy A As N x kb br bi in
       let! B_small := ktb_copy B Bs N y kb br bi in
       let! C := forS 0 br 4 (fun i C => forS 0 br 2 (fun j C => ktb_block A_small B_small br bi i j C) C) C in
       Ret (A_small, B_small, C)).
  Proof.
    intros HAs HBs HC. eapply okI_bind; [by apply okI_copy|]. intros As' HAs'.
    eapply okI_bind; [by apply okI_copy|]. intros Bs' HBs'.
    eapply (okI_bind (fun s => length s = br * br)).
    - apply okI_forS1; [lia|done|]. intros i s _ Hs. apply okI_forS1; [lia|done|]. intros j s' _ Hs'.
      by apply okI_block.
    - intros C' HC'. left; eexists; split; [done|]. done.
  Qed.

  Lemma copy_fails (M small : list T) N x kb br bi :
    length M = N * N -> length small = bi * br -> 0 < br -> x + br = N -> kb < N -> N < kb + bi ->
    ktb_copy M small N x kb br bi = Err EOob.
  Proof.
    intros HM Hs Hbr Hx Hkb HN. unfold ktb_copy.
    apply (forS_fails (fun s => length s = bi * br) EOob _ _ _ (br - 1)); [lia|done| | |].
    - intros i s _ Hs'. apply okI_forS1; [lia|done|]. intros k s' _ Hs''.
      eapply okI_bind; [apply okI_vget|]. intros v _. eapply okI_weak; [|apply okI_vset]. simpl; congruence.
    - apply elem_of_rng0; [lia|]. exists (br - 1). lia.
    - intros s Hs'. apply (forS_fails (fun s => length s = bi * br) EOob _ _ _ (N - kb)); [lia|done| | |].
      + intros k s' _ Hs''.
        eapply okI_bind; [apply okI_vget|]. intros v _. eapply okI_weak; [|apply okI_vset]. simpl; congruence.
      + apply elem_of_rng0; [lia|]. exists (N - kb). lia.
      + intros s' Hs''. rewrite vget_oob; [done|]. rewrite HM.
        replace (x + (br - 1)) with (N - 1) by lia.
        replace ((N - 1) * N + kb + (N - kb)) with ((N - 1) * N + N) by lia.
        destruct N as [|N']; [lia|]. replace (S N' - 1) with N' by lia. lia.
  Qed.

  Lemma ktb_oob_input (A B C : list T) N x y br bi :
    length A = N * N -> length B = N * N -> length C = br * br -> 0 < br -> x + br <= N -> y + br <= N ->
    0 < bi -> ~ (bi | N) -> x + br = N \/ y + br = N ->
    kernel_transposed_blocked A B C N x y br bi = Err EOob.
  Proof.
    intros HA HB HC Hbr Hx Hy Hbi Hnd Hrow. unfold kernel_transposed_blocked.
    erewrite (forS_fails (fun st : list T * list T * list T =>
       length st.1.1 = bi * br /\ length st.1.2 = bi * br /\ length st.2 = br * br) EOob _ _ _ (N / bi * bi)); [done|lia| | | |].
    - simpl. by rewrite !replicate_length.
    - intros kb [[As Bs] C'] _ (?&?&?). by apply okI_body.
    - apply elem_of_rng0; [lia|]. exists (N / bi). split; [done|].
      pose proof (Nat.mul_div_le N bi). destruct (decide (N / bi * bi = N)) as [He|]; [|lia].
      destruct Hnd. by exists (N / bi).
    - intros [[As Bs] C'] (HAs&HBs&HC'). simpl in *.
      assert (N / bi * bi < N).
      { pose proof (Nat.mul_div_le N bi). destruct (decide (N / bi * bi = N)) as [He|]; [|lia].
        destruct Hnd. by exists (N / bi). }
      assert (N < N / bi * bi + bi) by (pose proof (Nat.mul_succ_div_gt N bi); lia).
      destruct (decide (x + br = N)) as [He|Hne].
      + rewrite (copy_fails A As) by (first [assumption|lia]). done.
      + destruct (okI_copy A As N x (N / bi * bi) br bi (bi * br) HAs) as [(As'&->&HAs')| ->]; [|done].
        cbn [pbind]. rewrite copy_fails by (first [assumption|lia]). done.
  Qed.

  Lemma block_fails (As Bs C : list T) br bi i j :
    length As = bi * br -> 0 < bi -> br <= i + 3 -> ktb_block As Bs br bi i j C = Err EOob.
  Proof.
    intros HAs Hbi Hi. unfold ktb_block.
    rewrite (forS_fails (fun _ => True) EOob _ _ _ 0); [done|lia|done| | |].
    - intros k acc _ _. unfold ktb_inner. destruct acc as [[[[[[[c0 c1] c2] c3] c4] c5] c6] c7].
      do 6 (eapply okI_bind; [apply okI_vget|]; intros ? _). left; eexists; split; [reflexivity|done].
    - apply elem_of_rng0; [lia|]. exists 0. lia.
    - intros acc _. unfold ktb_inner. destruct acc as [[[[[[[c0 c1] c2] c3] c4] c5] c6] c7].
      do 5 (match goal with |- context [vget ?v ?k] =>
              destruct (okI_vget v k) as [(?&->&_)| ->]; [|done]; cbn [pbind] end).
      rewrite vget_oob; [done|]. rewrite HAs, Nat.add_0_r, Nat.mul_comm. by apply Nat.mul_le_mono_r.
  Qed.

  Lemma ktb_oob_result (A B C : list T) N x y br bi :
    length C = br * br -> 0 < br -> 0 < N -> 0 < bi -> ~ (4 | br) ->
    kernel_transposed_blocked A B C N x y br bi = Err EOob.
  Proof.
    intros HC Hbr HN Hbi Hnd. unfold kernel_transposed_blocked.
    assert (br / 4 * 4 < br /\ br < br / 4 * 4 + 4) as [H1 H2].
    { pose proof (Nat.mul_div_le br 4). pose proof (Nat.mul_succ_div_gt br 4).
      destruct (decide (br / 4 * 4 = br)) as [He|]; [|lia]. destruct Hnd. by exists (br / 4). }
    erewrite (forS_fails (fun st : list T * list T * list T =>
       length st.1.1 = bi * br /\ length st.1.2 = bi * br /\ length st.2 = br * br) EOob _ _ _ 0); [done|lia| | | |].
    - simpl. by rewrite !replicate_length.
    - intros kb [[As Bs] C'] _ (?&?&?). by apply okI_body.
    - apply elem_of_rng0; [lia|]. exists 0. lia.
    - intros [[As Bs] C'] (HAs&HBs&HC'). simpl in *.
      destruct (okI_copy A As N x 0 br bi (bi * br) HAs) as [(As'&->&HAs')| ->]; [|done]. cbn [pbind].
      destruct (okI_copy B Bs N y 0 br bi (bi * br) HBs) as [(Bs'&->&HBs')| ->]; [|done]. cbn [pbind].
      rewrite (forS_fails (fun s => length s = br * br) EOob _ _ _ (br / 4 * 4)); [done|lia|done| | |].
      + intros i s _ Hs. apply okI_forS1; [lia|done|]. intros j s' _ Hs'. by apply okI_block.
      + apply elem_of_rng0; [lia|]. exists (br / 4). lia.
      + intros s Hs. apply (forS_fails (fun s => length s = br * br) EOob _ _ _ 0); [lia|done| | |].
        * intros j s' _ Hs'. by apply okI_block.
        * apply elem_of_rng0; [lia|]. exists 0. lia.
        * intros s' Hs'. apply block_fails; [done|done|lia].
  Qed.

  (** ** calculate_submatrix *)
  Lemma prod_t_chunks_exact `{!Exact T} bi N (A B : list T) i j :
    0 < bi -> (bi | N) -> prod_t_chunks bi N A B i j = prod_t_entry N A B i j.
  Proof. intros. unfold prod_t_chunks. by rewrite dot_chunks_exact. Qed.

  Lemma calculate_submatrix_order N (A B : list T) transposed bi x y bs :
    length A = N * N -> length B = N * N -> x + bs <= N -> y + bs <= N -> leaf_ok transposed bi bs N ->
    exists C, calculate_submatrix N A B transposed bi x y bs = Ret C /\
              is_block bs x y (leaf_entry transposed bi bs N A B) C.
  Proof.
    intros HA HB Hx Hy Hok. unfold calculate_submatrix, leaf_entry.
    destruct transposed; simpl.
    - destruct ((bi =? 0) || (bs <? 4)) eqn:E.
      + apply kernel_transposed_correct; [done..| |done|done]. by rewrite replicate_length.
      + apply orb_false_iff in E as [E1%Nat.eqb_neq E2%Nat.ltb_ge].
        destruct Hok as [H4 HbN]; [done|lia|done|]. apply ktb_correct; [done..|lia|done].
    - apply kernel_correct; [done..| |done|done]. by rewrite replicate_length.
  Qed.
  Lemma leaf_entry_exact `{!Exact T} transposed bi bs N (A B : list T) i j :
    leaf_ok transposed bi bs N -> leaf_entry transposed bi bs N A B i j = pentry transposed N A B i j.
  Proof.
    intros Hok. unfold leaf_entry, pentry. destruct transposed; simpl; [|done].
    destruct ((bi =? 0) || (bs <? 4)) eqn:E; [done|].
    apply orb_false_iff in E as [E1%Nat.eqb_neq E2%Nat.ltb_ge].
    destruct Hok as [H4 HbN]; [done|lia|done|]. apply prod_t_chunks_exact; [lia|done].
  Qed.

  Lemma ktb_correct_exact `{!Exact T} (A B : list T) N x y br bi :
    length A = N * N -> length B = N * N -> x + br <= N -> y + br <= N ->
    (4 | br) -> 0 < bi -> (bi | N) ->
    exists C', kernel_transposed_blocked A B (replicate (br * br) nzero) N x y br bi = Ret C' /\
               is_block br x y (prod_t_entry N A B) C'.
  Proof.
    intros. destruct (ktb_correct A B N x y br bi) as (C'&HC&HC'); [assumption..|]. exists C'. split; [done|].
    eapply is_matrix_ext; [|exact HC']. intros i j Hi Hj. by apply prod_t_chunks_exact.
  Qed.
  Lemma calculate_submatrix_exact `{!Exact T} N (A B : list T) transposed bi x y bs :
    length A = N * N -> length B = N * N -> x + bs <= N -> y + bs <= N -> leaf_ok transposed bi bs N ->
    exists C, calculate_submatrix N A B transposed bi x y bs = Ret C /\
              is_block bs x y (pentry transposed N A B) C.
  Proof.
    intros. destruct (calculate_submatrix_order N A B transposed bi x y bs) as (C'&HC&HC'); [assumption..|].
    exists C'. split; [done|]. eapply is_matrix_ext; [|exact HC']. intros i j Hi Hj. by apply leaf_entry_exact.
  Qed.

  Lemma simple_calculate_submatrix N (A B : list T) transposed bi x y bs :
    simple (calculate_submatrix N A B transposed bi x y bs).
  Proof.
    unfold calculate_submatrix, kernel, kernel_transposed, kernel_transposed_blocked, ktb_copy, ktb_block, ktb_inner, vadd.
    repeat first [ apply simple_ret | apply simple_vget | apply simple_vat | apply simple_vset | apply simple_vset_at
                 | apply simple_bind | apply simple_forS | apply simple_pcatch | intros ? | case_match ].
  Qed.
End PKernels.
