(** single and pseudodynamic outside their domain (matrices of ones). *)
From Verif Require Import Tools Tools2 MSchedule SpecSched SpecDomain PKernels PRecursive PSchedule PPseudo PDomain1 PDomain2.

Section Keep.
  Context {T : Type}.
  Lemma run_parL_keep {X : Type} (I : mem T -> Prop) (l : list X) (f : X -> prog T unit) m m' :
    (forall x m m', x ∈ l -> I m -> run (f x) m = Ok (tt, m') -> I m') -> I m -> run (parL l f) m = Ok (tt, m') -> I m'.
  Proof.
    revert m. induction l as [|x l IH]; intros m Hf Hm; cbn [parL run]; [by intros [= <-]|].
    destruct (run (f x) m) as [[[] m1]|] eqn:E; [|done]. destruct (run (parL l f) m1) as [[[] m2]|] eqn:E2; [|done].
    intros [= <-]. eapply (IH m1); [|eapply Hf; [|exact Hm|exact E]|done].
    - intros y m3 m4 Hy. apply Hf, elem_of_cons. by right.
    - apply elem_of_cons. by left.
  Qed.
  Lemma run_foldP_keep {X : Type} (I : mem T -> Prop) (l : list X) (f : X -> prog T unit) m m' :
    (forall x m m', x ∈ l -> I m -> run (f x) m = Ok (tt, m') -> I m') -> I m -> run (foldP l (fun x _ => f x) tt) m = Ok (tt, m') -> I m'.
  Proof.
    revert m. induction l as [|x l IH]; intros m Hf Hm; cbn [foldP run]; [by intros [= <-]|].
    intros ([]&m1&E&E2)%run_bind_inv. eapply (IH m1); [|eapply Hf; [|exact Hm|exact E]|done].
    - intros y m3 m4 Hy. apply Hf, elem_of_cons. by right.
    - apply elem_of_cons. by left.
  Qed.
End Keep.

Lemma rec_ok_0 t bi br N : rec_ok t bi br N 0.
Proof. exists 0, 0. split_and!; [done|lia|by left|]. intros _ _ H4. lia. Qed.

Section Wrong.
  Context (N : nat) (t : bool) (bi br : nat) (HN : 0 < N).
  Local Notation A := (ones N). Local Notation B := (ones N).
  Local Notation product := (is_matrix N (pentry t N A B)).

  Lemma entry_wrong C p v : p < N * N -> C !! p = Some v -> v <> Z.of_nat N -> ~ product C.
  Proof.
    intros Hp Hv Hne [_ HC]. assert (p / N < N) by (apply Nat.div_lt_upper_bound; lia).
    pose proof (Nat.mod_upper_bound p N ltac:(lia)).
    specialize (HC (p / N) (p mod N) ltac:(done) ltac:(done)). unfold ones in HC. rewrite ones_entry in HC by done.
    rewrite (Nat.mul_comm (p / N)), <- Nat.div_mod in HC by lia. congruence.
  Qed.

  Lemma single_wrong reps C : reps = 0 \/ ~ rec_ok t bi br N N ->
    may_return (single_matrix_multiply N A B t bi br reps) C -> ~ product C.
  Proof.
    intros Hbad [m Hr]. apply drf_return in Hr; [|apply single_drf].
    unfold single_matrix_multiply in Hr. rewrite forS_step in Hr by lia. rewrite rng_1, Nat.sub_0_r in Hr.
    destruct reps as [|r].
    - simpl in Hr. injection Hr as <- _. apply (entry_wrong _ 0 0%Z); [nia|apply lookup_replicate_2; nia|lia].
    - destruct Hbad as [?|Hno]; [done|]. rewrite seq_S in Hr. rewrite run_foldP_snoc in Hr.
      destruct (run (foldP (seq 0 r) _ _) ∅) as [[C1 m1]|]; [|done].
      apply distribute_wrong in Hr as (_&p&v&Hp&Hv&Hne); [|done|done|done|done]. by eapply entry_wrong.
  Qed.

  Lemma task_inv path w m m' : length path = 2 -> inside (Z.of_nat N) w -> Cpresent N m ->
    run (package_task N A B t bi br [0] path w) m = Ok (tt, m') ->
    Cpresent N m' /\ (~ rec_ok t bi br N (Z.to_nat (wN w)) ->
      exists i j v, i < Z.to_nat (wN w) /\ j < Z.to_nat (wN w) /\
        m' !! (([0], (Z.to_nat (wx w) + i) * N + (Z.to_nat (wy w) + j)) : loc) = Some (VD v) /\ v <> Z.of_nat N).
  Proof.
    intros Hpath (?&?&?&?&?) Hm. unfold package_task. intros (S&m1&Hd&Hr)%run_bind_inv.
    assert (Hm1 : Cpresent N m1).
    { intros p Hp. destruct (Hm p Hp) as [v Ht]. exists v. rewrite <- Ht.
      eapply (run_unchanged (fun _ => False) (sub path)); [|exact Hd|].
      - apply acc_in_bind; [apply dist_acc|]. intros _. apply acc_in_vread. intros i. right. apply sub_self.
      - intros [s Hs]. simpl in Hs. apply (f_equal length) in Hs. rewrite app_length, Hpath in Hs. simpl in Hs. lia. }
    set (n := Z.to_nat (wN w)) in *. set (x := Z.to_nat (wx w)) in *. set (y := Z.to_nat (wy w)) in *.
    assert (HS : length S = n * n).
    { apply run_bind_inv in Hd as ([]&m2&_&Hv). by apply run_vread_inv in Hv as (_&?&_). }
    rewrite (insert_does N S x y n HS m1) in Hr.
    - injection Hr as <-. split.
      + intros p Hp. destruct (Hm1 p Hp) as [v Hv]. rewrite applyM_lookup, Hv. simpl. eauto.
      + intros Hno. assert (0 < n) by (destruct n; [destruct Hno; apply rec_ok_0|lia]).
        destruct (distribute_wrong N t bi br n path x y S m m1) as (_&p&v&Hp&Hv&Hne); [lia|done|lia|lia|done|].
        assert (p / n < n) by (apply Nat.div_lt_upper_bound; lia).
        pose proof (Nat.mod_upper_bound p n ltac:(lia)).
        exists (p / n), (p mod n), v. split_and!; [done|done| |done].
        rewrite applyM_lookup, contrib_ins by lia.
        destruct (Hm1 ((x + p / n) * N + (y + p mod n))) as [v' ->]; [apply mixed_lt; lia|]. simpl. do 2 f_equal.
        apply ent_eq. rewrite <- Hv. f_equal. rewrite (Nat.div_mod p n) at 3 by lia. lia.
    - intros u Hu. unfold ins_us in Hu. apply elem_of_list_bind in Hu as (i&Hu&Hi%elem_of_seq).
      apply elem_of_list_bind in Hu as (j&Hu&Hj%elem_of_seq). apply elem_of_list_singleton in Hu as ->. simpl.
      apply Hm1. apply mixed_lt; lia.
  Qed.

  Lemma body_wrong ws reps C m : Forall (inside (Z.of_nat N)) ws -> (forall i j, hits i j ws <= 1) ->
    reps = 0 \/ (exists w, w ∈ ws /\ ~ rec_ok t bi br N (Z.to_nat (wN w))) ->
    run (body N A B t bi br ws reps) ∅ = Ok (C, m) -> ~ product C.
  Proof.
    intros Hin Hh Hbad Hr. unfold body in Hr. apply run_bind_inv in Hr as ([]&m1&Hr1&Hr).
    destruct (run_valloc [0] (N * N) (nzero : Z) ∅) as (m1'&Hr1'&Hz1&_). rewrite Hr1' in Hr1. injection Hr1 as <-.
    apply run_bind_inv in Hr as ([]&m2&Hr2&Hv). apply run_vread_inv in Hv as (->&HlC&HC).
    unfold forP in Hr2. rewrite forS_step in Hr2 by lia. rewrite rng_1, Nat.sub_0_r in Hr2.
    assert (HCv : forall p v, p < N * N -> m2 !! (([0], p) : loc) = Some (VD v) -> C !! p = Some v).
    { intros p v Hp Hm. rewrite HC in Hm by done. destruct (C !! p); simpl in Hm; by simplify_eq. }
    pose proof Hin as Hin'. rewrite Forall_forall in Hin'.
    assert (Hkeep : forall r kw m m', kw ∈ tasks ws -> Cpresent N m ->
      run (package_task N A B t bi br [0] [kw.1; S r] kw.2) m = Ok (tt, m') -> Cpresent N m').
    { intros r [k w] m0 m0' Hk%elem_of_tasks Hm0 Hrun. eapply (task_inv [k; S r] w); [done| |exact Hm0|exact Hrun].
      apply Hin'. by eapply elem_of_list_lookup_2. }
    destruct reps as [|r].
    - injection Hr2 as <-. apply (entry_wrong _ 0 0%Z); [nia| |lia]. apply HCv; [nia|]. apply Hz1. nia.
    - destruct Hbad as [?|(w&Hw&Hno)]; [done|]. rewrite seq_S, run_foldP_snoc in Hr2.
      destruct (run (foldP (seq 0 r) _ _) m1') as [[[] m3]|] eqn:E3; [|done].
      assert (Hm3 : Cpresent N m3).
      { eapply (run_foldP_keep (Cpresent N)); [| |exact E3].
        - intros r' ma mb _ Hma Hrun. eapply run_parL_keep; [|exact Hma|exact Hrun]. intros kw mc md. apply Hkeep.
        - intros p Hp. exists 0%Z. by apply Hz1. }
      apply elem_of_list_lookup in Hw as [k Hk]. pose proof Hk as Hin2. apply elem_of_tasks in Hin2.
      apply elem_of_list_split in Hin2 as (l1&l2&Hl). simpl in Hr2. unfold round in Hr2.
      pose proof (NoDup_tasks ws) as Hnd. rewrite Hl in Hnd.
      assert (Hmem : forall kw, kw ∈ l1 \/ kw ∈ l2 -> kw ∈ tasks ws).
      { intros kw Hkw. rewrite Hl, elem_of_app, elem_of_cons. tauto. }
      rewrite Hl in Hr2. apply run_parL_app_inv in Hr2 as (m4&Hr4&Hr2).
      change ((k, w) :: l2) with ([(k, w)] ++ l2) in Hr2. apply run_parL_app_inv in Hr2 as (m5&Hr5&Hr2).
      assert (Hm4 : Cpresent N m4).
      { eapply run_parL_keep; [|exact Hm3|exact Hr4]. intros kw ma mb Hkw. apply Hkeep, Hmem. by left. }
      cbn [parL run] in Hr5.
      destruct (run (package_task N A B t bi br [0] [(k, w).1; S r] (k, w).2) m4) as [[[] m5']|] eqn:E5; [|done].
      injection Hr5 as <-.
      destruct (task_inv [k; S r] w m4 m5' eq_refl (Hin' w (elem_of_list_lookup_2 _ _ _ Hk)) Hm4 E5) as [_ Hw'].
      destruct (Hw' Hno) as (i&j&v&Hi&Hj&Hmv&Hne).
      pose proof (Hin' w (elem_of_list_lookup_2 _ _ _ Hk)) as (?&?&?&?&?).
      assert (Hp : (Z.to_nat (wx w) + i) * N + (Z.to_nat (wy w) + j) < N * N) by (apply mixed_lt; lia).
      eapply entry_wrong; [exact Hp| |exact Hne]. apply HCv; [done|]. rewrite <- Hmv.
      eapply (run_unchanged (fun _ => False) (fun l => exists kw, kw ∈ l2 /\ pw N [kw.1; S r] kw.2 l)); [|exact Hr2|].
      + apply acc_in_parL. intros kw Hkw. eapply acc_in_mono; [| |apply task_acc]; [done|]. intros l Hl'. by exists kw.
      + intros ([k' w']&Hkw&Hpw). pose proof (Hmem _ (or_intror Hkw)) as Hk'%elem_of_tasks.
        eapply (pw_disj N k' k (S r) w' w ws); [done|done|done|done| |exact Hpw|].
        * intros ->. assert (w' = w) as -> by congruence. apply NoDup_app in Hnd as (_&_&Hnd).
          by apply NoDup_cons in Hnd as [? _].
        * right. by exists i, j.
  Qed.
End Wrong.
