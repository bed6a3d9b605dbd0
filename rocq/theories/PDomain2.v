(** The recursive component outside its domain: on matrices of ones some entry
    of the block it returns is wrong, or it returns no block. *)
From Verif Require Import Tools Tools2 MSchedule SpecSched SpecDomain PKernels PRecursive PSchedule PPseudo PDomain1.

Definition ones (N : nat) : list Z := replicate (N * N) 1%Z.
Lemma dot_const (c : Z) l : dot (fun _ => c) l = (c * Z.of_nat (length l))%Z.
Proof.
  assert (forall a, foldl (fun acc _ => nadd acc c) a l = (a + c * Z.of_nat (length l))%Z) as F.
  { induction l as [|x l IH]; intros a; cbn [foldl length]; [lia|]. rewrite IH. simpl. lia. }
  unfold dot. rewrite F. simpl. lia.
Qed.

Lemma div4_dec n : (4 | n) \/ ~ (4 | n).
Proof. destruct (decide (n mod 4 = 0)) as [He|He]; [left; by apply Nat.mod_divide|right]. intros Hd%Nat.mod_divide; done. Qed.
Lemma div_dec b n : 0 < b -> (b | n) \/ ~ (b | n).
Proof. intros Hb. destruct (decide (n mod b = 0)) as [He|He]; [left; apply Nat.mod_divide; [lia|done]|right]. intros Hd%Nat.mod_divide; [done|lia]. Qed.

Lemma run_parL_app_inv {T X : Type} (l1 l2 : list X) (f : X -> prog T unit) m m' :
  run (parL (l1 ++ l2) f) m = Ok (tt, m') -> exists m1, run (parL l1 f) m = Ok (tt, m1) /\ run (parL l2 f) m1 = Ok (tt, m').
Proof.
  revert m. induction l1 as [|x l1 IH]; intros m; [by exists m|]. cbn [Datatypes.app parL run].
  destruct (run (f x) m) as [[[] m1]|]; [|done]. destruct (run (parL (l1 ++ l2) f) m1) as [[[] m2]|] eqn:E; [|done].
  intros [= <-]. destruct (IH m1 E) as (m3&H3&H4). exists m3. rewrite H3. done.
Qed.

Section Rec.
  Context (t : bool) (bi br N : nat).
  Lemma leaf_bad n : leaf_ok t bi n N \/ (t = true /\ 0 < bi /\ 4 <= n /\ (~ (4 | n) \/ ~ (bi | N))).
  Proof.
    unfold leaf_ok. destruct t; [|left; done]. destruct (decide (0 < bi)); [|left; lia]. destruct (decide (4 <= n)); [|left; lia].
    destruct (div4_dec n); [|right; tauto]. destruct (div_dec bi N); [done|left; tauto|right; tauto].
  Qed.
  Lemma rec_ok_half n : rec_ok t bi br N n -> br < 2 * n -> rec_ok t bi br N (2 * n).
  Proof.
    intros (ms&d&->&H1&H2&H3) Hbr. exists ms, (S d). split_and!; [simpl; lia|done| |done]. right.
    destruct H2 as [->|]; [simpl in Hbr; lia|done].
  Qed.
End Rec.

Section Bad.
  Context (N : nat) (t : bool) (bi br : nat).
  Local Notation A := (ones N). Local Notation B := (ones N).
  Local Notation dist := (dist N A B t bi br).

  Lemma over_ones b i j : i * N + cdiv N b * b <= N * N -> j * N + cdiv N b * b <= N * N ->
    over_entry b N A B i j = Z.of_nat (cdiv N b * b).
  Proof.
    intros Hi Hj. unfold over_entry. rewrite (dot_ext _ (fun _ => Z.of_nat b)).
    - rewrite dot_const, seq_length. lia.
    - intros q Hq%elem_of_seq. rewrite (dot_ext _ (fun _ => 1%Z)).
      + rewrite dot_const, seq_length. lia.
      + intros k Hk%elem_of_seq. assert (q * b + b <= cdiv N b * b) by nia.
        unfold ent, ones. rewrite !lookup_replicate_2 by lia. done.
  Qed.

  Lemma leaf_wrong x y n C : ~ leaf_ok t bi n N -> 0 < n -> x + n <= N -> y + n <= N ->
    calculate_submatrix N A B t bi x y n = Ret C -> exists v, C !! 0 = Some v /\ v <> Z.of_nat N.
  Proof.
    intros Hno Hn Hx Hy. destruct (leaf_bad t bi N n) as [|(->&Hbi&H4&Hbad)]; [done|].
    unfold calculate_submatrix. simpl negb. cbn match.
    replace ((bi =? 0) || (n <? 4)) with false by (symmetry; apply orb_false_intro; [apply Nat.eqb_neq|apply Nat.ltb_ge]; lia).
    destruct (div4_dec n) as [Hd|Hd].
    - destruct Hbad as [?|Hbad]; [done|].
      destruct (decide ((x + n - 1) * N + cdiv N bi * bi <= length A /\ (y + n - 1) * N + cdiv N bi * bi <= length B)) as [[HA HB]|HAB].
      + destruct (ktb_over A B N x y n bi Hd Hbi HA HB) as (C'&->&_&HC'). intros [= <-].
        pose proof (HC' 0 0 Hn Hn) as H0. simpl in H0. eexists; split; [exact H0|].
        unfold ones in HA, HB. rewrite replicate_length in HA, HB.
        assert ((x + 0) * N <= (x + n - 1) * N) by (apply Nat.mul_le_mono_r; lia).
        assert ((y + 0) * N <= (y + n - 1) * N) by (apply Nat.mul_le_mono_r; lia).
        rewrite over_ones by lia. intros He. apply Nat2Z.inj in He. apply Hbad. rewrite <- He. by exists (cdiv N bi).
      + rewrite ktb_over_fails; [done|by rewrite replicate_length|done|done|lia|lia].
    - rewrite ktb_oob_result; [done|by rewrite replicate_length|done|lia|done|done].
  Qed.

  (** One call of the component. *)
  Definition wrong_block (path : arr) (n : nat) (m : mem Z) : Prop :=
    exists p v, p < n * n /\ m !! (path, p) = Some (VD v) /\ v <> Z.of_nat N.

  Lemma dist_wrong n : 0 < n -> rec_ok t bi br N n \/
    forall fuel path x y m m', n <= fuel -> x + n <= N -> y + n <= N ->
      run (dist fuel path x y n) m = Ok (tt, m') -> wrong_block path n m'.
  Proof.
    induction (lt_wf n) as [n _ IH]. intros Hn.
    destruct (decide (n <= br)) as [Hle|Hgt].
    - destruct (leaf_bad t bi N n) as [Hok|Hbad].
      + left. exists n, 0. simpl. split_and!; [lia|done|by left|done].
      + right. intros fuel path x y m m' _ Hx Hy. rewrite dist_leaf by auto.
        destruct (simple_calculate_submatrix N A B t bi x y n) as [[C HC]|[e ->]]; [|done]. rewrite HC. cbn [pbind]. intros Hr.
        destruct (leaf_wrong x y n C) as (v&Hv&Hne); [|done|done|done|done|].
        { intros Hok. destruct Hbad as (->&?&?&Hb). destruct (Hok eq_refl) as [? ?]; [done|done|]. tauto. }
        destruct (run_vput path C m) as (m1&Hr1&Hm1). rewrite Hr1 in Hr. injection Hr as <-.
        exists 0, v. split_and!; [nia| |done]. rewrite Hm1 by (by apply lookup_lt_Some in Hv). by rewrite Hv.
    - assert (Hhalf : 2 * (n / 2) <= n) by (apply Nat.mul_div_le; lia).
      set (h := n / 2) in *.
      assert (forall fuel path x y m m' (l : loc), run (parL (offsets h) (node N A B t bi br fuel path x y n)) m = Ok (tt, m') ->
        (forall o, o ∈ offsets h -> ~ node_w path h o l) -> m' !! l = m !! l) as Hkeep.
      { intros fuel path x y m m' l Hr Hl.
        eapply (run_unchanged (fun _ => False) (fun l => exists o, o ∈ offsets h /\ node_w path h o l)); [|exact Hr|].
        - apply acc_in_parL. intros o Ho. eapply acc_in_mono; [| |apply node_acc]; [done|]. intros l' Hl'. by exists o.
        - intros (o&Ho&Hw). by eapply Hl. }
      destruct (decide (n = 2 * h)) as [Hev|Hodd].
      + (* even: the last child *)
        destruct (IH h ltac:(lia) ltac:(lia)) as [Hrec|Hw].
        { left. rewrite Hev. apply rec_ok_half; [done|lia]. }
        right. intros fuel path x y m m' Hf Hx Hy. destruct fuel as [|fuel]; [lia|].
        rewrite dist_node by lia. intros ([]&m1&Hr1&Hr)%run_bind_inv.
        destruct (run_valloc path (n * n) (nzero : Z) m) as (m1'&Hr1'&Hz1&_). rewrite Hr1' in Hr1. injection Hr1 as <-.
        fold h in Hr. change (offsets h) with ([(0, 0, 0); (1, h, 0); (2, 0, h)] ++ [(3, h, h)]) in Hr.
        apply run_parL_app_inv in Hr as (m2&Hr2&Hr3).
        cbn [parL run] in Hr3. destruct (run (node N A B t bi br fuel path x y n (3, h, h)) m2) as [[[] m3]|] eqn:E3; [|done].
        injection Hr3 as <-.
        unfold node in E3. fold h in E3. apply run_bind_inv in E3 as ([]&m4&Hd&E3).
        apply run_bind_inv in E3 as (C&m5&Hv&E3). apply run_vread_inv in Hv as (->&HlC&HC).
        destruct (Hw fuel (3 :: path) (x + h) (y + h) m2 m4 ltac:(lia) ltac:(lia) ltac:(lia) Hd) as (p&v&Hp&Hmv&Hne).
        assert (HCp : C !! p = Some v).
        { rewrite HC in Hmv by done. destruct (C !! p); simpl in Hmv; by simplify_eq. }
        assert (Hcell : forall i j, i < h -> j < h -> m4 !! (path, (h + i) * (2 * h) + (h + j)) = Some (VD nzero)).
        { intros i j Hi Hj. transitivity (m2 !! (path, (h + i) * (2 * h) + (h + j))).
          - eapply run_unchanged; [apply dist_acc|exact Hd|]. intros Hs. by apply sub_cons_ne in Hs.
          - rewrite <- (Hz1 ((h + i) * (2 * h) + (h + j))) by (rewrite Hev; apply mixed_lt; lia).
            eapply (run_unchanged (fun _ => False) (fun l => exists o, o ∈ offsets h /\ o <> (3, h, h) /\ node_w path h o l)); [|exact Hr2|].
            + apply acc_in_parL. intros o Ho. eapply acc_in_mono; [| |apply node_acc]; [done|]. fold h. intros l' Hl'. exists o.
              split_and!; [|by intros ->; rewrite !elem_of_cons, elem_of_nil in Ho; naive_solver|done].
              unfold offsets. rewrite !elem_of_cons in *. naive_solver.
            + intros (o&Ho&Hne'&Hw'). eapply (node_w_disj path h o (3, h, h)); [done| |done|exact Hw'|].
              * unfold offsets. rewrite !elem_of_cons. tauto.
              * right. exists i, j. done. }
        rewrite (extract_does path C h h h HlC m4) in E3.
        2:{ intros u (i&Hu1&Hi%elem_of_seq)%elem_of_list_bind. apply elem_of_list_bind in Hu1 as (j&Hu1&Hj%elem_of_seq).
            apply elem_of_list_singleton in Hu1 as ->. cbn [fst]. rewrite Hcell by lia. eauto. }
        injection E3 as <-.
        assert (p / h < h) by (apply Nat.div_lt_upper_bound; lia).
        pose proof (Nat.mod_upper_bound p h ltac:(lia)).
        exists ((h + p / h) * (2 * h) + (h + p mod h)), v. split_and!; [rewrite Hev; apply mixed_lt; lia| |done].
        rewrite applyM_lookup, contrib_extract, Hcell by lia. simpl. do 2 f_equal. apply ent_eq.
        rewrite <- HCp. f_equal. rewrite (Nat.div_mod p h) at 3 by lia. lia.
      + (* odd: the last entry is in no quadrant *)
        right. intros fuel path x y m m' Hf Hx Hy. destruct fuel as [|fuel]; [lia|].
        rewrite dist_node by lia. intros ([]&m1&Hr1&Hr)%run_bind_inv.
        destruct (run_valloc path (n * n) (nzero : Z) m) as (m1'&Hr1'&Hz1&_). rewrite Hr1' in Hr1. injection Hr1 as <-.
        exists (n * n - 1), 0%Z. split_and!; [nia| |lia].
        fold h in Hr. rewrite (Hkeep _ _ _ _ _ _ _ Hr); [apply Hz1; nia|].
        intros o Ho [Hs|(i&j&Hi&Hj&[= He])]; [by apply sub_cons_ne in Hs|].
        destruct o as [[q ox] oy]. pose proof (offsets_bounds _ _ _ _ Ho). cbn [fst snd] in *.
        assert ((ox + i) * (2 * h) + (oy + j) < 2 * h * (2 * h)) by (apply mixed_lt; lia). nia.
  Qed.

  Lemma distribute_wrong n path x y C m m' : 0 < n -> ~ rec_ok t bi br N n -> x + n <= N -> y + n <= N ->
    run (distribute_recursively N A B t bi br path x y n) m = Ok (C, m') ->
    length C = n * n /\ exists p v, p < n * n /\ C !! p = Some v /\ v <> Z.of_nat N.
  Proof.
    intros Hn Hno Hx Hy ([]&m1&Hd&Hv)%run_bind_inv. apply run_vread_inv in Hv as (->&HlC&HC). split; [done|].
    destruct (dist_wrong n Hn) as [|Hw]; [done|]. destruct (Hw n path x y m m1 ltac:(lia) Hx Hy Hd) as (p&v&Hp&Hm&Hne).
    exists p, v. split_and!; [done| |done]. rewrite HC in Hm by done. destruct (C !! p); simpl in Hm; by simplify_eq.
  Qed.

  Lemma rec_ok_dec n : 0 < n -> rec_ok t bi br N n \/ ~ rec_ok t bi br N n.
  Proof.
    induction (lt_wf n) as [n _ IH]. intros Hn.
    assert (Hsmall : forall ms d, n = ms * 2 ^ d -> n <= br -> (d = 0 \/ br < 2 * ms) -> ms = n).
    { intros ms d He Hle [->|Hb]; [simpl in He; lia|]. destruct d; [simpl in He; lia|].
      assert (1 <= 2 ^ d) by (apply Nat.neq_0_lt_0, Nat.pow_nonzero; lia). simpl in He. nia. }
    destruct (decide (n <= br)) as [Hle|Hgt].
    - destruct (leaf_bad t bi N n) as [Hok|Hbad].
      + left. exists n, 0. simpl. split_and!; [lia|done|by left|done].
      + right. intros (ms&d&He&H1&H2&H3). rewrite (Hsmall ms d He Hle H2) in H3.
        destruct Hbad as (->&?&?&Hb). destruct (H3 eq_refl) as [? ?]; [done|done|]. tauto.
    - destruct (decide (n = 2 * (n / 2))) as [Hev|Hodd].
      + destruct (IH (n / 2) ltac:(lia) ltac:(lia)) as [Hrec|Hno].
        * left. rewrite Hev. apply rec_ok_half; [done|lia].
        * right. intros (ms&d&He&H1&H2&H3). destruct d as [|d]; [simpl in He; lia|].
          apply Hno. exists ms, d. split_and!; [|done| |done].
          -- simpl in He. lia.
          -- destruct H2; [done|by right].
      + right. intros (ms&d&He&H1&H2&H3). destruct d as [|d]; [simpl in He; lia|].
        apply Hodd. simpl in He. assert (n = ms * 2 ^ d * 2) as Hn2 by lia.
        rewrite Hn2 at 2. rewrite Nat.div_mul by lia. lia.
  Qed.
End Bad.
