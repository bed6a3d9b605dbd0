(** Equal shares for the square of a number of localities. *)
From Coq Require Import ZArith Lia.
From Verif Require Import Base SpecSched.
Local Open Scope Z_scope.

Definition grid (k : nat) (n : Z) (q : nat) : list work := [Work (Z.of_nat (q / k) * n) (Z.of_nat (q mod k) * n) n].
Lemma hits_grid k n i j l : hits i j (concat (grid k n <$> l)) = length (filter (fun q => has (Work (Z.of_nat (q / k) * n) (Z.of_nat (q mod k) * n) n) i j) l).
Proof.
  unfold hits. induction l as [|q l IH]; [done|]. cbn [fmap list_fmap concat]. unfold grid at 1. cbn [app].
  rewrite !filter_cons. destruct (decide (has (Work (Z.of_nat (q / k) * n) (Z.of_nat (q mod k) * n) n) i j)); cbn [length]; by rewrite IH.
Qed.
Lemma equal_shares_exist k n : 0 < n -> exists all, length all = (k * k)%nat /\
  (forall ws, ws ∈ all -> area ws = n * n /\ forall w, w ∈ ws -> wN w = n /\ inside (Z.of_nat k * n) w) /\
  forall i j, 0 <= i < Z.of_nat k * n -> 0 <= j < Z.of_nat k * n -> hits i j (concat all) = 1%nat.
Proof.
  intros Hn. exists (grid k n <$> seq 0 (k * k)). split; [by rewrite fmap_length, seq_length|]. split.
  - intros ws (q&->&Hq)%elem_of_list_fmap. apply elem_of_seq in Hq. unfold grid. split; [cbn; lia|].
    intros w ->%elem_of_list_singleton. split; [done|]. unfold inside. cbn [wx wy wN].
    assert (q / k < k)%nat by (apply Nat.div_lt_upper_bound; lia). assert (q mod k < k)%nat by (apply Nat.mod_upper_bound; lia). nia.
  - intros i j Hi Hj. rewrite hits_grid.
    assert (Hi' : 0 <= i / n < Z.of_nat k) by (split; [apply Z.div_pos; lia|apply Z.div_lt_upper_bound; lia]).
    assert (Hj' : 0 <= j / n < Z.of_nat k) by (split; [apply Z.div_pos; lia|apply Z.div_lt_upper_bound; lia]).
    set (q0 := (Z.to_nat (i / n) * k + Z.to_nat (j / n))%nat).
    assert (Hk : (k <> 0)%nat) by lia. assert (Hq0 : (Z.to_nat (j / n) < k)%nat) by lia.
    assert (E1 : (q0 / k)%nat = Z.to_nat (i / n)) by (unfold q0; rewrite Nat.div_add_l, (Nat.div_small _ k Hq0) by done; lia).
    assert (E2 : (q0 mod k)%nat = Z.to_nat (j / n)) by (unfold q0; rewrite Nat.add_comm, Nat.mod_add by done; by apply Nat.mod_small).
    assert (Hone : forall a x, 0 <= a -> (a * n <= x < a * n + n <-> x / n = a)).
    { intros a x Ha. pose proof (Z.div_mod x n ltac:(lia)) as Hd. pose proof (Z.mod_pos_bound x n Hn) as Hm. split; intros H.
      - symmetry. apply (Z.div_unique_pos x n a (x - a * n)); lia.
      - subst a. lia. }
    transitivity (length [q0]); [|done]. apply Permutation_length, NoDup_Permutation; [apply NoDup_filter, NoDup_seq|apply NoDup_singleton|].
    intros q. rewrite elem_of_list_filter, elem_of_list_singleton, elem_of_seq. unfold has. cbn [wx wy wN].
    rewrite !Hone by lia. split.
    + intros [[H1 H2] Hq]. rewrite (Nat.div_mod q k Hk). unfold q0. rewrite H1, H2, !Nat2Z.id. lia.
    + intros ->. rewrite E1, E2. split; [lia|]. unfold q0. nia.
Qed.
Lemma size_512 c : 0 < c -> size_of (512 * c) (2 * c - 1) (32 * c).
Proof.
  intros Hc. exists 4. split; [lia|]. split; [|right].
  - change (2 ^ 4) with 16. replace (512 * c) with (32 * c * 16) by lia. by rewrite Z.div_mul.
  - change (2 ^ (4 - 1)) with 8. replace (512 * c) with (64 * c * 8) by lia. rewrite Z.div_mul; lia.
Qed.
