(** Proofs about the experiment kernels of MExp.v. *)
From Verif Require Import SpecExp Tools Tools2 Tools3 MExp.

(** ** Sums *)
Section Sums.
  Context {T : Type} `{NumOps T}.
  Lemma ent_get n (M : list T) i j : n * n <= length M -> i < n -> j < n -> vget M (i * n + j) = Ret (ent n M i j).
  Proof.
    intros HM Hi Hj. apply vget_lookup, ent_lookup. pose proof (mixed_lt n n i j Hi Hj). lia.
  Qed.
  Lemma fold_upd_fmap {X} (g : X -> T -> T) l v : fold_upd (g <$> l) v = foldl (fun a x => g x a) v l.
  Proof. unfold fold_upd. revert v. induction l as [|x l IH]; intros v; simpl; [done|apply IH]. Qed.
  Lemma contrib_same {K : Type} `{EqDecision K} (l0 : K) {X} (g : X -> T -> T) l :
    contrib l0 (l ≫= fun x => [(l0, g x)]) = g <$> l.
  Proof.
    rewrite contrib_bind, <- bind_ret_fmap. apply bind_ext. intros x _. apply contrib_single_eq.
  Qed.
  Lemma rng_step n : (4 | n) -> rng 0 n 4 = (fun q => 4 * q) <$> seq 0 (n / 4).
  Proof.
    intros [q ->]. rewrite Nat.div_mul by lia. rewrite rng_0_exact by lia.
    apply list_fmap_ext. intros _ x _. lia.
  Qed.
  Lemma contrib_grids {X} (l : list X) r w (f : X -> nat -> nat -> T -> T) i j : i < r -> j < w ->
    contrib (i * w + j) (l ≫= fun k => grid_us r w (f k)) = (fun k => f k i j) <$> l.
  Proof.
    intros Hi Hj. rewrite contrib_bind, <- bind_ret_fmap. apply bind_ext. intros k _. by apply contrib_grid.
  Qed.

  Context `{!Exact T}.
  Lemma dot_perm (f : nat -> T) l1 l2 : l1 ≡ₚ l2 -> dot f l1 = dot f l2.
  Proof.
    induction 1 as [|x l1 l2 _ IH|x y l|l1 l2 l3 _ IH1 _ IH2]; [done| | |congruence].
    - by rewrite !dot_cons_exact, IH.
    - rewrite !dot_cons_exact, !nadd_assoc. f_equal. apply nadd_comm.
  Qed.
  Lemma lanes_chunk kc (f : nat -> T) base : (4 | kc) ->
    dot (lane kc f base) (seq 0 4) = dot f (seq base kc).
  Proof.
    intros [r ->]. unfold lane. rewrite Nat.div_mul by lia.
    rewrite (dot_ext _ (fun l => dot f ((fun q => base + 4 * q + l) <$> seq 0 r))).
    2:{ intros l _. by rewrite dot_fmap. }
    rewrite <- dot_bind_exact. apply dot_perm, NoDup_Permutation; [|apply NoDup_seq|].
    - apply NoDup_ListNoDup.
      assert (forall b, b <= 4 -> NoDup (seq 0 b ≫= fun l => (fun q => base + 4 * q + l) <$> seq 0 r)) as Hn.
      { induction b as [|b IH]; intros Hb; [constructor|].
        rewrite seq_S, bind_app. apply NoDup_app. split_and!.
        - apply IH. lia.
        - intros x (l&(q&->&Hq)%elem_of_list_fmap&Hl)%elem_of_list_bind (l'&(q'&He&Hq')%elem_of_list_fmap&Hl')%elem_of_list_bind.
          apply elem_of_list_singleton in Hl'. apply elem_of_seq in Hl. lia.
        - simpl. rewrite app_nil_r. apply NoDup_fmap_2; [|apply NoDup_seq]. intros x y ?. lia. }
      apply NoDup_ListNoDup, Hn. lia.
    - intros x. rewrite elem_of_list_bind. split.
      + intros (l&(q&->&Hq)%elem_of_list_fmap&Hl). apply elem_of_seq in Hl, Hq. apply elem_of_seq. lia.
      + intros Hx%elem_of_seq. exists ((x - base) mod 4). pose proof (Nat.div_mod (x - base) 4).
        pose proof (Nat.mod_upper_bound (x - base) 4). split; [|apply elem_of_seq; lia].
        apply elem_of_list_fmap. exists ((x - base) / 4). split; [lia|]. apply elem_of_seq. lia.
  Qed.
  Theorem dot_lanes_exact kc (f : nat -> T) N : 0 < kc -> (4 | kc) -> (kc | N) ->
    dot_lanes kc f N = dot f (seq 0 N).
  Proof.
    intros Hk H4 [q ->]. unfold dot_lanes. rewrite Nat.div_mul by lia.
    rewrite <- seq_blocks, dot_bind_exact. unfold dot at 1. apply foldl_ext_in. intros a x _.
    rewrite foldl_nadd_shift. f_equal. by apply lanes_chunk.
  Qed.
End Sums.

(** ** multNaive, multTransposed, multCounter *)
Section Plain.
  Context {T : Type} `{NumOps T}.
  Context (n : nat) (A B C : list T).
  Context (HA : n * n <= length A) (HB : n * n <= length B) (HC : length C = n * n).

  Section Acc.
    Context (g : nat -> nat -> nat -> nat).
    Context (Hg : forall i j k, i < n -> j < n -> k < n -> g i j k < n * n).
    Definition acc_body (i j : nat) : prog T unit :=
      forP 0 n 1 (fun k =>
        let! a := vget A (i * n + k) in
        let! b := vget B (g i j k) in
        let! c := rd cC (i * n + j) in
        wr cC (i * n + j) (nadd c (nmul a b))).
    Definition gent (i j k : nat) : T := default nzero (B !! g i j k).
    Definition acc_us (i j : nat) : list (loc * (T -> T)) :=
      seq 0 n ≫= fun k => [((cC, i * n + j), fun c => nadd c (nmul (ent n A i k) (gent i j k)))].
    Definition acc_upd (i j : nat) (v : T) : T :=
      foldl (fun acc k => nadd acc (nmul (ent n A i k) (gent i j k))) v (seq 0 n).
    Lemma corner1 i j : corner n 1 1 i j -> i < n /\ j < n.
    Proof. intros [Hi%rng_bounds Hj%rng_bounds]. lia. Qed.
    Lemma one_divides : (1 | n).
    Proof. exists n. lia. Qed.
    Lemma acc_does i j : corner n 1 1 i j -> does (acc_body i j) (acc_us i j).
    Proof.
      intros [Hi Hj]%corner1. unfold acc_body, acc_us. replace (seq 0 n) with (rng 0 n 1) by (rewrite rng_1; f_equal; lia).
      apply does_forP; [lia|]. intros k Hk%rng_bounds. rewrite ent_get by (done || lia).
      rewrite (vget_lookup B _ (gent i j k)).
      2:{ unfold gent. destruct (lookup_lt_is_Some_2 B (g i j k)) as [x ->]; [|done]. specialize (Hg i j k). lia. }
      cbn [pbind]. apply (does_rmw cC (i * n + j) (fun c => nadd c _)).
    Qed.
    Lemma acc_in i j u : corner n 1 1 i j -> u ∈ acc_us i j -> in_block n 1 1 i j u.1.
    Proof.
      intros _ (k&Hu&_)%elem_of_list_bind. apply elem_of_list_singleton in Hu as ->. exists 0, 0.
      rewrite !Nat.add_0_r. split_and!; [lia|lia|done].
    Qed.
    Lemma acc_upd_ok i j ii jj v : corner n 1 1 i j -> ii < 1 -> jj < 1 ->
      fold_upd (contrib ((cC, (i + ii) * n + (j + jj)) : loc) (acc_us i j)) v = acc_upd (i + ii) (j + jj) v.
    Proof.
      intros _ Hii Hjj. replace ii with 0 by lia. replace jj with 0 by lia. rewrite !Nat.add_0_r.
      unfold acc_us, acc_upd. by rewrite contrib_same, fold_upd_fmap.
    Qed.
    Lemma acc_acc i j : corner n 1 1 i j -> Conc.acc_in (fun _ => False) (in_block n 1 1 i j) (acc_body i j).
    Proof.
      intros _. apply acc_in_forS. intros k _ _ _. apply acc_in_bind; [apply acc_in_vget|]. intros a.
      apply acc_in_bind; [apply acc_in_vget|]. intros b.
      assert (in_block n 1 1 i j (cC, i * n + j)) by (exists 0, 0; rewrite !Nat.add_0_r; split_and!; [lia|lia|done]).
      apply acc_in_bind; [apply acc_in_rd; by right|]. intros c. by apply acc_in_wr.
    Qed.
    Lemma acc_drf i j : corner n 1 1 i j -> drf (acc_body i j).
    Proof.
      intros _. apply drf_forS. intros k _ _ _. apply drf_bind; [apply drf_vget|]. intros a.
      apply drf_bind; [apply drf_vget|]. intros b. apply drf_bind; [apply drf_rd|]. intros c. apply drf_wr.
    Qed.
    Lemma acc_par : always (with_C C (parL (rng 0 n 1) (fun i => forP 0 n 1 (acc_body i)))) (is_matrix n (fun i j => acc_upd i j (ent n C i j))).
    Proof.
      apply (blocks_par n 1 1 C ltac:(lia) ltac:(lia) one_divides one_divides HC acc_body acc_us acc_upd);
        eauto using acc_does, acc_in, acc_upd_ok, acc_acc, acc_drf.
    Qed.
    Lemma acc_seq : always (with_C C (forP 0 n 1 (fun i => forP 0 n 1 (acc_body i)))) (is_matrix n (fun i j => acc_upd i j (ent n C i j))).
    Proof.
      apply (blocks_seq n 1 1 C ltac:(lia) ltac:(lia) one_divides one_divides HC acc_body acc_us acc_upd);
        eauto using acc_does, acc_in, acc_upd_ok, acc_acc, acc_drf.
    Qed.
  End Acc.

  Theorem multNaive_correct : always (multNaive A B C n) (is_matrix n (acc_entry n A B C)).
  Proof. apply (acc_par (fun i j k => k * n + j)). intros. by apply mixed_lt. Qed.
  Theorem multTransposed_correct : always (multTransposed A B C n) (is_matrix n (acc_t_entry n A B C)).
  Proof. apply (acc_seq (fun i j k => j * n + k)). intros. by apply mixed_lt. Qed.

  Definition counter_body (i j : nat) : prog T unit :=
    let! result :=
      forS 0 n 1 (fun k result =>
        let! a := vget A (i * n + k) in
        let! b := vget B (j * n + k) in
        Ret (nadd result (nmul a b))) nzero in
    wr cC (i * n + j) result.
  Lemma counter_eq i j : i < n -> j < n -> counter_body i j = wr cC (i * n + j) (prod_t_entry n A B i j).
  Proof.
    intros Hi Hj. unfold counter_body.
    rewrite (forS1_dot n _ (fun k => nmul (ent n A i k) (ent n B j k))); [done|].
    intros k acc Hk. rewrite !ent_get by done. done.
  Qed.
  Theorem multCounter_correct : always (multCounter A B C n) (is_matrix n (prod_t_entry n A B)).
  Proof.
    apply (blocks_par n 1 1 C ltac:(lia) ltac:(lia) one_divides one_divides HC counter_body
      (fun i j => [((cC, i * n + j), fun _ => prod_t_entry n A B i j)]) (fun i j _ => prod_t_entry n A B i j)).
    - intros i j [Hi Hj]%corner1. rewrite counter_eq by done. apply does_wr.
    - intros i j u _ ->%elem_of_list_singleton. exists 0, 0. rewrite !Nat.add_0_r. split_and!; [lia|lia|done].
    - intros i j ii jj v _ Hii Hjj. replace ii with 0 by lia. replace jj with 0 by lia. rewrite !Nat.add_0_r.
      by rewrite contrib_single_eq.
    - intros i j [Hi Hj]%corner1. rewrite counter_eq by done. apply acc_in_wr. exists 0, 0.
      rewrite !Nat.add_0_r. split_and!; [lia|lia|done].
    - intros i j [Hi Hj]%corner1. rewrite counter_eq by done. apply drf_wr.
  Qed.
End Plain.

(** ** multBlocked2 *)
Section Blocked2.
  Context {T : Type} `{NumOps T}.
  Context (n : nat) (A B C : list T).

  Lemma foldP_pairs4 (l : list nat) (body : nat -> T * T * T * T -> prog T (T * T * T * T)) (f1 f2 f3 f4 : nat -> T) a1 a2 a3 a4 :
    (forall k r1 r2 r3 r4, k ∈ l -> body k (r1, r2, r3, r4) = Ret (nadd r1 (f1 k), nadd r2 (f2 k), nadd r3 (f3 k), nadd r4 (f4 k))) ->
    foldP l body (a1, a2, a3, a4) =
      Ret (foldl (fun a k => nadd a (f1 k)) a1 l, foldl (fun a k => nadd a (f2 k)) a2 l,
           foldl (fun a k => nadd a (f3 k)) a3 l, foldl (fun a k => nadd a (f4 k)) a4 l).
  Proof.
    revert a1 a2 a3 a4. induction l as [|k l IH]; intros a1 a2 a3 a4 Hb; [done|]. cbn [foldP foldl].
    rewrite Hb by (apply elem_of_cons; by left). cbn [pbind]. apply IH.
    intros k' r1 r2 r3 r4 Hk. apply Hb, elem_of_cons; by right.
  Qed.

  Section Even.
    Context (HA : n * n <= length A) (HB : n * n <= length B) (HC : length C = n * n) (Heven : (2 | n)).
    Definition p_ := prod_t_entry n A B.
    Definition blocked2_us (i j : nat) : list (loc * (T -> T)) :=
      [((cC, i * n + j), fun _ => p_ i j)] ++ [((cC, (i + 1) * n + j), fun _ => p_ (i + 1) j)] ++
      [((cC, i * n + (j + 1)), fun _ => p_ i (j + 1))] ++ [((cC, (i + 1) * n + (j + 1)), fun _ => p_ (i + 1) (j + 1))].
    Lemma corner2 i j : corner n 2 2 i j -> i + 1 < n /\ j + 1 < n.
    Proof.
      intros [Hi Hj]. pose proof (corner_row n 2 ltac:(lia) Heven i 1 Hi ltac:(lia)).
      pose proof (corner_col n 2 ltac:(lia) Heven j 1 Hj ltac:(lia)). lia.
    Qed.
    Lemma blocked2_eq i j : corner n 2 2 i j -> blocked2_tile A B n i j =
      (wr cC (i * n + j) (p_ i j) ;;; wr cC ((i + 1) * n + j) (p_ (i + 1) j) ;;;
       wr cC (i * n + (j + 1)) (p_ i (j + 1)) ;;; wr cC ((i + 1) * n + (j + 1)) (p_ (i + 1) (j + 1))).
    Proof.
      intros [Hi Hj]%corner2. unfold blocked2_tile. rewrite forS_step, rng_1, Nat.sub_0_r by lia.
      rewrite (foldP_pairs4 _ _ (fun k => nmul (ent n A i k) (ent n B j k)) (fun k => nmul (ent n A (i + 1) k) (ent n B j k))
        (fun k => nmul (ent n A i k) (ent n B (j + 1) k)) (fun k => nmul (ent n A (i + 1) k) (ent n B (j + 1) k))); [done|].
      intros k r1 r2 r3 r4 Hk%elem_of_seq. rewrite !ent_get by lia. done.
    Qed.
    Lemma blocked2_in_block i j ii jj : ii < 2 -> jj < 2 -> in_block n 2 2 i j (cC, (i + ii) * n + (j + jj)).
    Proof. intros. by exists ii, jj. Qed.
    Theorem multBlocked2_correct : always (multBlocked2 A B C n) (is_matrix n (prod_t_entry n A B)).
    Proof.
      apply (blocks_par n 2 2 C ltac:(lia) ltac:(lia) Heven Heven HC (blocked2_tile A B n) blocked2_us (fun i j _ => p_ i j)).
      - intros i j Hc. rewrite blocked2_eq by done. unfold blocked2_us.
        repeat (apply does_bind; [apply does_wr|]). apply does_wr.
      - intros i j u _ Hu. unfold blocked2_us in Hu. rewrite !elem_of_app, !elem_of_list_singleton in Hu.
        destruct Hu as [->|[->|[->| ->]]]; cbn [fst].
        + exists 0, 0. rewrite !Nat.add_0_r. split_and!; [lia|lia|done].
        + exists 1, 0. rewrite !Nat.add_0_r. split_and!; [lia|lia|done].
        + exists 0, 1. rewrite !Nat.add_0_r. split_and!; [lia|lia|done].
        + exists 1, 1. split_and!; [lia|lia|done].
      - intros i j ii jj v [Hi Hj]%corner2 Hii Hjj. unfold blocked2_us.
        assert (forall a b a' b', a < n -> a' < n -> b < n -> b' < n -> (a, b) <> (a', b') -> ((cC, a * n + b) : loc) <> (cC, a' * n + b')) as Hne.
        { intros a b a' b' ? ? ? ? Hn [= He]. apply mixed_inj in He as [-> ->]; done. }
        rewrite !contrib_app.
        destruct ii as [|[|]]; [|  |lia]; destruct jj as [|[|]]; try lia; rewrite ?Nat.add_0_r, ?Nat.add_1_r;
          rewrite ?contrib_single_eq, !contrib_single_ne; try done; apply Hne; try lia; intros [=]; lia.
      - intros i j Hc. rewrite blocked2_eq by done.
        repeat (apply acc_in_bind; [apply acc_in_wr|intros _]).
        + exists 0, 0. rewrite !Nat.add_0_r. split_and!; [lia|lia|done].
        + exists 1, 0. rewrite !Nat.add_0_r. split_and!; [lia|lia|done].
        + exists 0, 1. rewrite !Nat.add_0_r. split_and!; [lia|lia|done].
        + apply acc_in_wr. exists 1, 1. split_and!; [lia|lia|done].
      - intros i j Hc. rewrite blocked2_eq by done.
        repeat (apply drf_bind; [apply drf_wr|intros _]). apply drf_wr.
    Qed.
  End Even.

  Theorem multBlocked2_odd : ~ (2 | n) -> length A < n * n + n -> always_ub (multBlocked2 A B C n).
  Proof.
    intros Hodd HA. apply fail_with_C.
    - assert (n mod 2 = 1) as Hm.
      { pose proof (Nat.mod_upper_bound n 2). destruct (decide (n mod 2 = 0)) as [E|]; [|lia].
        exfalso. apply Hodd. exists (n / 2). pose proof (Nat.div_mod n 2). lia. }
      pose proof (Nat.div_mod n 2) as Hd.
      apply (noret_parL _ _ (n - 1)).
      { apply elem_of_rng; [lia|]. exists (n / 2). lia. }
      apply (noret_forS _ _ _ _ _ 0); [lia|apply elem_of_rng; [lia|]; exists 0; lia|]. intros _.
      unfold blocked2_tile. apply noret_bind_l, (noret_forS _ _ _ _ _ (n - 1)); [lia|apply elem_of_rng; [lia|]; exists (n - 1); lia|].
      intros [[[r1 r2] r3] r4]. apply noret_bind_r. intros ?. apply noret_bind_r. intros ?. apply noret_bind_l, noret_vget.
      replace (n - 1 + 1) with n by lia. lia.
    - apply errD_parL. intros i _. apply errD_forS; [lia|]. intros j _ _. unfold blocked2_tile.
      apply errD_bind.
      + apply errD_forS; [lia|]. intros k [[[r1 r2] r3] r4] _.
        repeat (apply errD_bind; [by apply errD_vget|intros ?]). done.
      + intros [[[r1 r2] r3] r4]. repeat (apply errD_bind; [by apply errD_wr|intros _]). by apply errD_wr.
  Qed.
End Blocked2.

(** ** multBlocked4 *)
Section Blocked4.
  Context {T : Type} `{NumOps T}.
  Context (n : nat) (A B C : list T).
  Definition blocked4_comp (i j : nat) : prog T (list T) :=
    forS 0 n 4 (fun k r =>
      forS 0 4 1 (fun di r =>
        forS 0 4 1 (fun dj r =>
          let! a := vget A ((i + di) * n + k) in
          let! b := vget B ((j + dj) * n + k) in
          let! x := vget r (di * 4 + dj) in
          vset r (di * 4 + dj) (nadd x (nmul a b))) r) r) (replicate 16 nzero).
  (** result[x] += v *)
  Lemma add_to_ok (s : list T) x v : x < length s ->
    (let! r := vget s x in vset s x (nadd r v)) = Ret (applyL [(x, fun r => nadd r v)] s).
  Proof.
    intros Hx. destruct (lookup_lt_is_Some_2 s x Hx) as [r Hr]. rewrite (vget_lookup s x r Hr). cbn [pbind].
    rewrite vset_ok by done. f_equal. unfold applyL. cbn [foldl fst snd].
    apply list_eq. intros j. destruct (decide (x = j)) as [->|Hne].
    - rewrite !list_lookup_alter, Hr. done.
    - by rewrite !list_lookup_alter_ne.
  Qed.

  Theorem multBlocked4_entries : n * n <= length A -> n * n <= length B -> length C = n * n -> (4 | n) ->
    always (multBlocked4 A B C n) (is_matrix n (every4_entry n A B)).
  Proof.
    intros HA HB HC H4.
    apply (written_par n 4 4 C ltac:(lia) ltac:(lia) H4 H4 HC (blocked4_tile A B n)).
    intros i j [Hi Hj].
    set (f := fun k di dj x => nadd x (nmul (ent n A (i + di) k) (ent n B (j + dj) k))).
    exists (applyL (rng 0 n 4 ≫= fun k => grid_us 4 4 (f k)) (replicate 16 nzero)). split.
    - unfold blocked4_tile. fold (blocked4_comp i j).
      assert (blocked4_comp i j = Ret (applyL (rng 0 n 4 ≫= fun k => grid_us 4 4 (f k)) (replicate 16 nzero))) as ->; [|done].
      unfold blocked4_comp. apply (forS_applyG 16); [lia|by rewrite replicate_length|].
      intros k s Hk%rng_bounds Hs. apply (forS_grid 16); [done|]. intros di dj s' Hdi Hdj Hs'.
      pose proof (corner_row n 4 ltac:(lia) H4 i di Hi Hdi). pose proof (corner_col n 4 ltac:(lia) H4 j dj Hj Hdj).
      rewrite (ent_get n A), (ent_get n B) by lia.
      cbn [pbind]. apply add_to_ok. lia.
    - intros ii jj Hii Hjj. rewrite applyL_lookup, contrib_grids by done.
      rewrite lookup_replicate_2 by lia. cbn. f_equal. rewrite fold_upd_fmap, rng_step by done.
      unfold every4_entry. by rewrite <- (dot_fmap (fun k => nmul (ent n A (i + ii) k) (ent n B (j + jj) k)) (fun q => 4 * q)).
  Qed.

  Theorem multBlocked4_other : ~ (4 | n) -> length A <= n * n + (n - 4) -> always_ub (multBlocked4 A B C n).
  Proof.
    intros Hodd HA. apply fail_with_C.
    - pose proof (Nat.mod_upper_bound n 4). pose proof (Nat.div_mod n 4) as Hd.
      assert (n mod 4 <> 0) as Hm.
      { intros E. apply Hodd. exists (n / 4). lia. }
      apply (noret_parL _ _ (4 * (n / 4))).
      { apply elem_of_rng; [lia|]. exists (n / 4). lia. }
      apply (noret_forS _ _ _ _ _ 0); [lia|apply elem_of_rng; [lia|]; exists 0; lia|]. intros _.
      unfold blocked4_tile. apply noret_bind_l.
      apply (noret_forS _ _ _ _ _ (4 * (n / 4))); [lia|apply elem_of_rng; [lia|]; exists (n / 4); lia|]. intros s1.
      apply (noret_forS _ _ _ _ _ (n mod 4)); [lia|rewrite rng_1; apply elem_of_seq; lia|]. intros s2.
      apply (noret_forS _ _ _ _ _ 0); [lia|rewrite rng_1; apply elem_of_seq; lia|]. intros s3.
      apply noret_bind_l, noret_vget. rewrite <- Hd by lia. lia.
    - apply errD_parL. intros i _. apply errD_forS; [lia|]. intros j _ _. unfold blocked4_tile.
      apply errD_bind.
      + apply errD_forS; [lia|]. intros k s _. apply errD_forS; [lia|]. intros di s1 _. apply errD_forS; [lia|]. intros dj s2 _.
        repeat (apply errD_bind; [by apply errD_vget|intros ?]). by apply errD_vset.
      + intros r. apply errD_forS; [lia|]. intros di _ _. apply errD_forS; [lia|]. intros dj _ _.
        apply errD_bind; [by apply errD_vget|intros ?]. by apply errD_wr.
  Qed.

  (** With the identity as second matrix (as in the benchmark). *)
  Theorem every4_identity `{!UnitLaws T} i j : is_identity n B -> (4 | n) -> i < n -> j < n ->
    every4_entry n A B i j = if decide (j mod 4 = 0) then ent n A i j else nzero.
  Proof.
    intros HI H4 Hi Hj. unfold every4_entry.
    assert (forall m, m <= n / 4 -> dot (fun q => nmul (ent n A i (4 * q)) (ent n B j (4 * q))) (seq 0 m) =
      if decide (j mod 4 = 0) then if decide (j < 4 * m) then ent n A i j else nzero else nzero) as Hs.
    { induction m as [|m IH]; intros Hm.
      - cbn [seq]. rewrite dot_nil. destruct (decide (j < 4 * 0)); [lia|]. by case_decide.
      - rewrite seq_S, dot_snoc, IH by lia. cbn [Nat.add]. clear IH.
        assert (4 * m < n). { destruct H4 as [q ->]. rewrite Nat.div_mul in Hm by lia. lia. }
        rewrite (is_matrix_ent _ _ _ j (4 * m) HI) by lia.
        pose proof (Nat.div_mod j 4 ltac:(lia)). pose proof (Nat.mod_upper_bound j 4 ltac:(lia)).
        destruct (decide (j = 4 * m)) as [E|E].
        + rewrite unit_mul_1. destruct (decide (j mod 4 = 0)) as [_|Hn]; [|lia].
          destruct (decide (j < 4 * m)) as [?|_]; [lia|]. destruct (decide (j < 4 * S m)) as [_|?]; [|lia].
          rewrite unit_add_l. by rewrite E.
        + rewrite unit_mul_0, unit_add_r. destruct (decide (j mod 4 = 0)); [|done].
          destruct (decide (j < 4 * m)), (decide (j < 4 * S m)); try done; lia. }
    rewrite Hs by lia. destruct H4 as [q ->]. rewrite Nat.div_mul by lia. destruct (decide (j < 4 * q)) as [_|?]; [done|lia].
  Qed.
End Blocked4.
