(** Proofs about the benchmark program. *)
From Coq Require Import String.
From Verif Require Import SpecBench Tools Tools2 Tools3 MBench PUtil PTiled PExp PExpBlocks PExp2 PExpIntrin PExpReg PExpAsm PAlign Properties13 Properties14.

(** ** Sums with at most one term that counts *)
Section Once.
  Context {T X : Type}.
  Lemma fold_none (g : X -> T -> T) L z : (forall x, x ∈ L -> g x z = z) -> foldl (fun v x => g x v) z L = z.
  Proof.
    induction L as [|x L IH]; intros Hg; [done|]. cbn [foldl]. rewrite Hg by (by left). apply IH. intros y Hy. apply Hg. by right.
  Qed.
  Lemma fold_once (g : X -> T -> T) L x0 z r : NoDup L -> x0 ∈ L -> g x0 z = r ->
    (forall x, x ∈ L -> x <> x0 -> g x z = z /\ g x r = r) -> foldl (fun v x => g x v) z L = r.
  Proof.
    intros Hnd Hx Hr Hg. apply elem_of_list_split in Hx as (L1&L2&->). apply NoDup_app in Hnd as (Hn1&Hd&[Hn2 Hn3]%NoDup_cons).
    rewrite foldl_app. cbn [foldl]. rewrite (fold_none g L1), Hr.
    - apply fold_none. intros x Hx. apply Hg; [apply elem_of_app; right; by right|by intros ->].
    - intros x Hx. apply Hg; [apply elem_of_app; by left|]. intros ->. apply (Hd x0 Hx). by left.
  Qed.
  Lemma fold_twice (g : X -> T -> T) L x0 x1 z r s : NoDup L -> x0 ∈ L -> x1 ∈ L -> x0 <> x1 ->
    g x0 z = r -> g x1 z = r -> g x0 r = s -> g x1 r = s ->
    (forall x, x ∈ L -> x <> x0 -> x <> x1 -> g x z = z /\ g x r = r /\ g x s = s) -> foldl (fun v x => g x v) z L = s.
  Proof.
    induction L as [|x L IH]; intros Hnd H0 H1 Hne E1 E2 E3 E4 Hg; [by apply elem_of_nil in H0|].
    apply NoDup_cons in Hnd as [Hx Hnd]. cbn [foldl].
    apply elem_of_cons in H0 as [->|H0], H1 as [->|H1]; [done|..].
    - rewrite E1. apply (fold_once g L x1); [done|done|done|]. intros y Hy Hy1. apply Hg; [by right|by intros ->|done].
    - rewrite E2. apply (fold_once g L x0); [done|done|done|]. intros y Hy Hy1. apply Hg; [by right|done|by intros ->].
    - assert (g x z = z) as ->. { apply Hg; [by left|by intros ->|by intros ->]. }
      apply IH; try done. intros y Hy. apply Hg. by right.
  Qed.
End Once.

Section Lanes.
  Context {T : Type} `{NumOps T} (two : T).
  Context (Hnum : bench_numbers two).
  (** One of the terms is two, the others are zero. *)
  Lemma dot_once (f : nat -> T) n j : j < n -> f j = two -> (forall k, k < n -> k <> j -> f k = nzero) -> dot f (seq 0 n) = two.
  Proof.
    destruct Hnum as (_&_&_&_&H1&H2&H3). intros Hj Hf Hz. unfold dot.
    apply (fold_once (fun k acc => nadd acc (f k)) _ j); [apply NoDup_seq|apply elem_of_seq; lia|by rewrite Hf|].
    intros x Hx%elem_of_seq Hne. rewrite Hz by lia. done.
  Qed.
  Lemma dot_zero (f : nat -> T) n : (forall k, k < n -> f k = nzero) -> dot f (seq 0 n) = nzero.
  Proof.
    destruct Hnum as (_&_&_&_&H1&H2&H3). intros Hz. apply (fold_none (fun k acc => nadd acc (f k))). intros x Hx%elem_of_seq. by rewrite Hz by lia.
  Qed.
  (** Lanes: [g q l] is the value of lane l of chunk q. *)
  Lemma lanes_once kc n j (g : nat -> nat -> T) : 0 < kc -> (4 | kc) -> (kc | n) -> j < n ->
    (forall q l, l < 4 -> g q l = if decide (q = j / kc /\ l = j mod kc mod 4) then two else nzero) ->
    foldl (fun acc q => foldl (fun acc l => nadd acc (g q l)) acc (seq 0 4)) nzero (seq 0 (n / kc)) = two.
  Proof.
    destruct Hnum as (_&_&_&_&H1&H2&H3). intros Hk H4 [m ->] Hj Hg. rewrite Nat.div_mul by lia.
    assert (j mod kc mod 4 < 4) as Hl by (apply Nat.mod_upper_bound; lia).
    apply (fold_once (fun q acc => foldl (fun acc l => nadd acc (g q l)) acc (seq 0 4)) _ (j / kc)).
    - apply NoDup_seq.
    - apply elem_of_seq. pose proof (Nat.div_lt_upper_bound j kc m ltac:(lia) ltac:(lia)). lia.
    - apply (fold_once (fun l acc => nadd acc (g (j / kc) l)) _ (j mod kc mod 4)); [apply NoDup_seq|apply elem_of_seq; lia| |].
      + rewrite Hg, decide_True by done. done.
      + intros l Hl'%elem_of_seq Hne. rewrite Hg, decide_False by (lia || tauto). done.
    - intros q _ Hne. split; apply (fold_none (fun l acc => nadd acc (g q l))); intros l Hl'%elem_of_seq; rewrite Hg, decide_False by (lia || tauto); done.
  Qed.
  Lemma lane_index kc j q l r : 0 < kc -> (4 | kc) -> l < 4 -> r < kc / 4 -> q * kc + 4 * r + l = j ->
    q = j / kc /\ l = j mod kc mod 4 /\ r = j mod kc / 4.
  Proof.
    intros Hk [m ->] Hl Hr E. rewrite Nat.div_mul in Hr by lia.
    assert (4 * r + l = j mod (m * 4) /\ q = j / (m * 4)) as [E1 E2].
    { rewrite <- E. rewrite <- Nat.add_assoc, (Nat.add_comm (q * _)), Nat.mod_add, Nat.div_add by lia.
      rewrite Nat.mod_small, Nat.div_small by lia. lia. }
    rewrite <- E1, E2. split; [done|]. split.
    - rewrite Nat.add_comm, Nat.mul_comm, Nat.mod_add, Nat.mod_small by lia. done.
    - rewrite Nat.mul_comm, Nat.div_add_l, Nat.div_small by lia. lia.
  Qed.
  Lemma lane_back kc j : 0 < kc -> (4 | kc) -> j / kc * kc + 4 * (j mod kc / 4) + j mod kc mod 4 = j /\ j mod kc / 4 < kc / 4.
  Proof.
    intros Hk [m ->]. pose proof (Nat.div_mod j (m * 4) ltac:(lia)). pose proof (Nat.div_mod (j mod (m * 4)) 4 ltac:(lia)). split; [lia|].
    rewrite Nat.div_mul by lia. apply Nat.div_lt_upper_bound; [lia|]. pose proof (Nat.mod_upper_bound j (m * 4) ltac:(lia)). lia.
  Qed.
  (** One lane, accumulated by [step]. *)
  Lemma lane_value kc j q l (step : nat -> T -> T) : 0 < kc -> (4 | kc) -> l < 4 ->
    step j nzero = two -> (forall k, k <> j -> step k nzero = nzero /\ step k two = two) ->
    foldl (fun acc r => step (q * kc + 4 * r + l) acc) nzero (seq 0 (kc / 4)) = if decide (q = j / kc /\ l = j mod kc mod 4) then two else nzero.
  Proof.
    intros Hk H4 Hl Hj Hn. destruct (decide _) as [[-> ->]|Hne].
    - destruct (lane_back kc j Hk H4) as [E Hr].
      apply (fold_once (fun r acc => step (j / kc * kc + 4 * r + j mod kc mod 4) acc) _ (j mod kc / 4)); [apply NoDup_seq|apply elem_of_seq; lia|by rewrite E|].
      intros r _ Hne. apply Hn. lia.
    - apply (fold_none (fun r acc => step (q * kc + 4 * r + l) acc)). intros r Hr%elem_of_seq. apply Hn. intros E. apply Hne.
      destruct (lane_index kc j q l r Hk H4 Hl ltac:(lia) E) as (?&?&_). done.
  Qed.
  Lemma dot_lanes_once kc (f : nat -> T) n j : 0 < kc -> (4 | kc) -> (kc | n) -> j < n -> f j = two -> (forall k, k < n -> k <> j -> f k = nzero) ->
    dot_lanes kc f n = two.
  Proof.
    intros Hk H4 Hn Hj Hf Hz. pose proof Hnum as (_&_&_&_&H1&H2&H3).
    set (f' := fun k => if decide (k < n) then f k else nzero).
    transitivity (dot_lanes kc f' n).
    { unfold dot_lanes. apply foldl_ext_in. intros v q Hq%elem_of_seq. apply foldl_ext_in. intros w l Hl%elem_of_seq. f_equal.
      unfold lane. apply dot_ext. intros r Hr%elem_of_seq. unfold f'. rewrite decide_True; [done|].
      destruct Hn as [m ->], H4 as [m4 ->]. rewrite Nat.div_mul in Hr, Hq by lia.
      assert (q * (m4 * 4) + (m4 * 4) <= m * (m4 * 4)). { rewrite <- Nat.mul_succ_l. apply Nat.mul_le_mono_r. lia. } lia. }
    apply (lanes_once kc n j); [done|done|done|done|]. intros q l Hl.
    apply (lane_value kc j q l (fun k acc => nadd acc (f' k))); [done|done|done| |].
    - unfold f'. rewrite decide_True by done. by rewrite Hf.
    - intros k Hne. unfold f'. destruct (decide (k < n)); [rewrite Hz by done|]; done.
  Qed.
End Lanes.

(** ** Continuing after a program *)
Section Bind.
  Context {T : Type}.
  Lemma races_bind {A B : Type} (f : A -> prog T B) (p : prog T A) l : (forall a, p <> Ret a) -> races (pbind f p) l -> races p l.
  Proof. destruct p; cbn; intros Hn; try done. by destruct (Hn a). Qed.
  Lemma must_bind {A B : Type} (f : A -> prog T B) (tol : loc -> Prop) (Q : A -> mem T -> Prop) (Q' : B -> mem T -> Prop) (p : prog T A) m :
    must tol Q p m -> (forall a m', Q a m' -> must tol Q' (f a) m') -> must tol Q' (pbind f p) m.
  Proof.
    intros Hp Hf. induction Hp as [a m Ha|p m Hr Hex Hall IH]; [by apply Hf|].
    assert (forall a, p <> Ret a) as Hnr.
    { intros a ->. destruct Hex as (p'&m'&Hs). inversion Hs. }
    apply must_step.
    - intros l Hl. by apply Hr, (races_bind f p l Hnr).
    - destruct (progress (pbind f p) m) as [Ht|]; [|done]. exfalso.
      destruct Hex as (p'&m'&Hs). destruct p; simpl in *; try done; [by apply (Hnr a)|inversion Hs].
    - intros q m' Hs. apply step_bind_inv in Hs as [[a ->]|(p'&Hs&->)]; [by destruct (Hnr a)|]. by apply IH.
  Qed.
End Bind.

(** ** The fill loops *)
Section Fill.
  Context {T : Type} `{NumOps T} (two : T).
  Notation five := (list T * list T * list T * list T * list T)%type.
  Definition app5 (u : nat -> list (nat * (T -> T))) (s : five) : five :=
    let '(a, b, c, d, e) := s in (applyL (u 0) a, applyL (u 1) b, applyL (u 2) c, applyL (u 3) d, applyL (u 4) e).
  Definition len5 (n : nat) (s : five) : Prop :=
    let '(a, b, c, d, e) := s in length a = n /\ length b = n /\ length c = n /\ length d = n /\ length e = n.
  Lemma len5_app n u s : len5 n s -> len5 n (app5 u s).
  Proof. destruct s as [[[[a b] c] d] e]. cbn. rewrite !length_applyL. done. Qed.
  Lemma foldP5 {X : Type} n (L : list X) (f : X -> five -> prog T five) (u : X -> nat -> list (nat * (T -> T))) s :
    len5 n s -> (forall x s, x ∈ L -> len5 n s -> f x s = Ret (app5 (u x) s)) ->
    foldP L f s = Ret (app5 (fun q => L ≫= fun x => u x q) s).
  Proof.
    revert s. induction L as [|x L IH]; intros s Hs Hf.
    - destruct s as [[[[a b] c] d] e]. done.
    - cbn [foldP]. rewrite (Hf x s) by (done || by left). cbn [pbind]. rewrite IH; [|by apply len5_app|].
      + destruct s as [[[[a b] c] d] e]. cbn [app5]. rewrite !bind_cons, !applyL_app. done.
      + intros y s' Hy. apply Hf. by right.
  Qed.
  Lemma forS5 n m (f : nat -> five -> prog T five) u s :
    len5 n s -> (forall x s, x < m -> len5 n s -> f x s = Ret (app5 (u x) s)) ->
    forS 0 m 1 f s = Ret (app5 (fun q => seq 0 m ≫= fun x => u x q) s).
  Proof.
    intros Hs Hf. rewrite forS_step by lia. rewrite rng_1, Nat.sub_0_r. apply (foldP5 n); [done|].
    intros x s' Hx%elem_of_seq. apply Hf. lia.
  Qed.
  Definition fill_us (n : nat) (i j q : nat) : nat * (T -> T) :=
    match q with
    | 0 => (i * n + j, fun _ => two)
    | 1 => (j * n + i, fun _ => two)
    | 2 => (i * n + j, fun _ => if i =? j then none1 else nzero)
    | 3 => (j * n + i, fun _ => if i =? j then none1 else nzero)
    | _ => (i * n + j, fun _ => nzero)
    end.
  Lemma bench_fill_ok n junk : exists A At B Bt C, bench_fill two n junk = Ret (A, At, B, Bt, C) /\
    is_matrix n (fun _ _ => two) A /\ is_matrix n (fun _ _ => two) At /\ is_identity n B /\ is_identity n Bt /\ is_zero n C.
  Proof.
    unfold bench_fill.
    rewrite (forS5 (n * n) n _ (fun i q => seq 0 n ≫= fun j => [fill_us n i j q])).
    - eexists _, _, _, _, _. split; [reflexivity|].
      assert (forall i j q, i < n -> j < n ->
        applyL (seq 0 n ≫= fun i => seq 0 n ≫= fun j => [fill_us n i j q]) (replicate (n * n) junk) !! (fill_us n i j q).1 = Some ((fill_us n i j q).2 junk)) as Hl.
      { intros i j q Hi Hj. apply (tile2_lookup_in n n (fun i j => fill_us n i j q)); [done|done| |].
        - intros i' j' Hi' Hj' E. destruct q as [|[|[|[|q]]]]; cbn in E; apply mixed_inj in E; lia.
        - apply lookup_replicate_2. destruct q as [|[|[|[|q]]]]; cbn; by apply mixed_lt. }
      split_and!; (split; [by rewrite length_applyL, replicate_length|]); intros i j Hi Hj.
      + exact (Hl i j 0 Hi Hj).
      + exact (Hl j i 1 Hj Hi).
      + etransitivity; [exact (Hl i j 2 Hi Hj)|]. cbn [fill_us fst snd]. f_equal. destruct (Nat.eqb_spec i j), (decide (i = j)); done.
      + etransitivity; [exact (Hl j i 3 Hj Hi)|]. cbn [fill_us fst snd]. f_equal. destruct (Nat.eqb_spec j i), (decide (i = j)); congruence.
      + exact (Hl i j 4 Hi Hj).
    - cbn. rewrite !replicate_length. done.
    - intros i s Hi Hs. apply (forS5 (n * n)); [done|]. intros j s1 Hj Hs1. destruct s1 as [[[[a b] c] d] e]. destruct Hs1 as (H1&H2&H3&H4&H5).
      pose proof (mixed_lt n n i j Hi Hj). pose proof (mixed_lt n n j i Hj Hi).
      rewrite (vset_ok a), (vset_ok b) by lia. cbn [pbind]. destruct (i =? j) eqn:E.
      + rewrite (vset_ok c), (vset_ok d), (vset_ok e) by lia. cbn [app5 fill_us pbind]. rewrite E. done.
      + rewrite (vset_ok c), (vset_ok d), (vset_ok e) by lia. cbn [app5 fill_us pbind]. rewrite E. done.
  Qed.
End Fill.

(** ** The check *)
Section Check.
  Context {T : Type} `{NumOps T} (root : T -> T).
  Lemma bench_check_ok n f (C : list T) : is_matrix n f C -> bench_check root n C = Ret (root (sum_sq n f)).
  Proof.
    intros [Hl HC]. unfold bench_check.
    assert (forall m, m <= n -> forS 0 m 1 (fun i check => forS 0 n 1 (fun j check =>
          let! x := vget C (i * n + j) in let! y := vget C (i * n + j) in Ret (nadd check (nmul x y))) check) nzero =
        Ret (dot (fun q => nmul (f (q / n) (q mod n)) (f (q / n) (q mod n))) (seq 0 (m * n)))) as Hm.
    { intros m Hm. rewrite forS_step by lia. rewrite rng_1, Nat.sub_0_r.
      destruct (foldP_pure (fun _ => True) (seq 0 m) (fun i check => forS 0 n 1 (fun j check =>
          let! x := vget C (i * n + j) in let! y := vget C (i * n + j) in Ret (nadd check (nmul x y))) check)
        (fun i check => foldl (fun check j => nadd check (nmul (f i j) (f i j))) check (seq 0 n)) nzero) as [-> _]; [done| |].
      - intros i check Hi%elem_of_seq _. split; [|done]. rewrite forS_step by lia. rewrite rng_1, Nat.sub_0_r.
        destruct (foldP_pure (fun _ => True) (seq 0 n) (fun j check =>
            let! x := vget C (i * n + j) in let! y := vget C (i * n + j) in Ret (nadd check (nmul x y)))
          (fun j check => nadd check (nmul (f i j) (f i j))) check) as [-> _]; [done| |done].
        intros j acc Hj%elem_of_seq _. split; [|done]. rewrite !(vget_lookup C _ _ (HC i j ltac:(lia) ltac:(lia))). done.
      - f_equal. clear Hm. induction m as [|m IH]; [done|]. rewrite seq_S, foldl_app, IH. cbn [foldl]. rewrite Nat.mul_succ_l, seq_app.
        unfold dot. rewrite foldl_app. cbn [Nat.add]. replace (seq (m * n) n) with (Nat.add (m * n) <$> seq 0 n) by (rewrite fmap_add_seq; f_equal; lia).
        rewrite foldl_fmap'. apply foldl_ext_in. intros acc j Hj%elem_of_seq.
        assert ((m * n + j) / n = m /\ (m * n + j) mod n = j) as [-> ->]; [|done].
        split; [rewrite Nat.div_add_l, Nat.div_small by lia; lia|rewrite Nat.add_comm, Nat.mod_add, Nat.mod_small by lia; done]. }
    rewrite Hm by done. done.
  Qed.
  Lemma sum_sq_ext n f g : (forall i j, i < n -> j < n -> f i j = g i j) -> sum_sq n f = sum_sq n g.
  Proof.
    intros E. apply dot_ext. intros q Hq%elem_of_seq. destruct n as [|n]; [lia|].
    rewrite E; [done|apply Nat.div_lt_upper_bound; lia|apply Nat.mod_upper_bound; lia].
  Qed.
End Check.

(** ** The kernels on the benchmark's matrices *)
Section Entries.
  Context {T : Type} `{NumOps T} (two : T).
  Context (Hnum : bench_numbers two) (n : nat) (A B Bt C : list T).
  Context (HA : is_matrix n (fun _ _ => two) A) (HB : is_identity n B) (HBt : is_identity n Bt) (HC : is_zero n C).
  Lemma lA : n * n <= length A. Proof. destruct HA as [-> _]. done. Qed.
  Lemma lB : n * n <= length B. Proof. destruct HB as [-> _]. done. Qed.
  Lemma lBt : n * n <= length Bt. Proof. destruct HBt as [-> _]. done. Qed.
  Lemma lC : length C = n * n. Proof. by destruct HC as [-> _]. Qed.
  Lemma eA i k : i < n -> k < n -> ent n A i k = two.
  Proof. intros Hi Hk. exact (is_matrix_ent n _ A i k HA Hi Hk). Qed.
  Lemma eB k j : k < n -> j < n -> ent n B k j = if decide (k = j) then none1 else nzero.
  Proof. intros Hi Hk. exact (is_matrix_ent n _ B k j HB Hi Hk). Qed.
  Lemma eBt j k : j < n -> k < n -> ent n Bt j k = if decide (k = j) then none1 else nzero.
  Proof.
    intros Hi Hk. rewrite (is_matrix_ent n _ Bt j k HBt Hi Hk). destruct (decide (j = k)) as [E|E], (decide (k = j)) as [E'|E']; congruence.
  Qed.
  Lemma prod_two i j : i < n -> j < n -> prod_entry n A B i j = two.
  Proof.
    intros Hi Hj. pose proof Hnum as (H1&_&H0&_). apply (dot_once two Hnum _ n j Hj).
    - rewrite eA, eB, decide_True by done. done.
    - intros k Hk Hne. rewrite eA, eB, decide_False by done. done.
  Qed.
  Lemma prod_t_two i j : i < n -> j < n -> prod_t_entry n A Bt i j = two.
  Proof.
    intros Hi Hj. pose proof Hnum as (H1&_&H0&_). apply (dot_once two Hnum _ n j Hj).
    - rewrite eA, eBt, decide_True by done. done.
    - intros k Hk Hne. rewrite eA, eBt, decide_False by done. done.
  Qed.
  Lemma fma_two fma i j : fma_unit two fma -> i < n -> j < n -> fma_entry fma n A B i j = two.
  Proof.
    intros (Hz&Hk0&H1) Hi Hj. unfold fma_entry, fma_dot.
    apply (fold_once (fun k acc => fma (ent n A i k) (ent n B k j) acc) _ j); [apply NoDup_seq|apply elem_of_seq; lia| |].
    - rewrite eA, eB, decide_True by done. done.
    - intros k Hk%elem_of_seq Hne. rewrite eA, eB, decide_False by lia. done.
  Qed.
  Lemma no_fma_unit : fma_unit two no_fma.
  Proof. pose proof Hnum as (H1&H2&H3&H4&H5&H6&H7). unfold fma_unit, no_fma. rewrite H1, H3, H5, H6, H7. done. Qed.
  Lemma lanes_two kc i j : 0 < kc -> (4 | kc) -> (kc | n) -> i < n -> j < n -> lanes_entry kc n A Bt i j = two.
  Proof.
    intros Hk H4 Hn Hi Hj. pose proof Hnum as (H1&_&H0&_). apply (dot_lanes_once two Hnum kc _ n j Hk H4 Hn Hj).
    - rewrite eA, eBt, decide_True by done. done.
    - intros k Hk' Hne. rewrite eA, eBt, decide_False by done. done.
  Qed.
  Lemma asm_two i j : (4 | n) -> i < n -> j < n -> dot_lanes n (fun k => nmul (ent n Bt j k) (ent n A i k)) n = two.
  Proof.
    intros H4 Hi Hj. pose proof Hnum as (_&H1&_&H0&_). apply (dot_lanes_once two Hnum n _ n j (Nat.lt_lt_0 _ _ Hi) H4 (Nat.divide_refl n) Hj).
    - rewrite eA, eBt, decide_True by done. done.
    - intros k Hk' Hne. rewrite eA, eBt, decide_False by done. done.
  Qed.
  Lemma chunk_lt kc q l r : 0 < kc -> (4 | kc) -> (kc | n) -> q < n / kc -> l < 4 -> r < kc / 4 -> q * kc + 4 * r + l < n.
  Proof.
    intros Hk [m4 ->] [m Hn] Hq Hl Hr. rewrite Nat.div_mul in Hr by lia. rewrite Hn, Nat.div_mul in Hq by lia.
    assert (q * (m4 * 4) + (m4 * 4) <= m * (m4 * 4)). { rewrite <- Nat.mul_succ_l. apply Nat.mul_le_mono_r. lia. } lia.
  Qed.
  Lemma fma_lanes_two fma kc i j : fma_unit two fma -> 0 < kc -> (4 | kc) -> (kc | n) -> i < n -> j < n -> fma_lanes_entry fma kc n A Bt i j = two.
  Proof.
    intros (Hz&Hk0&H1) Hk H4 Hn Hi Hj. unfold fma_lanes_entry.
    set (step := fun k acc => if decide (k = j) then fma two none1 acc else fma two nzero acc).
    rewrite <- (lanes_once two Hnum kc n j (fun q l => foldl (fun acc r => step (q * kc + 4 * r + l) acc) nzero (seq 0 (kc / 4))) Hk H4 Hn Hj).
    - apply foldl_ext_in. intros v q Hq%elem_of_seq. apply foldl_ext_in. intros w l Hl%elem_of_seq. f_equal.
      unfold fma_lane, fma_dot. apply foldl_ext_in. intros acc r Hr%elem_of_seq.
      pose proof (chunk_lt kc q l r Hk H4 Hn ltac:(lia) ltac:(lia) ltac:(lia)). rewrite eA, eBt by done. unfold step. by destruct (decide _).
    - intros q l Hl. apply (lane_value two kc j q l step Hk H4 Hl).
      + unfold step. by rewrite decide_True.
      + intros k Hne. unfold step. rewrite !decide_False by done. done.
  Qed.
  Lemma every4_two i j : (4 | n) -> i < n -> j < n -> every4_entry n A Bt i j = if decide (j mod 4 = 0) then two else nzero.
  Proof.
    intros [m Hm] Hi Hj. pose proof Hnum as (H1&_&H0&_). unfold every4_entry. pose proof (Nat.div_mod j 4 ltac:(lia)) as Hd.
    replace (n / 4) with m by (rewrite Hm; symmetry; apply Nat.div_mul; lia). destruct (decide (j mod 4 = 0)) as [E|E].
    - apply (dot_once two Hnum _ m (j / 4)); [lia| |].
      + rewrite eA, eBt, decide_True by lia. done.
      + intros k Hk Hne. rewrite eA, eBt, decide_False by lia. done.
    - apply (dot_zero two Hnum). intros k Hk. rewrite eA, eBt by lia. rewrite decide_False; [done|]. intros E'. apply E. rewrite <- E', Nat.mul_comm. by apply Nat.mod_mul.
  Qed.
  (** What multRegister computes without FMA, by the number of the register. *)
  Definition misplaced_two (i j : nat) : T :=
    let p := 2 * (i mod 8) + j mod 8 / 4 in
    if p <? 2 then two else if p <? 8 then nadd two two else if p <? 10 then two else nzero.
  Lemma misplaced_ok i j : (8 | n) -> nadd nzero (nadd two two) = nadd two two -> i < n -> j < n ->
    misplaced_entry no_fma n A B i j = misplaced_two i j.
  Proof.
    intros [m Hm] Hfour Hi Hj. pose proof Hnum as (H1&_&H0&_&H01&H10&H00). unfold misplaced_entry, misplaced_two.
    pose proof (Nat.div_mod i 8 ltac:(lia)) as Ei. pose proof (Nat.mod_upper_bound i 8 ltac:(lia)) as Hi8.
    pose proof (Nat.div_mod j 8 ltac:(lia)) as Ej. pose proof (Nat.mod_upper_bound j 8 ltac:(lia)) as Hj8.
    pose proof (Nat.mod_upper_bound j 4 ltac:(lia)) as Hj4.
    assert (j mod 8 / 4 <= 1) as Hh by (apply Nat.lt_succ_r, Nat.div_lt_upper_bound; lia).
    set (p := 2 * (i mod 8) + j mod 8 / 4).
    set (c0 := j / 8 * 8 + 4 * 0 + j mod 4). set (c1 := j / 8 * 8 + 4 * 1 + j mod 4).
    assert (c0 < n /\ c1 < n /\ c0 <> c1) as (Hc0&Hc1&Hne) by (unfold c0, c1; lia).
    assert (forall r, r < 8 -> i / 8 * 8 + r < n) as Hrow by (intros; lia).
    set (ind := fun (c k : nat) (acc : T) => if decide (k = c) then nadd two acc else nadd nzero acc).
    assert (forall r c k acc, r < 8 -> k < n -> c < n -> no_fma (ent n A (i / 8 * 8 + r) k) (ent n B k c) acc = ind c k acc) as Hind.
    { intros r c k acc Hr Hk Hc. unfold no_fma, ind. rewrite eA, eB by auto. destruct (decide _); [by rewrite H1|by rewrite H0]. }
    transitivity (foldl (fun acc k => let acc := if (2 <=? p) && (p <? 10) then ind c1 k acc else acc in if p <? 8 then ind c0 k acc else acc) nzero (seq 0 n)).
    { apply foldl_ext_in. intros acc k Hk%elem_of_seq. cbv zeta.
      destruct ((2 <=? p) && (p <? 10)) eqn:E1, (p <? 8) eqn:E2; try apply andb_true_iff in E1 as [E1a%Nat.leb_le E1b%Nat.ltb_lt]; try apply Nat.ltb_lt in E2;
        rewrite ?Hind by lia; done. }
    destruct (Nat.ltb_spec p 2) as [Hp|Hp]; [|destruct (Nat.ltb_spec p 8) as [Hp'|Hp']; [|destruct (Nat.ltb_spec p 10) as [Hp''|Hp'']]].
    - rewrite (proj2 (Nat.leb_gt 2 p)), (proj2 (Nat.ltb_lt p 8)) by lia. cbn [andb].
      apply (fold_once (fun k acc => ind c0 k acc) _ c0); [apply NoDup_seq|apply elem_of_seq; lia| |].
      + unfold ind. by rewrite decide_True.
      + intros k _ Hk. unfold ind. rewrite !decide_False by done. done.
    - rewrite (proj2 (Nat.leb_le 2 p)), (proj2 (Nat.ltb_lt p 10)) by lia. cbn [andb].
      apply (fold_twice (fun k acc => ind c0 k (ind c1 k acc)) _ c0 c1 _ two); [apply NoDup_seq|apply elem_of_seq; lia|apply elem_of_seq; lia|done|..].
      all: unfold ind; clear - Hne H00 H01 H10 Hfour; clearbody c0 c1.
      1-4: assert (c1 <> c0) by done; repeat ((rewrite decide_True by done) || (rewrite decide_False by done)); rewrite ?H00, ?H01, ?H10, ?Hfour; done.
      intros k _ Hk0 Hk1. rewrite !decide_False by done. rewrite !H00, !H01, !Hfour. done.
    - rewrite (proj2 (Nat.leb_le 2 p)) by lia. cbn [andb].
      apply (fold_once (fun k acc => ind c1 k acc) _ c1); [apply NoDup_seq|apply elem_of_seq; lia| |].
      + unfold ind. by rewrite decide_True.
      + intros k _ Hk. unfold ind. rewrite !decide_False by done. done.
    - rewrite andb_false_r. apply (fold_none (fun (_ : nat) (acc : T) => acc)). done.
  Qed.
End Entries.

(** ** main *)
Lemma olanes_zero {T} `{NumOps T} kc n (A B : list T) i j : nadd nzero nzero = (nzero : T) -> olanes_entry kc None A B n i j = nzero.
Proof.
  intros H00. unfold olanes_entry. cbn [olane seq foldl].
  induction (seq 0 (n / kc)) as [|q L IH]; [done|]. cbn [foldl]. rewrite !H00. exact IH.
Qed.
Lemma good_buffer n base : 8 <= n -> good_address n base -> exists q, bench_buffer (Z.of_nat n) base = Some q /\ offset_of q mod 4 = 0.
Proof.
  intros Hn (H0&H8&Hw). destruct (bench_buffer_large (Z.of_nat n) base ltac:(lia) H0 H8 Hw) as [q Hq]. exists q. split; [done|].
  destruct (bench_buffer_fits (Z.of_nat n) base q ltac:(lia) H0 Hw Hq) as ([c ->]&_). unfold offset_of.
  replace (c * 64)%Z with (c * 8 * 8)%Z by lia. rewrite Z.div_mul by lia. replace (c * 8)%Z with (c * 2 * 4)%Z by lia. by rewrite Z.mod_mul by lia.
Qed.
Section Main.
  Context {T : Type} `{NumOps T} (two : T) (root : T -> T).
  Context (n : nat) (p : platform T) (Hn8 : 8 <= n).
  Context (Haddr : forall a, a ∈ [p_A p; p_ATransposed p; p_B p; p_BTransposed p; p_C p] -> good_address n a).
  Lemma main_run argv : exists A B Bt C pA pB pBt pC,
    is_matrix n (fun _ _ => two) A /\ is_identity n B /\ is_identity n Bt /\ is_zero n C /\
    offset_of pA mod 4 = 0 /\ offset_of pB mod 4 = 0 /\ offset_of pBt mod 4 = 0 /\ offset_of pC mod 4 = 0 /\
    bench_main_at two root n p argv =
      match argv with
      | [] => Err EOob
      | [_] => Ret (BenchRun 0 None)
      | _ :: name :: _ =>
          match bench_kernel p n pA pB pBt pC A B Bt C name with
          | None => Ret (BenchRun 0 None)
          | Some kernel => let! C := kernel in let! check := bench_check root n C in Ret (BenchRun 0 (Some check))
          end
      end.
  Proof.
    destruct (bench_fill_ok two n (p_junk p)) as (A&At&B&Bt&C&E&HA&_&HB&HBt&HC).
    destruct (good_buffer n (p_A p) Hn8) as (pA&EA&OA); [apply Haddr; set_solver|].
    destruct (good_buffer n (p_ATransposed p) Hn8) as (pAt&EAt&_); [apply Haddr; set_solver|].
    destruct (good_buffer n (p_B p) Hn8) as (pB&EB&OB); [apply Haddr; set_solver|].
    destruct (good_buffer n (p_BTransposed p) Hn8) as (pBt&EBt&OBt); [apply Haddr; set_solver|].
    destruct (good_buffer n (p_C p) Hn8) as (pC&EC&OC); [apply Haddr; set_solver|].
    exists A, B, Bt, C, pA, pB, pBt, pC. split_and!; try done.
    unfold bench_main_at. rewrite EA, EAt, EB, EBt, EC, E. done.
  Qed.
  Lemma main_check prg name rest f :
    (forall A B Bt C pA pB pBt pC, is_matrix n (fun _ _ => two) A -> is_identity n B -> is_identity n Bt -> is_zero n C ->
      offset_of pA mod 4 = 0 -> offset_of pB mod 4 = 0 -> offset_of pBt mod 4 = 0 -> offset_of pC mod 4 = 0 ->
      exists kernel, bench_kernel p n pA pB pBt pC A B Bt C name = Some kernel /\ always kernel (is_matrix n f)) ->
    always (bench_main_at two root n p (prg :: name :: rest)) (eq (BenchRun 0 (Some (root (sum_sq n f))))).
  Proof.
    intros Hk. destruct (main_run (prg :: name :: rest)) as (A&B&Bt&C&pA&pB&pBt&pC&HA&HB&HBt&HC&OA&OB&OBt&OC&->).
    destruct (Hk A B Bt C pA pB pBt pC HA HB HBt HC OA OB OBt OC) as (kernel&->&Hal).
    eapply must_bind; [exact Hal|]. cbn beta. intros R m HR. rewrite (bench_check_ok root n f R HR). by constructor.
  Qed.
  Lemma main_ub prg name rest :
    (forall A B Bt C pA pB pBt pC, exists kernel, bench_kernel p n pA pB pBt pC A B Bt C name = Some kernel /\ always_ub kernel) ->
    always_ub (bench_main_at two root n p (prg :: name :: rest)).
  Proof.
    intros Hk. destruct (main_run (prg :: name :: rest)) as (A&B&Bt&C&pA&pB&pBt&pC&_&_&_&_&_&_&_&_&->).
    destruct (Hk A B Bt C pA pB pBt pC) as (kernel&->&Hal). apply must_fail_bind. exact Hal.
  Qed.
  Lemma main_other argv : match argv with [_] => True | _ :: name :: _ => name ∉ right_names /\ name <> "blocked4"%string | [] => False end ->
    bench_main_at two root n p argv = Ret (BenchRun 0 None).
  Proof.
    intros Hargv. destruct (main_run argv) as (A&B&Bt&C&pA&pB&pBt&pC&_&_&_&_&_&_&_&_&->).
    destruct argv as [|prg [|name rest]]; [done|done|]. destruct Hargv as [Hnot H4]. unfold bench_kernel.
    unfold right_names in Hnot. rewrite !not_elem_of_cons in Hnot. destruct Hnot as (E1&E2&E3&E4&E5&E6&E7&E8&E9&E10&_).
    repeat rewrite (proj2 (String.eqb_neq name _)) by done. done.
  Qed.

  Context (Hnum : bench_numbers two).
  Context (Hfma : match p_fma p with Some f => fma_unit two f | None => True end).
  Context (Hloc : p_reg_result p mod 4 = 0 /\ p_reg_BB p mod 4 = 0 /\ p_gpuasm_AA p mod 4 = 0 /\ p_gpuasm_BB p mod 4 = 0).
  Context (H256 : (256 | n)).
  Lemma n128 : (128 | n). Proof. apply (Nat.divide_trans _ 256); [by exists 2|exact H256]. Qed.
  Lemma n4 : (4 | n). Proof. apply (Nat.divide_trans _ 256); [by exists 64|exact H256]. Qed.
  Lemma n2 : (2 | n). Proof. apply (Nat.divide_trans _ 256); [by exists 128|exact H256]. Qed.
  Lemma n8 : (8 | n). Proof. apply (Nat.divide_trans _ 256); [by exists 32|exact H256]. Qed.

  Ltac twos Hk := eapply must_mono; [|exact Hk]; intros R ? HR; eapply is_matrix_ext; [|exact HR]; intros i j Hi Hj.
  Lemma main_right prg name rest : name ∈ right_names ->
    (name ∈ ["register"; "gpuasm"]%string -> is_Some (p_fma p)) -> (name = "asm"%string -> p_asm p = true) ->
    always (bench_main_at two root n p (prg :: name :: rest)) (eq (BenchRun 0 (Some (root (sum_sq n (fun _ _ => two)))))).
  Proof.
    intros Hname Hf Ha. apply main_check. intros A B Bt C pA pB pBt pC HA HB HBt HC OA OB OBt OC.
    pose proof (lA two n A HA) as LA. pose proof (lB n B HB) as LB. pose proof (lBt n Bt HBt) as LBt. pose proof (lC n C HC) as LC.
    unfold right_names in Hname. rewrite !elem_of_cons in Hname.
    destruct Hname as [->|[->|[->|[->|[->|[->|[->|[->|[->|[->|Hname]]]]]]]]]]; unfold bench_kernel; cbn [String.eqb Ascii.eqb Bool.eqb];
      try (eexists; split; [reflexivity|]).
    - twos (proj1 (C59_naive_zeroed n A B C LA LB HC)). by apply prod_two.
    - twos (proj2 (C59_naive_zeroed n A Bt C LA LBt HC)). by apply prod_t_two.
    - twos (C60_counter n A Bt C LA LBt LC). by apply prod_t_two.
    - twos (C62_exchanged_shipped (p_junk p) n A B C n128 LA LB LC). by apply prod_two.
    - twos (C51_blocked2_even n A Bt C LA LBt LC n2). by apply prod_t_two.
    - rewrite (Ha eq_refl). twos (C65_asm (offset_of pA) (offset_of pBt) A Bt C n LA LBt LC n4 OA OBt). exact (asm_two two Hnum n A Bt HA HBt i j n4 Hi Hj).
    - twos (C61_gpu_shipped (p_junk p) n A Bt C n128 LA LBt LC).
      exact (lanes_two two Hnum n A Bt HA HBt 128 i j (proj1 (Nat.ltb_lt 0 128) eq_refl) (ex_intro _ 32 eq_refl) n128 Hi Hj).
    - destruct (p_fma p) as [f|]; [|by destruct (Hf ltac:(set_solver))]. destruct Hloc as (_&_&L3&L4).
      twos (C66_gpuasm_shipped f (p_junk p) (p_gpuasm_AA p) (p_gpuasm_BB p) A Bt C n H256 LA LBt LC L3 L4).
      exact (fma_lanes_two two Hnum n A Bt HA HBt f 256 i j Hfma (proj1 (Nat.ltb_lt 0 256) eq_refl) (ex_intro _ 64 eq_refl) H256 Hi Hj).
    - destruct (p_fma p) as [f|]; [|by destruct (Hf ltac:(set_solver))]. destruct Hloc as (L1&L2&_).
      twos (C64_register_fma_shipped f (p_junk p) (p_reg_result p) (p_reg_BB p) A B C n H256 LA LB LC L1 L2).
      exact (fma_two two n A B HA HB f i j Hfma Hi Hj).
    - assert (fma_unit two (match p_fma p with Some f => f | None => no_fma end)) as Hf'.
      { destruct (p_fma p); [done|]. exact (no_fma_unit two Hnum). }
      twos (C63_intrin_shipped (match p_fma p with Some f => f | None => no_fma end) (p_junk p) (offset_of pA) (offset_of pB) (offset_of pC) A B C n n128 LA LB LC OA OB OC).
      exact (fma_two two n A B HA HB _ i j Hf' Hi Hj).
    - by apply elem_of_nil in Hname.
  Qed.
  Lemma main_blocked4 prg rest :
    always (bench_main_at two root n p (prg :: "blocked4"%string :: rest))
      (eq (BenchRun 0 (Some (root (sum_sq n (fun _ j => if decide (j mod 4 = 0) then two else nzero)))))).
  Proof.
    apply main_check. intros A B Bt C pA pB pBt pC HA HB HBt HC OA OB OBt OC.
    eexists; split; [reflexivity|]. twos (C51_blocked4_entries n A Bt C (lA two n A HA) (lBt n Bt HBt) (lC n C HC) n4).
    exact (every4_two two Hnum n A Bt HA HBt i j n4 Hi Hj).
  Qed.
  Lemma main_register_no_fma prg rest : p_fma p = None -> nadd nzero (nadd two two) = nadd two two ->
    always (bench_main_at two root n p (prg :: "register"%string :: rest)) (eq (BenchRun 0 (Some (root (sum_sq n (misplaced_two two)))))).
  Proof.
    intros Hno Hfour. apply main_check. intros A B Bt C pA pB pBt pC HA HB HBt HC OA OB OBt OC. destruct Hloc as (L1&L2&_).
    eexists; split; [unfold bench_kernel; cbn [String.eqb Ascii.eqb Bool.eqb]; reflexivity|]. rewrite Hno.
    twos (C64_register_no_fma_shipped (p_junk p) (p_reg_result p) (p_reg_BB p) A B C n H256 (lA two n A HA) (lB n B HB) (lC n C HC) L1 L2).
    exact (misplaced_ok two Hnum n A B HA HB i j n8 Hfour Hi Hj).
  Qed.
  Lemma main_zero prg name rest :
    name = "gpuasm"%string /\ p_fma p = None \/ name = "asm"%string /\ p_asm p = false ->
    always (bench_main_at two root n p (prg :: name :: rest)) (eq (BenchRun 0 (Some (root (sum_sq n (fun _ _ => nzero)))))).
  Proof.
    intros [[-> Hno]|[-> Hno]]; apply main_check; intros A B Bt C pA pB pBt pC HA HB HBt HC OA OB OBt OC;
      (eexists; split; [unfold bench_kernel; cbn [String.eqb Ascii.eqb Bool.eqb]; reflexivity|]); rewrite Hno.
    - destruct Hloc as (_&_&L3&L4). pose proof Hnum as (_&_&_&_&_&_&H00).
      pose proof (proj1 (Nat.ltb_lt 0 256) eq_refl) as Hpos. pose proof (ex_intro (fun q => 256 = q * 4) 64 eq_refl) as Hfour.
      twos (multGPUASM_entries 256 256 None (p_junk p) (p_gpuasm_AA p) (p_gpuasm_BB p) A Bt C n
        Hpos Hpos H256 H256 Hfour Hfour (lA two n A HA) (lBt n Bt HBt) (lC n C HC) L3 L4).
      exact (olanes_zero 256 n A Bt i j H00).
    - twos (C65_asm_unsupported (offset_of pA) (offset_of pBt) A Bt C n (lC n C HC)). apply (dot_zero two Hnum). done.
  Qed.
End Main.

Lemma main_misaligned {T} `{NumOps T} (two : T) (root : T -> T) n (p : platform T) prg name rest :
  8 <= n -> (forall a, a ∈ [p_A p; p_ATransposed p; p_B p; p_BTransposed p; p_C p] -> good_address n a) ->
  name = "register"%string /\ (p_reg_result p mod 4 <> 0 \/ p_reg_BB p mod 4 <> 0) \/
  name = "gpuasm"%string /\ (p_gpuasm_AA p mod 4 <> 0 \/ p_gpuasm_BB p mod 4 <> 0) ->
  always_ub (bench_main_at two root n p (prg :: name :: rest)).
Proof.
  intros Hn Haddr Hc. apply (main_ub two root n p Hn Haddr). intros A B Bt C pA pB pBt pC.
  pose proof (proj1 (Nat.ltb_lt 0 256) eq_refl) as Hpos. pose proof (proj1 (Nat.ltb_lt 0 64) eq_refl) as Hpos'.
  assert (0 < n) as Hn0 by lia.
  destruct Hc as [[-> Ho]|[-> Ho]]; (eexists; split; [unfold bench_kernel; cbn [String.eqb Ascii.eqb Bool.eqb]; reflexivity|]).
  - destruct (p_fma p) as [f|].
    + apply multRegister_misaligned; [apply Nat.ltb_lt; reflexivity..|exact Hn0|exact Ho].
    + apply multRegister_misaligned; [apply Nat.ltb_lt; reflexivity..|exact Hn0|exact Ho].
  - apply multGPUASM_misaligned; [exact Hpos|exact Hpos|exact Hn0|exact Ho].
Qed.
