(** Arithmetic of row-major indices, matrix entries, sums, and small program
    facts used by all proofs. *)
From Verif Require Export Conc ConcFacts LoopFacts Spec.

Global Arguments Nat.div : simpl never.
Global Arguments Nat.modulo : simpl never.

Lemma elem_of_rng0 hi st i : 0 < st -> i ∈ rng 0 hi st <-> exists q, i = q * st /\ i < hi.
Proof. intros Hst. by rewrite elem_of_rng. Qed.

Lemma mixed_inj n a b a' b' : b < n -> b' < n -> a * n + b = a' * n + b' -> a = a' /\ b = b'.
Proof.
  intros Hb Hb' He. assert (a = a').
  { destruct (lt_eq_lt_dec a a') as [[Hl|?]|Hl]; [exfalso|done|exfalso].
    - assert (S a * n <= a' * n) by (apply Nat.mul_le_mono_r; lia). simpl in *. lia.
    - assert (S a' * n <= a * n) by (apply Nat.mul_le_mono_r; lia). simpl in *. lia. }
  split; [done|]. subst. lia.
Qed.
Lemma mixed_lt n m a b : a < m -> b < n -> a * n + b < m * n.
Proof. intros. assert (S a * n <= m * n) by (apply Nat.mul_le_mono_r; lia). simpl in *. lia. Qed.
Lemma block_lt b n a r : (b | n) -> 0 < b -> r < b -> a * b < n -> a * b + r < n.
Proof. intros [q ->] Hb Hr Ha. apply Nat.mul_lt_mono_pos_r in Ha; [|done]. by apply mixed_lt. Qed.

Section Ent.
  Context {T : Type} `{NumOps T}.

  Lemma ent_lookup (w : nat) (M : list T) i j :
    i * w + j < length M -> M !! (i * w + j) = Some (ent w M i j).
  Proof.
    intros Hl. unfold ent. destruct (M !! _) eqn:E; [done|]. apply lookup_ge_None in E. lia.
  Qed.
  Lemma ent_lookup_sq N (M : list T) i j :
    length M = N * N -> i < N -> j < N -> M !! (i * N + j) = Some (ent N M i j).
  Proof. intros HM Hi Hj. apply ent_lookup. rewrite HM. by apply mixed_lt. Qed.
  Lemma ent_eq w (M : list T) i j x : M !! (i * w + j) = Some x -> ent w M i j = x.
  Proof. unfold ent. by intros ->. Qed.

  Lemma dot_nil (f : nat -> T) : dot f [] = nzero.
  Proof. done. Qed.
  Lemma dot_app (f : nat -> T) l1 l2 : dot f (l1 ++ l2) = foldl (fun a k => nadd a (f k)) (dot f l1) l2.
  Proof. unfold dot. by rewrite foldl_app. Qed.
  Lemma dot_snoc (f : nat -> T) l k : dot f (l ++ [k]) = nadd (dot f l) (f k).
  Proof. by rewrite dot_app. Qed.
  Lemma foldl_ext_in {X} (f g : T -> X -> T) (l : list X) a :
    (forall a x, x ∈ l -> f a x = g a x) -> foldl f a l = foldl g a l.
  Proof.
    revert a. induction l as [|x l IH]; intros a Hf; simpl; [done|].
    rewrite (Hf a x) by (apply elem_of_cons; by left). apply IH.
    intros b y Hy. apply Hf, elem_of_cons; by right.
  Qed.
  Lemma dot_ext (f g : nat -> T) l : (forall k, k ∈ l -> f k = g k) -> dot f l = dot g l.
  Proof. intros Hf. apply foldl_ext_in. intros a k Hk. by rewrite Hf. Qed.
  Lemma dot_fmap (f : nat -> T) (h : nat -> nat) l : dot f (h <$> l) = dot (fun k => f (h k)) l.
  Proof. unfold dot. generalize (nzero : T). induction l as [|x l IH]; intros z; simpl; [done|]. apply IH. Qed.

  (** Exact arithmetic: sums may be regrouped. *)
  Section ExactSums.
    Context `{!Exact T}.
    Lemma nadd_0_r x : nadd x nzero = x.
    Proof. by rewrite nadd_comm, nadd_0_l. Qed.
    Lemma foldl_nadd_shift {X} (f : X -> T) (l : list X) a :
      foldl (fun a k => nadd a (f k)) a l = nadd a (foldl (fun a k => nadd a (f k)) nzero l).
    Proof.
      revert a. induction l as [|x l IH]; intros a; simpl; [by rewrite nadd_0_r|].
      rewrite IH, (IH (nadd nzero (f x))), nadd_0_l. by rewrite nadd_assoc.
    Qed.
    Lemma dot_app_exact (f : nat -> T) l1 l2 : dot f (l1 ++ l2) = nadd (dot f l1) (dot f l2).
    Proof. rewrite dot_app. by rewrite foldl_nadd_shift. Qed.
    Lemma dot_cons_exact (f : nat -> T) k l : dot f (k :: l) = nadd (f k) (dot f l).
    Proof.
      change (k :: l) with ([k] ++ l). rewrite dot_app_exact. f_equal.
      unfold dot. simpl. by rewrite nadd_0_l.
    Qed.
    Lemma dot_bind_exact (f : nat -> T) (g : nat -> list nat) l :
      dot f (l ≫= g) = dot (fun q => dot f (g q)) l.
    Proof.
      induction l as [|x l IH]; [done|]. rewrite bind_cons, dot_app_exact, dot_cons_exact. by rewrite IH.
    Qed.
    Lemma dot_zero_exact (f : nat -> T) l : (forall k, k ∈ l -> f k = nzero) -> dot f l = nzero.
    Proof.
      induction l as [|x l IH]; intros Hf; [done|].
      rewrite dot_cons_exact, (Hf x), IH, nadd_0_l; [done| |apply elem_of_cons; by left].
      intros k Hk. apply Hf, elem_of_cons; by right.
    Qed.
    Lemma dot_chunks_exact b (f : nat -> T) N : (b | N) -> 0 < b -> dot_chunks b f N = dot f (seq 0 N).
    Proof.
      intros Hd Hb. unfold dot_chunks. rewrite <- dot_bind_exact, seq_blocks.
      by rewrite <- divide_div_mul.
    Qed.
    (** Trailing zero terms do not change a sum. *)
    Lemma dot_pad_exact (f : nat -> T) N M :
      N <= M -> (forall k, N <= k < M -> f k = nzero) -> dot f (seq 0 M) = dot f (seq 0 N).
    Proof.
      intros HNM Hf. replace M with (N + (M - N)) by lia. rewrite seq_app, dot_app_exact.
      rewrite (dot_zero_exact f (seq (0 + N) (M - N))), nadd_0_r; [done|].
      intros k Hk. apply elem_of_seq in Hk. apply Hf. lia.
    Qed.
  End ExactSums.

  (** A loop that accumulates a sum. *)
  Lemma foldP_dot (ks : list nat) (body : nat -> T -> prog T T) (f : nat -> T) a :
    (forall k acc, k ∈ ks -> body k acc = Ret (nadd acc (f k))) ->
    foldP ks body a = Ret (foldl (fun acc k => nadd acc (f k)) a ks).
  Proof.
    intros Hb. edestruct (foldP_pure (fun _ => True) ks body (fun k acc => nadd acc (f k)) a) as [-> _]; [done| |done].
    intros k acc Hk _. split; [by apply Hb|done].
  Qed.

  Lemma forS1_dot n (body : nat -> T -> prog T T) (f : nat -> T) :
    (forall k acc, k < n -> body k acc = Ret (nadd acc (f k))) ->
    forS 0 n 1 body nzero = Ret (dot f (seq 0 n)).
  Proof.
    intros Hb. rewrite forS_step by lia. rewrite rng_1, Nat.sub_0_r. apply foldP_dot.
    intros k acc Hk. apply elem_of_seq in Hk. apply Hb. lia.
  Qed.
End Ent.

(** pcatch is invisible when nothing fails. *)
Section Catch.
  Context {T : Type}.
  Lemma run_pcatch_ok {A} e (h p : prog T A) m r : run p m = Ok r -> run (pcatch e h p) m = Ok r.
  Proof.
    revert m. induction p as [A a|A e'|A l k IH|A l v k IH|A l v k IH|A p IHp q IHq k IHk];
      intros m Hr; simpl in *; try done; auto.
    - destruct (m !! l); auto.
    - destruct (run p m) as [[? ?]|]; [|done]. destruct (run q g) as [[? ?]|]; [|done]. auto.
  Qed.
  Lemma acc_in_pcatch {A} R W e (h p : prog T A) : acc_in R W h -> acc_in R W p -> acc_in R W (pcatch e h p).
  Proof.
    intros Hh. revert h Hh.
    induction p as [A a|A e'|A l k IH|A l v k IH|A l v k IH|A p IHp q IHq k IHk];
      intros h Hh Hp; simpl in *; try done.
    - by case_decide.
    - destruct Hp; split; auto.
    - destruct Hp; split; auto.
    - destruct Hp; split; auto.
    - destruct Hp as (?&?&?); split_and!; auto.
  Qed.
  Lemma drf_pcatch {A} e (h p : prog T A) : drf h -> drf p -> drf (pcatch e h p).
  Proof.
    intros Hh. revert h Hh.
    induction p as [A a|A e'|A l k IH|A l v k IH|A l v k IH|A p IHp q IHq k IHk];
      intros h Hh Hp; simpl in *; try done; auto.
    - by case_decide.
    - destruct Hp as (?&?&?&?); split_and!; auto.
  Qed.
  Lemma does_pcatch e h (p : prog T unit) us : does p us -> does (pcatch e h p) us.
  Proof. intros Hp m Hm. apply run_pcatch_ok. by apply Hp. Qed.
  Lemma pcatch_ret {A} e (h : prog T A) a : pcatch e h (Ret a) = Ret a.
  Proof. done. Qed.

  Lemma cells_list_eq (s : list T) n (f : nat -> T) :
    length s = n -> (forall i, i < n -> s !! i = Some (f i)) -> s = f <$> seq 0 n.
  Proof.
    intros Hl Hs. apply list_eq. intros i. destruct (decide (i < n)).
    - rewrite Hs by done. rewrite list_lookup_fmap, lookup_seq_lt by done. done.
    - rewrite (proj2 (lookup_ge_None _ _)) by lia. symmetry. apply lookup_ge_None.
      rewrite fmap_length, seq_length. lia.
  Qed.
  (** Allocate, run a body with a known effect, read back. *)
  Lemma run_alloc_does a n (x : T) (p : prog T unit) us m :
    does p us ->
    (forall u, u ∈ us -> exists i, u.1 = (a, i) /\ i < n) ->
    exists m', run (valloc a n x ;;; p ;;; vread a n) m =
      Ok ((fun i => fold_upd (contrib (a, i) us) x) <$> seq 0 n, m').
  Proof.
    intros Hd Hu. destruct (run_valloc a n x m) as (m1&Hr1&H1&H2).
    assert (present us m1) as Hp.
    { intros u Hin. destruct (Hu u Hin) as (i&Hi1&Hi). exists x. rewrite <- (H1 i Hi), <- Hi1. done. }
    exists (applyM us m1). rewrite run_bind, Hr1, run_bind, (Hd m1 Hp).
    apply run_vread.
    - by rewrite fmap_length, seq_length.
    - intros i Hi. rewrite applyM_lookup, H1 by done.
      rewrite list_lookup_fmap, lookup_seq_lt by done. done.
  Qed.
End Catch.

(** A full sweep over an r x w grid, each cell updated once. *)
Section Grid.
  Context {T : Type}.
  Definition grid_us (r w : nat) (f : nat -> nat -> T -> T) : list (nat * (T -> T)) :=
    seq 0 r ≫= fun i => seq 0 w ≫= fun j => [(i * w + j, f i j)].
  Lemma contrib_grid r w f i j : i < r -> j < w -> contrib (i * w + j) (grid_us r w f) = [f i j].
  Proof.
    intros Hi Hj. unfold grid_us. rewrite contrib_bind, (bind_select _ _ i).
    - rewrite contrib_bind, (bind_select _ _ j).
      + apply contrib_single_eq.
      + apply NoDup_seq.
      + apply elem_of_seq. lia.
      + intros j' Hj' Hne. apply contrib_single_ne. lia.
    - apply NoDup_seq.
    - apply elem_of_seq. lia.
    - intros i' Hi' Hne. apply elem_of_seq in Hi'. apply contrib_none.
      intros u (j'&Hu&Hj')%elem_of_list_bind. apply elem_of_list_singleton in Hu as ->.
      apply elem_of_seq in Hj'. simpl. intros He. apply mixed_inj in He; lia.
  Qed.
  Lemma grid_lookup r w f (s : list T) i j : i < r -> j < w ->
    applyL (grid_us r w f) s !! (i * w + j) = f i j <$> s !! (i * w + j).
  Proof. intros. by rewrite applyL_lookup, contrib_grid. Qed.
  (** Two nested loops with unit step that write one cell per iteration. *)
  Lemma forS_grid n r w (f : nat -> nat -> T -> T) (body : nat -> nat -> list T -> prog T (list T)) s :
    length s = n ->
    (forall i j s, i < r -> j < w -> length s = n -> body i j s = Ret (applyL [(i * w + j, f i j)] s)) ->
    forS 0 r 1 (fun i s => forS 0 w 1 (body i) s) s = Ret (applyL (grid_us r w f) s).
  Proof.
    intros Hs Hb. rewrite forS_step by lia. rewrite rng_1, Nat.sub_0_r. unfold grid_us.
    apply foldP_applyL with (n := n); [done|]. intros i s' Hi Hs'. apply elem_of_seq in Hi.
    rewrite forS_step by lia. rewrite rng_1, Nat.sub_0_r.
    apply foldP_applyL with (n := n); [done|]. intros j s'' Hj Hs''. apply elem_of_seq in Hj.
    apply Hb; [lia|lia|done].
  Qed.
End Grid.

(** Matrices as functions. *)
Section MatrixFacts.
  Context {T : Type} `{NumOps T}.
  Lemma is_matrix_ext N (f g : nat -> nat -> T) C :
    (forall i j, i < N -> j < N -> f i j = g i j) -> is_matrix N f C -> is_matrix N g C.
  Proof. intros Hfg [Hl HC]. split; [done|]. intros. rewrite HC by done. by rewrite Hfg. Qed.
  Lemma is_matrix_unique N (f : nat -> nat -> T) C C' : is_matrix N f C -> is_matrix N f C' -> C = C'.
  Proof.
    intros [Hl HC] [Hl' HC']. apply list_eq. intros p. destruct (decide (p < N * N)) as [Hp|Hp].
    - assert (N <> 0) by (intros ->; lia).
      rewrite (Nat.div_mod p N) by done. rewrite Nat.mul_comm.
      assert (p / N < N) by (apply Nat.div_lt_upper_bound; lia).
      pose proof (Nat.mod_upper_bound p N). rewrite HC, HC' by lia. done.
    - rewrite !(proj2 (lookup_ge_None _ _)) by lia. done.
  Qed.
  Lemma is_matrix_ent N (f : nat -> nat -> T) C i j : is_matrix N f C -> i < N -> j < N -> ent N C i j = f i j.
  Proof. intros [_ HC] Hi Hj. apply ent_eq. by apply HC. Qed.
  Lemma grid_matrix n (f : nat -> nat -> T) s :
    length s = n * n -> is_matrix n f (applyL (grid_us n n (fun i j _ => f i j)) s).
  Proof.
    intros Hs. split; [by rewrite length_applyL|]. intros i j Hi Hj. rewrite grid_lookup by done.
    destruct (lookup_lt_is_Some_2 s (i * n + j)) as [x ->]; [|done]. rewrite Hs. by apply mixed_lt.
  Qed.
End MatrixFacts.
