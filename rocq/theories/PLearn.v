(** The loops and the output of learning/MetaProgrammingCPP.cpp. *)
From Coq Require Import String.
From Verif Require Import Base LoopFacts MIter PIter MTile SpecTile PTile MLearn SpecLearn.
Local Open Scope nat_scope.

Fixpoint tuples (dim mn mx : nat) : list (list nat) :=
  match dim with O => [[]] | S d => seq mn (mx - mn) ≫= fun i => cons i <$> tuples d mn mx end.
Lemma forR_seq {S} lo hi (f : nat -> S -> res S) s : forR lo hi 1 f s = foldR (seq lo (hi - lo)) f s.
Proof.
  unfold forR. cbn [Nat.eqb]. rewrite andb_false_r. f_equal.
  destruct (Nat.le_gt_cases hi lo) as [Hle|Hlt].
  - rewrite rng_nil by done. by replace (hi - lo) with 0 by lia.
  - pose proof (rng_exact lo (hi - lo) 1 ltac:(lia)) as Hr. replace (lo + (hi - lo) * 1) with hi in Hr by lia.
    rewrite Hr. rewrite <- (Nat.add_0_r lo) at 2. rewrite <- fmap_add_seq. apply list_fmap_ext. intros. lia.
Qed.
Lemma execute_tuples {S} dim mn mx (f : list nat -> S -> res S) : forall args s,
  learn_execute_looped dim mn mx f args s = foldR (tuples dim mn mx) (fun t s => f (args ++ t) s) s.
Proof.
  induction dim as [|d IH]; intros args s; cbn [learn_execute_looped tuples].
  - cbn [foldR]. rewrite app_nil_r. by destruct (f args s).
  - rewrite forR_seq, foldR_concat. apply foldR_ext. intros i s' _. rewrite IH, foldR_map.
    apply foldR_ext. intros t s'' _. by rewrite <- app_assoc.
Qed.
Lemma bind_fmap {A B C} (g : A -> B) (h : B -> list C) l : (g <$> l) ≫= h = l ≫= fun x => h (g x).
Proof. induction l as [|x l IH]; [done|]. cbn [fmap list_fmap]. rewrite !bind_cons. by rewrite <- IH. Qed.
Lemma tuples_lexs dim mn mx : tuples dim mn mx = (fun t : list nat => (fun x => mn + x) <$> t) <$> lexs (replicate dim (mx - mn)).
Proof.
  induction dim as [|d IH]; [done|]. cbn [tuples replicate lexs]. rewrite fmap_of_bind.
  rewrite <- (Nat.add_0_r mn) at 1. rewrite <- fmap_add_seq. rewrite bind_fmap.
  apply list_bind_ext; [|done]. intros i. rewrite IH, <- !list_fmap_compose. by apply list_fmap_ext.
Qed.
Lemma extent_pow d w : extent_prod (replicate d w) = w ^ d.
Proof. induction d as [|d IH]; [done|]. cbn [replicate extent_prod Nat.pow]. by rewrite IH. Qed.
Lemma tuples_all dim mn mx : all_tuples dim mn mx (tuples dim mn mx).
Proof.
  rewrite tuples_lexs. split.
  - by rewrite fmap_length, lexs_length, extent_pow.
  - intros t Hl Hf. rewrite list_lookup_fmap, lexs_at.
    + cbn. f_equal. rewrite <- list_fmap_compose. clear Hl. induction Hf as [|x t Hx Hf IH]; [done|].
      cbn. f_equal; [lia|exact IH].
    + clear -Hl Hf. subst dim. induction Hf as [|x t Hx Hf IH]; [constructor|]. cbn. constructor; [lia|exact IH].
Qed.
Lemma looper_calls dim mn mx : exists cs, all_tuples dim mn mx cs /\
  forall S (f : list nat -> S -> res S) s, iterate_simple (Looper dim mn mx) f s = foldR cs f s.
Proof. exists (tuples dim mn mx). split; [apply tuples_all|]. intros. unfold iterate_simple. cbn. by rewrite execute_tuples. Qed.

(** * Output *)
Lemma append_assoc (a b c : string) : ((a ++ b) ++ c = a ++ (b ++ c))%string.
Proof. induction a as [|x a IH]; [done|]. exact (f_equal (String x) IH). Qed.
Lemma append_nil (a : string) : (a ++ "" = a)%string.
Proof. induction a as [|x a IH]; [done|]. exact (f_equal (String x) IH). Qed.
(** A list of texts, each preceded by the separator. *)
Definition trailing (l : list string) : string := foldr (fun x r => (", " ++ x ++ r)%string) ""%string l.
Lemma concat_trailing x l : String.concat ", " (x :: l) = (x ++ trailing l)%string.
Proof.
  revert x. induction l as [|y l IH]; intros x; [cbn; by rewrite append_nil|].
  change (String.concat ", " (x :: y :: l)) with (x ++ ", " ++ String.concat ", " (y :: l))%string. by rewrite IH.
Qed.
Definition text_of (t : list nat) : string := match t with [i; j] => pair_text i j | _ => ""%string end.
Lemma print_trailing l : Forall (fun t => exists i j, t = [i; j] /\ (0 < i \/ 0 < j)) l -> forall out,
  foldR l print_pair out = Ok (out ++ trailing (text_of <$> l))%string.
Proof.
  induction 1 as [|t l (i&j&->&Hp) Hl IH]; intros out; cbn [foldR].
  - cbn. by rewrite append_nil.
  - unfold print_pair at 1. cbn [lget lookup list_lookup rbind].
    assert (Hb : (0 <? i) || (0 <? j) = true) by (apply orb_true_iff; rewrite !Nat.ltb_lt; done).
    rewrite Hb. cbn [rbind]. rewrite IH. f_equal. cbn [fmap list_fmap trailing foldr text_of]. unfold pair_text.
    rewrite !append_assoc. done.
Qed.
Lemma tuples2 mn mx : text_of <$> tuples 2 mn mx = pair_texts mn mx.
Proof.
  unfold pair_texts. cbn [tuples]. rewrite fmap_of_bind. apply list_bind_ext; [|done]. intros i.
  rewrite <- list_fmap_compose, fmap_of_bind. generalize (seq mn (mx - mn)) as l. induction l as [|j l IH]; [done|].
  rewrite bind_cons. cbn. by f_equal.
Qed.
Lemma tuples2_elem mn mx t : t ∈ tuples 2 mn mx -> exists i j, t = [i; j] /\ mn <= i /\ mn <= j.
Proof.
  rewrite tuples_lexs. intros Ht. apply elem_of_list_fmap in Ht as (idx&->&Hi). apply elem_of_lexs in Hi.
  inversion Hi as [|i ? l ? _ Hr]; subst. inversion Hr as [|j ? l' ? _ Hr']; subst. inversion Hr'; subst.
  exists (mn + i), (mn + j). cbn. split; [done|lia].
Qed.
Lemma tuples2_0 mx : 0 < mx -> exists l, tuples 2 0 mx = [0; 0] :: l /\ Forall (fun t => exists i j, t = [i; j] /\ (0 < i \/ 0 < j)) l.
Proof.
  intros Hm.
  assert (H0 : lexs (replicate 2 (mx - 0)) !! 0 = Some [0; 0]).
  { rewrite <- (lexs_at (replicate 2 (mx - 0)) [0; 0]); [done|]. cbn. constructor; [lia|]. constructor; [lia|constructor]. }
  pose proof (lexs_NoDup (replicate 2 (mx - 0))) as Hnd.
  assert (E : tuples 2 0 mx = lexs (replicate 2 (mx - 0))).
  { rewrite tuples_lexs. etransitivity; [|apply list_fmap_id]. apply list_fmap_ext. intros ? x _. cbn. apply list_fmap_id. }
  rewrite E. pose proof (fun t => elem_of_lexs (replicate 2 (mx - 0)) t) as Hel.
  destruct (lexs (replicate 2 (mx - 0))) as [|t l]; [done|]. cbn in H0. injection H0 as ->. exists l. split; [done|].
  apply NoDup_cons in Hnd as [Hn _]. apply Forall_forall. intros t Ht.
  pose proof (proj1 (Hel t) (elem_of_list_further _ _ _ Ht)) as Hw.
  inversion Hw as [|i ? l1 ? _ Hr]; subst. inversion Hr as [|j ? l2 ? _ Hr']; subst. inversion Hr'; subst.
  exists i, j. split; [done|]. destruct i as [|i]; [|lia]. destruct j as [|j]; [|lia]. done.
Qed.
Lemma learning_from_0 mx : learning_main 0 mx = Ok (String.concat ", " (pair_texts 0 mx) ++ newline)%string.
Proof.
  unfold learning_main, iterate_simple. cbn [lp_dim lp_min lp_max]. rewrite execute_tuples. cbn [app].
  destruct (Nat.eq_dec mx 0) as [->|Hm]; [done|].
  destruct (tuples2_0 mx ltac:(lia)) as (l&E&Hl). rewrite <- tuples2, E. cbn [fmap list_fmap].
  assert (Hx : foldR ([0; 0] :: l) (fun t s => print_pair t s) ""%string = Ok (pair_text 0 0 ++ trailing (text_of <$> l))%string).
  { cbn [foldR]. change (print_pair [0; 0] ""%string) with (Ok (pair_text 0 0)). cbn [rbind]. exact (print_trailing l Hl _). }
  rewrite Hx. cbn [rbind text_of]. by rewrite concat_trailing.
Qed.
Lemma learning_above_0 mn mx : 0 < mn -> mn < mx ->
  learning_main mn mx = Ok (", " ++ String.concat ", " (pair_texts mn mx) ++ newline)%string.
Proof.
  intros H0 Hm. unfold learning_main, iterate_simple. cbn [lp_dim lp_min lp_max]. rewrite execute_tuples. cbn [app].
  assert (Hf : Forall (fun t => exists i j, t = [i; j] /\ (0 < i \/ 0 < j)) (tuples 2 mn mx)).
  { apply Forall_forall. intros t Ht. destruct (tuples2_elem _ _ _ Ht) as (i&j&->&Hi&Hj). exists i, j. split; [done|lia]. }
  assert (Hx : foldR (tuples 2 mn mx) (fun t s => print_pair t s) ""%string = Ok (trailing (text_of <$> tuples 2 mn mx))).
  { exact (print_trailing _ Hf ""%string). }
  rewrite Hx. cbn [rbind]. rewrite tuples2.
  assert (Hne : exists x l, pair_texts mn mx = x :: l).
  { unfold pair_texts. destruct (mx - mn) as [|w] eqn:E; [lia|]. cbn. eauto. }
  destruct Hne as (x&l&->). rewrite concat_trailing. cbn [trailing foldr]. by rewrite !append_assoc.
Qed.
