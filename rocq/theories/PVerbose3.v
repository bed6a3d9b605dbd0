(** The complete output of a verbose run. *)
From Coq Require Import ZArith Ascii String Psatz.
From Flocq Require Import IEEE754.Binary IEEE754.Bits.
From Verif Require Import Base Num Spec MDouble MPrint SpecPrint PPrint PTranscript PTranscript2 PTranscript3 MReport MSchedule SpecSched PSchedule
  MTranscript MVerbose PVerbose PVerbose2 MApp SpecApp SpecTranscript SpecVerbose.
Local Open Scope string_scope.

(** * The other lines *)
Definition silent (x : string) : Prop := PTranscript.quiet " work on x" x.
Lemma silent_text x : has_char ":" x = false -> silent x.
Proof. intros H u w E. exfalso. apply has_false in H. apply H. by exists u, w. Qed.
Lemma silent_lit s : scan (rev (chars " work on x")) [] [Lit s; Lit newline] = true -> silent (put [s; newline]).
Proof. exact (q_lit " work on x" s). Qed.
Lemma silent_flat {A} (f : A -> list string) l : (forall a, Forall silent (f a)) -> Forall silent (flat_map f l).
Proof. intros H. induction l; [constructor|]. cbn [flat_map]. apply Forall_app. auto. Qed.
Lemma silent_imap {A} (f : nat -> A -> list string) l : (forall i a, Forall silent (f i a)) -> Forall silent (concat (imap f l)).
Proof.
  intros H. revert f H. induction l as [|a l IH]; intros f H; [constructor|]. rewrite imap_cons. cbn [concat]. apply Forall_app. split; [apply H|].
  apply IH. intros i b. apply H.
Qed.
Lemma silent_level o v l : Forall silent l -> Forall silent (at_level o v l).
Proof. intros H. unfold at_level. destruct (v <=? o_verbose o)%nat; [exact H|constructor]. Qed.
Lemma silent_matrix o index m : Forall silent (matrix_chunks o index m).
Proof.
  apply silent_flat. intros i. apply Forall_app. split.
  - apply silent_flat. intros j. apply Forall_app. split.
    + destruct (0 <? j)%nat; constructor; [by apply silent_text|constructor].
    + constructor; [|constructor]. apply silent_text. exact (show64_has ":" _ _ (conj eq_refl eq_refl)).
  - constructor; [by apply silent_text|constructor].
Qed.
Lemma silent_schedule all : Forall silent (schedule_chunks all).
Proof.
  constructor; [by apply silent_lit|]. apply silent_imap. intros i ws. constructor.
  - quiet [Lit "locality: "; Any (show_nat i); Lit " = "].
  - apply Forall_app. split; [|constructor; [by apply silent_text|constructor]]. apply silent_imap. intros j w. apply Forall_app. split.
    + destruct (0 <? j)%nat; constructor; [by apply silent_text|constructor].
    + constructor; [|constructor]. apply silent_text. cbn [put fold_right]. rewrite !has_app, show_int_has. reflexivity.
Qed.
Lemma silent_input o A B : Forall silent (input_chunks o A B).
Proof.
  constructor; [by apply silent_lit|]. apply Forall_app. split; [apply silent_matrix|]. constructor; [by apply silent_lit|apply silent_matrix].
Qed.
Lemma silent_result o C : Forall silent (result_chunks o C "").
Proof. constructor; [by apply silent_lit|apply silent_matrix]. Qed.
Lemma silent_times o d : Forall silent (time_chunks o "" d).
Proof.
  constructor; [|constructor; [|constructor]].
  - quiet [Lit "[N = "; Any (show_nat (o_n o)); Lit "] total time: "; Any (show64 6 d); Lit "s"; Lit newline].
  - quiet [Lit "[N = "; Any (show_nat (o_n o)); Lit "] average time per run: "; Any (show64 6 (average64 (Z.of_nat (o_repetitions o)) d));
      Lit "s (repetitions = "; Any (show_nat (o_repetitions o)); Lit ")"; Lit newline].
Qed.
Lemma silent_static k : names_ok k -> Forall silent (static_chunks k).
Proof.
  intros names. unfold static_chunks. constructor; [by apply silent_lit|].
  assert (Hids : Forall (fun id => has_char ":" id = false) (c_ids k)).
  { apply Forall_forall. intros id Hid. apply has_false. exact (names id Hid). }
  assert (Hm : Forall silent (map (fun id => put ["computing on id: "; id; newline]) (c_ids k))).
  { induction Hids as [|id ids Hid _ IH]; [constructor|]. cbn [map]. constructor; [|exact IH]. quiet [Lit "computing on id: "; Any id; Lit newline]. }
  destruct (c_ids k); [constructor|]. constructor; [by apply silent_lit|exact Hm].
Qed.
Lemma silent_report o k Cref diff d verdict : Forall silent (report_chunks_verbose o k Cref diff d verdict).
Proof.
  unfold report_chunks_verbose. set (x := performance64 _ _ _ _ _). constructor.
  - quiet [Lit "[N = "; Any (show_nat (o_n o)); Lit "] performance: "; Any (show64 6 x); Lit "Gflops (average across repetitions)"; Lit newline].
  - destruct verdict as [ok|]; [|constructor]. repeat (apply Forall_app; split).
    + destruct (1 <? o_repetitions o)%nat; constructor; [by apply silent_lit|constructor].
    + set (y := reference64 _ _). constructor; [|constructor; [|constructor]].
      * quiet [Lit "naive matMult took "; Any (show64 6 (c_reference k)); Lit " [s]"; Lit newline].
      * quiet [Lit "[N = "; Any (show_nat (o_n o)); Lit "] performance reference: "; Any (show64 6 y); Lit " Gflops (reference implementation)"; Lit newline].
    + apply silent_level. constructor; [by apply silent_lit|apply silent_matrix].
    + constructor; [|constructor]. destruct ok; by apply silent_lit.
    + apply silent_level. constructor; [by apply silent_lit|apply silent_matrix].
Qed.
Lemma silent_counts br i j l : Forall silent l -> counts (computes br i j) l 0.
Proof. intros H. apply counts_none. eapply Forall_impl; [exact H|]. intros x. apply quiet_no_line. Qed.

(** * The message about the balance *)
Definition other (x : string) : Prop := x <> aborted.
Lemma other_in l : Forall other l -> aborted ∉ l.
Proof. intros H Hin. rewrite Forall_forall in H. by apply (H aborted). Qed.
Lemma other_head c x : c <> "a"%char -> other (String c x).
Proof. intros Hc E. apply Hc. apply (f_equal (String.get 0)) in E. change (Some c = Some "a"%char) in E. congruence. Qed.
Lemma other_flat {A} (f : A -> list string) l : (forall a, Forall other (f a)) -> Forall other (flat_map f l).
Proof. intros H. induction l; [constructor|]. cbn [flat_map]. apply Forall_app. auto. Qed.
Lemma other_imap {A} (f : nat -> A -> list string) l : (forall i a, Forall other (f i a)) -> Forall other (concat (imap f l)).
Proof.
  intros H. revert f H. induction l as [|a l IH]; intros f H; [constructor|]. rewrite imap_cons. cbn [concat]. apply Forall_app. split; [apply H|].
  apply IH. intros i b. apply H.
Qed.
Lemma other_level o v l : Forall other l -> Forall other (at_level o v l).
Proof. intros H. unfold at_level. destruct (v <=? o_verbose o)%nat; [exact H|constructor]. Qed.
Lemma other_matrix o index m : Forall other (matrix_chunks o index m).
Proof.
  apply other_flat. intros i. apply Forall_app. split.
  - apply other_flat. intros j. apply Forall_app. split.
    + destruct (0 <? j)%nat; constructor; [discriminate|constructor].
    + constructor; [|constructor]. intros E. pose proof (show64_has "w" 6 (nth (index i j) m (B754_zero 53 1024 false)) (conj eq_refl eq_refl)) as H.
      rewrite E in H. discriminate.
  - constructor; [discriminate|constructor].
Qed.
Lemma other_schedule all : Forall other (schedule_chunks all).
Proof.
  constructor; [discriminate|]. apply other_imap. intros i ws. constructor; [by apply other_head|].
  apply Forall_app. split; [|constructor; [discriminate|constructor]]. apply other_imap. intros j w. apply Forall_app. split.
  - destruct (0 <? j)%nat; constructor; [discriminate|constructor].
  - constructor; [by apply other_head|constructor].
Qed.
Lemma other_work here x y n : other (chunk_work here x y n).
Proof.
  intros E. assert (has_char ":" (chunk_work here x y n) = true) as H; [|rewrite E in H; discriminate].
  unfold chunk_work. cbn [put fold_right]. rewrite has_app. apply orb_true_iff. right. reflexivity.
Qed.
Lemma other_trace fuel br here x y n : Forall other (trace fuel br here x y n).
Proof.
  revert x y n. induction fuel as [|fuel IH]; intros x y n; cbn [trace]; (constructor; [by apply other_work|]); [constructor|].
  destruct (n <=? br)%nat; [constructor|]. constructor; [by apply other_head|]. cbn [flat_map].
  repeat (apply Forall_app; split); first [apply IH|constructor].
Qed.
Lemma other_static k : Forall other (static_chunks k).
Proof.
  constructor; [discriminate|]. 
  assert (Hm : Forall other (map (fun id => put ["computing on id: "; id; newline]) (c_ids k))).
  { induction (c_ids k) as [|id ids IH]; [constructor|]. cbn [map]. constructor; [by apply other_head|exact IH]. }
  destruct (c_ids k); [constructor|]. constructor; [discriminate|exact Hm].
Qed.
Lemma other_report o k Cref diff d verdict : Forall other (report_chunks_verbose o k Cref diff d verdict).
Proof.
  constructor; [by apply other_head|]. destruct verdict as [ok|]; [|constructor]. repeat (apply Forall_app; split).
  - destruct (1 <? o_repetitions o)%nat; constructor; [discriminate|constructor].
  - by do 2 (constructor; [by apply other_head|]).
  - apply other_level. constructor; [discriminate|apply other_matrix].
  - constructor; [|constructor]. destruct ok; discriminate.
  - apply other_level. constructor; [discriminate|apply other_matrix].
Qed.

Section Output.
  Context (o : options) (k : clocks) (localities : nat) (here : string) (A B C Cref diff : list binary64).
  Context (names : names_ok k) (root : ~ occurs ":" here) (Hv : 1 <= o_verbose o).
  Let chunks := app_chunks_verbose o k localities here A B C Cref diff.
  Let br := o_block_result o.

  Lemma level_one l : at_level o 1 l = l.
  Proof. unfold at_level. by rewrite (proj2 (Nat.leb_le 1 (o_verbose o)) Hv). Qed.
  Lemma counts_around i j n pre lines post : Forall silent pre -> Forall silent post -> counts (computes br i j) lines n ->
    counts (computes br i j) (pre ++ lines ++ post) n.
  Proof.
    intros H1 H2 H. apply (counts_app _ _ _ 0); [by apply silent_counts|]. rewrite <-(Nat.add_0_r n).
    apply counts_app; [exact H|by apply silent_counts].
  Qed.
  Let post verdict : list string :=
    ((time_chunks o "" (c_total k) ++ at_level o 2 (result_chunks o C "")) ++ put ["after HPX"; newline] ::
     report_chunks_verbose o k Cref diff (c_total k) verdict)%list.
  Lemma post_silent verdict : Forall silent (post verdict).
  Proof.
    apply Forall_app. split; [apply Forall_app; split|constructor].
    - apply silent_times.
    - apply silent_level, silent_result.
    - by apply silent_lit.
    - apply silent_report.
  Qed.
  Let start : list string := put ["before HPX"; newline] :: put ["in HPX main"; newline] :: at_level o 2 (input_chunks o A B).
  Lemma start_silent : Forall silent start.
  Proof. constructor; [by apply silent_lit|]. constructor; [by apply silent_lit|]. apply silent_level, silent_input. Qed.

  Lemma post_other verdict : Forall other (post verdict).
  Proof.
    apply Forall_app. split; [apply Forall_app; split|constructor].
    - by do 2 (constructor; [by apply other_head|]).
    - apply other_level. constructor; [by apply other_head|apply other_matrix].
    - discriminate.
    - apply other_report.
  Qed.
  Lemma start_other : Forall other start.
  Proof.
    constructor; [by apply other_head|]. constructor; [by apply other_head|]. apply other_level. constructor; [by apply other_head|].
    apply Forall_app. split; [apply other_matrix|]. constructor; [by apply other_head|apply other_matrix].
  Qed.
  Lemma other_traces all : Forall other (flat_map (fun _ => packages_trace (o_block_result o) (fun i => nth i (c_ids k) here) all) (seq 0 (o_repetitions o))).
  Proof. apply other_flat. intros _. apply other_imap. intros i ws. apply other_flat. intros w. apply other_trace. Qed.

  Lemma single_split verdict : o_algorithm o = "single" ->
    chunks verdict = ((start ++ [put ["using parallel single node algorithm"; newline]]) ++ single_chunks o here ++ post verdict)%list.
  Proof.
    intros Ha. unfold chunks, app_chunks_verbose, hpx_chunks_verbose, start, post. rewrite Ha, level_one. cbn -[put single_chunks input_chunks time_chunks report_chunks_verbose at_level].
    rewrite <-!List.app_assoc. cbn [Datatypes.app]. rewrite <-!List.app_assoc. reflexivity.
  Qed.
  Lemma pseudodynamic_split verdict : o_algorithm o = "pseudodynamic" ->
    chunks verdict = ((start ++ static_chunks k) ++ pseudodynamic_chunks o k localities here ++ post verdict)%list.
  Proof.
    intros Ha. unfold chunks, app_chunks_verbose, hpx_chunks_verbose, start, post. rewrite Ha, !level_one.
    cbn -[put pseudodynamic_chunks static_chunks input_chunks time_chunks report_chunks_verbose at_level].
    rewrite <-!List.app_assoc. reflexivity.
  Qed.

  Lemma single_count verdict i j l : o_algorithm o = "single" -> halves br (o_n o) -> l ≡ₚ chunks verdict ->
    counts (computes br i j) l (if decide (i < o_n o /\ j < o_n o) then o_repetitions o else 0).
  Proof.
    intros Ha Hn Hl. apply (counts_perm _ (chunks verdict)); [by symmetry|]. rewrite (single_split verdict Ha). apply counts_around.
    - apply Forall_app. split; [apply start_silent|]. constructor; [by apply silent_lit|constructor].
    - apply post_silent.
    - pose proof (trace_block br i j here root (o_n o) 0 0 (o_n o) (Nat.le_refl _) Hn) as H.
      pose proof (counts_flat (computes br i j) (fun _ : nat => work_trace br here 0 0 (o_n o)) (seq 0 (o_repetitions o)) _ (fun _ => H)) as Hr.
      rewrite seq_length in Hr. unfold single_chunks. destruct (in_block i j 0 0 (o_n o)) eqn:E.
      + apply in_block_spec in E. destruct (decide _) as [D|D]; [|lia]. by rewrite Nat.mul_1_r in Hr.
      + apply in_block_false in E. destruct (decide _) as [D|D]; [lia|]. by rewrite Nat.mul_0_r in Hr.
  Qed.

  Lemma pseudodynamic_count verdict i j l : o_algorithm o = "pseudodynamic" -> 0 < localities -> 
    (Z.of_nat (o_n o) * Z.of_nat (o_n o) < 2 ^ 62)%Z -> (0 <= o_min_work_size o)%Z -> even_chain (Z.of_nat (o_n o)) (o_min_work_size o) ->
    (forall n, size_of (Z.of_nat (o_n o)) (o_min_work_size o) n -> halves br (Z.to_nat n)) -> l ≡ₚ chunks verdict ->
    counts (computes br i j) l (if decide (i < o_n o /\ j < o_n o) then o_repetitions o else 0).
  Proof.
    intros Ha Hlo HN Hm He Hh Hl. apply (counts_perm _ (chunks verdict)); [by symmetry|]. rewrite (pseudodynamic_split verdict Ha). apply counts_around.
    - apply Forall_app. split; [apply start_silent|by apply silent_static].
    - apply post_silent.
    - unfold pseudodynamic_chunks. set (m := if (1 <? localities)%nat then _ else _). set (N := Z.of_nat (o_n o)) in *.
      set (mws := o_min_work_size o) in *. set (maxd := o_max_work_difference o). set (rel := o_rel o). set (fuel := S (o_n o * o_n o * o_n o)).
      assert (Hm0 : 0 < m) by (unfold m; destruct (Nat.ltb_spec 1 localities); lia).
      destruct (schedule_ok N mws maxd rel ltac:(lia) HN Hm fuel m Hm0) as [s Hs]; [unfold fuel, N; lia|]. rewrite Hs.
      assert (Hc : create_schedule N mws maxd rel fuel m = Ok (all_work s)) by (unfold create_schedule; by rewrite Hs).
      destruct (schedule_inv N mws maxd rel ltac:(lia) HN Hm fuel m _ Hc) as (s' & Hi & _ & _ & Es).
      apply (counts_app _ _ _ 0); [apply silent_counts|].
      { destruct (fulfills_constraints _ _ _) as [[|]|]; try constructor; [by apply silent_lit|constructor]. }
      apply (counts_app _ _ _ 0); [apply silent_counts, silent_schedule|].
      assert (Hp : counts (computes br i j) (packages_trace br (fun i => nth i (c_ids k) here) (all_work s)) (hits (Z.of_nat i) (Z.of_nat j) (concat (all_work s)))).
      { apply packages_count.
        - intros x. destruct (nth_in_or_default x (c_ids k) here) as [Hin| ->]; [|exact root]. apply names. by apply elem_of_list_In.
        - destruct (schedule_disjoint N mws maxd rel ltac:(lia) HN Hm fuel m _ Hc) as [H _]. eapply Forall_impl; [exact H|]. unfold inside. intros w. lia.
        - apply Forall_forall. intros w Hw. apply Hh. rewrite Es in Hw. exact (inv_size N mws s' Hi w Hw). }
      rewrite (schedule_cover N mws maxd rel ltac:(lia) HN Hm fuel m _ He Hc) in Hp.
      pose proof (counts_flat (computes br i j) (fun _ : nat => packages_trace br (fun i => nth i (c_ids k) here) (all_work s)) (seq 0 (o_repetitions o)) _ (fun _ => Hp)) as Hr.
      rewrite seq_length in Hr. destruct (decide (_ <= _ < _ /\ _)%Z) as [D|D].
      + destruct (decide _) as [D'|D']; [|unfold N in D; lia]. by rewrite Nat.mul_1_r in Hr.
      + destruct (decide _) as [D'|D']; [unfold N in D; lia|]. by rewrite Nat.mul_0_r in Hr.
  Qed.

  Lemma single_odd verdict l : o_algorithm o = "single" -> br < o_n o -> Nat.odd (o_n o) = true -> l ≡ₚ chunks verdict ->
    counts (computes br (o_n o - 1) (o_n o - 1)) l 0.
  Proof.
    intros Ha Hb Ho Hl. apply (counts_perm _ (chunks verdict)); [by symmetry|]. rewrite (single_split verdict Ha). apply counts_around.
    - apply Forall_app. split; [apply start_silent|]. constructor; [by apply silent_lit|constructor].
    - apply post_silent.
    - pose proof (trace_odd br (o_n o - 1) (o_n o - 1) here root (o_n o) 0 0 (o_n o) Hb Ho ltac:(lia) ltac:(lia)) as H.
      pose proof (counts_flat (computes br (o_n o - 1) (o_n o - 1)) (fun _ : nat => work_trace br here 0 0 (o_n o)) (seq 0 (o_repetitions o)) _ (fun _ => H)) as Hr.
      by rewrite Nat.mul_0_r in Hr.
  Qed.

  (** The message about the balance *)
  Lemma aborted_iff verdict : o_algorithm o = "pseudodynamic" -> 0 < localities ->
    (Z.of_nat (o_n o) * Z.of_nat (o_n o) < 2 ^ 62)%Z -> (0 <= o_min_work_size o)%Z ->
    exists s,
      create_schedule_state (Z.of_nat (o_n o)) (o_min_work_size o) (o_max_work_difference o) (o_rel o) (S (o_n o * o_n o * o_n o))
        (if (1 <? localities)%nat then localities - 1 else localities) = Ok s /\
      (aborted ∈ chunks verdict <-> ~ balanced (o_max_work_difference o) (o_rel o) (total_work s)) /\
      exists before rest, chunks verdict = (before ++ schedule_chunks (all_work s) ++ rest)%list.
  Proof.
    intros Ha Hlo HN Hm. rewrite (pseudodynamic_split verdict Ha). unfold pseudodynamic_chunks. set (m := if (1 <? localities)%nat then _ else _).
    set (N := Z.of_nat (o_n o)) in *.
    set (mws := o_min_work_size o) in *. set (maxd := o_max_work_difference o). set (rel := o_rel o). set (fuel := S (o_n o * o_n o * o_n o)).
    assert (Hm0 : 0 < m) by (unfold m; destruct (Nat.ltb_spec 1 localities); lia).
    destruct (schedule_ok N mws maxd rel ltac:(lia) HN Hm fuel m Hm0) as [s Hs]; [unfold fuel, N; lia|]. rewrite Hs.
    assert (Hc : create_schedule N mws maxd rel fuel m = Ok (all_work s)) by (unfold create_schedule; by rewrite Hs).
    pose proof (state_reach N mws maxd rel fuel m s Hs) as [Hr _].
    destruct (schedule_accounting N mws maxd rel ltac:(lia) HN Hm m s Hr) as (_ & L2 & _ & Hb & _).
    destruct (constraints_ok N maxd rel HN (total_work s)) as (b & Eb & Hbal); [lia| |].
    { intros t Ht. rewrite Forall_forall in Hb. exact (Hb t Ht). }
    rewrite Eb. exists s. split; [reflexivity|]. split.
    - rewrite <-Hbal. rewrite !elem_of_app. destruct b.
      + split; [|congruence]. intros H. exfalso.
        pose proof (other_in _ start_other). pose proof (other_in _ (other_static k)). pose proof (other_in _ (post_other verdict)).
        pose proof (other_in _ (other_schedule (all_work s))). pose proof (other_in _ (other_traces (all_work s))). 
        destruct H as [[H|H]|[[H|[H|H]]|H]]; try contradiction. by apply elem_of_nil in H.
      + split; [done|]. intros _. right. left. left. apply elem_of_cons. by left.
    - set (before := (start ++ static_chunks k)%list). set (lines := flat_map _ _). clearbody before lines. destruct b.
      + exists before, (lines ++ post verdict)%list. cbn [Datatypes.app]. by rewrite <-List.app_assoc.
      + exists (before ++ [aborted])%list, (lines ++ post verdict)%list. by rewrite <-!List.app_assoc.
  Qed.
End Output.

(** * Matrices *)
Lemma concat_put sep (f : nat -> string) a n : 
  put (flat_map (fun j => ((if (0 <? j)%nat then [sep] else []) ++ [f j])%list) (seq (S a) n)) = fold_right (fun j s => sep ++ f j ++ s) "" (seq (S a) n).
Proof.
  revert a. induction n as [|n IH]; intros a; [reflexivity|]. cbn [seq flat_map fold_right Datatypes.app Nat.ltb Nat.leb]. by rewrite !put_cons, IH.
Qed.
Lemma join_from sep (f : nat -> string) a n :
  String.concat sep (map f (seq a (S n))) = f a ++ fold_right (fun j s => sep ++ f j ++ s) "" (seq (S a) n).
Proof.
  revert a. induction n as [|n IH]; intros a; [cbn; by rewrite append_nil|].
  change (String.concat sep (map f (seq a (S (S n))))) with (f a ++ sep ++ String.concat sep (map f (seq (S a) (S n)))). rewrite IH. reflexivity.
Qed.
Lemma row_text sep (f : nat -> string) n :
  put (flat_map (fun j => ((if (0 <? j)%nat then [sep] else []) ++ [f j])%list) (seq 0 n)) = String.concat sep (map f (seq 0 n)).
Proof.
  destruct n as [|n]; [reflexivity|]. rewrite join_from, <-concat_put. reflexivity.
Qed.
Lemma matrix_put o index m : put (matrix_chunks o index m) = matrix_text (o_n o) (fun i j => nth (index i j) m (B754_zero 53 1024 false)).
Proof.
  assert (H : forall (f : nat -> nat -> string) rows, put (flat_map (fun i => flat_map (fun j => ((if (0 <? j)%nat then [", "] else []) ++ [f i j])%list) (seq 0 (o_n o)) ++ [newline])%list rows) =
    put (map (fun i => String.concat ", " (map (f i) (seq 0 (o_n o))) ++ newline) rows)).
  { intros f rows. induction rows as [|i rows IH]; [reflexivity|]. cbn [flat_map map]. rewrite !put_app, put_cons, IH, (row_text ", " (f i)).
    cbn [put fold_right]. by rewrite append_nil. }
  exact (H (fun i j => show64 6 (nth (index i j) m (B754_zero 53 1024 false))) (seq 0 (o_n o))).
Qed.
Lemma matrix_text_ext n f g : (forall i j, i < n -> j < n -> f i j = g i j) -> matrix_text n f = matrix_text n g.
Proof.
  intros H. unfold matrix_text. f_equal. apply map_ext_in. intros i Hi%in_seq. do 2 f_equal. apply map_ext_in. intros j Hj%in_seq. rewrite H; [done|lia..].
Qed.
Lemma sizes_text (ws : list work) :
  put (concat (imap (fun j w => ((if (0 <? j)%nat then [", "] else []) ++ [put ["["; show_int (Z.to_N (wN w)); "]"]])%list) ws)) =
  String.concat ", " (map (fun w => "[" ++ show_int (Z.to_N (wN w)) ++ "]") ws).
Proof.
  assert (H : forall l (f : nat -> nat), (forall i, 0 < f i) ->
    put (concat (imap (fun j w => ((if (0 <? f j)%nat then [", "] else []) ++ [put ["["; show_int (Z.to_N (wN w)); "]"]])%list) l)) =
    fold_right (fun w s => ", " ++ ("[" ++ show_int (Z.to_N (wN w)) ++ "]") ++ s) "" l).
  { induction l as [|w l IH]; intros f Hf; [reflexivity|]. rewrite imap_cons. cbn [concat fold_right].
    rewrite (proj2 (Nat.ltb_lt 0 (f 0)) (Hf 0)). cbn [Datatypes.app]. rewrite !put_cons. cbn [put fold_right]. rewrite append_nil. do 2 f_equal.
    apply (IH (fun i => f (S i))). intros i. apply Hf. }
  destruct ws as [|w ws]; [reflexivity|]. rewrite imap_cons. cbn [concat Nat.ltb Nat.leb Datatypes.app]. rewrite put_cons.
  etransitivity; [exact (f_equal (fun s => put ["["; show_int (Z.to_N (wN w)); "]"] ++ s) (H ws S ltac:(lia)))|]. clear H. revert w. induction ws as [|v ws IH]; intros w; [cbn; by rewrite !append_nil|].
  cbn [map]. change (String.concat ", " (?a :: ?b :: ?l)) with (a ++ ", " ++ String.concat ", " (b :: l)).
  cbn [fold_right]. specialize (IH v). cbn [map] in IH. rewrite <-IH. cbn [put fold_right]. rewrite !append_nil. reflexivity.
Qed.
Lemma schedule_put all : put (schedule_chunks all) = schedule_text all.
Proof.
  unfold schedule_chunks, schedule_text. rewrite put_cons. cbn [put fold_right]. rewrite append_nil, !append_assoc. do 2 f_equal.
  generalize show_nat as show. intros show. 
  assert (H : forall (show : nat -> string), put (concat (imap (fun i ws => put ["locality: "; show i; " = "] ::
    (concat (imap (fun j w => ((if (0 <? j)%nat then [", "] else []) ++ [put ["["; show_int (Z.to_N (wN w)); "]"]])%list) ws) ++ [newline])%list) all)) =
    put (imap (fun i ws => "locality: " ++ show i ++ " = " ++ String.concat ", " (map (fun w => "[" ++ show_int (Z.to_N (wN w)) ++ "]") ws) ++ newline) all)).
  { clear. induction all as [|ws all IH]; intros show; [reflexivity|]. rewrite !imap_cons. cbn [concat]. rewrite put_app, !put_cons, put_app, sizes_text.
    specialize (IH (fun i => show (S i))). cbn [put fold_right] in IH |- *. unfold compose. rewrite IH, !append_nil, !append_assoc. reflexivity. }
  exact (H show).
Qed.

(** * The matrices of a run *)
Lemma generated o (gen : nat -> binary64) :
  put (matrix_chunks o (by_rows o) (gen <$> seq 0 (o_n o * o_n o))) = matrix_text (o_n o) (fun i j => gen (i * o_n o + j)).
Proof.
  rewrite matrix_put. apply matrix_text_ext. intros i j Hi Hj. unfold by_rows. assert (i * o_n o + j < o_n o * o_n o) as Hk by nia.
  apply nth_lookup_Some. rewrite list_lookup_fmap, lookup_seq_lt by exact Hk. reflexivity.
Qed.
Lemma result_put o gen pre :
  put (result_chunks o (gen <$> seq 0 (o_n o * o_n o)) pre) = pre ++ "matrix C:" ++ newline ++ matrix_text (o_n o) (fun i j => gen (i * o_n o + j)).
Proof. unfold result_chunks. rewrite put_cons, generated. cbn [put fold_right]. rewrite append_nil, !append_assoc. reflexivity. Qed.
Lemma show_one : show64 6 none1 = "1".
Proof. vm_compute. reflexivity. Qed.
Lemma show_zero : show64 6 nzero = "0".
Proof. vm_compute. reflexivity. Qed.
Lemma identity_put o (B : list binary64) index : is_identity (o_n o) B -> index = by_rows o \/ index = by_columns o ->
  put (matrix_chunks o index B) =
    put (map (fun i => String.concat ", " (map (fun j => if (i =? j)%nat then "1" else "0") (seq 0 (o_n o))) ++ newline) (seq 0 (o_n o))).
Proof.
  intros [_ HB] Hi. rewrite matrix_put. unfold matrix_text. f_equal. apply map_ext_in. intros i Hr%in_seq. do 2 f_equal.
  apply map_ext_in. intros j Hc%in_seq.
  assert (forall a b, a < o_n o -> b < o_n o -> nth (a * o_n o + b) B (B754_zero 53 1024 false) = if decide (a = b) then none1 else nzero) as H.
  { intros a b Ha Hb. apply nth_lookup_Some. exact (HB a b Ha Hb). }
  destruct Hi as [->| ->]; [unfold by_rows|unfold by_columns]; rewrite H by lia; destruct (decide _), (Nat.eqb_spec i j); try congruence; first [exact show_one|exact show_zero].
Qed.
Lemma input_put o (gen : nat -> binary64) B : is_identity (o_n o) B ->
  put (input_chunks o (gen <$> seq 0 (o_n o * o_n o)) B) =
    "matrix A:" ++ newline ++ matrix_text (o_n o) (fun i j => gen (i * o_n o + j)) ++
    "matrix B:" ++ newline ++ put (map (fun i => String.concat ", " (map (fun j => if (i =? j)%nat then "1" else "0") (seq 0 (o_n o))) ++ newline) (seq 0 (o_n o))).
Proof.
  intros HB. unfold input_chunks. change (put ["matrix A:"; newline]) with ("matrix A:" ++ newline). change (put ["matrix B:"; newline]) with ("matrix B:" ++ newline).
  rewrite put_cons, put_app, put_cons, generated. rewrite (identity_put o B _ HB) by (destruct (o_transposed o); tauto). rewrite !append_assoc. reflexivity.
Qed.

(** * The padded sizes *)
Lemma padding_lines o k localities here A B C Cref diff v verdict : (o_algorithm o, v) ∈ accepted -> v = Combined \/ v = Proposal \/ v = KernelTiled -> 1 <= o_verbose o ->
  exists X Y K, padded_to (Z.of_nat (o_n o)) 420 (Z.of_nat X) /\ padded_to (Z.of_nat (o_n o)) 256 (Z.of_nat Y) /\ padded_to (Z.of_nat (o_n o)) 256 (Z.of_nat K) /\
    ("matrix padding: x_pad = " ++ show_nat (X - o_n o) ++ ", y_pad = " ++ show_nat (Y - o_n o) ++ ", k_pad = " ++ show_nat (K - o_n o) ++ newline)
      ∈ app_chunks_verbose o k localities here A B C Cref diff verdict /\
    ("matrix dimensions for calculation: X = " ++ show_nat X ++ ", Y = " ++ show_nat Y ++ ", K = " ++ show_nat K ++ newline)
      ∈ app_chunks_verbose o k localities here A B C Cref diff verdict.
Proof.
  intros Hin Hv Hl.
  assert (Hp : forall L, 0 < L -> padded_to (Z.of_nat (o_n o)) (Z.of_nat L) (Z.of_nat (o_n o + padding (o_n o) L))).
  { intros L HL. rewrite (PTiled.round_up_padding (o_n o) L HL). unfold SpecTiled.round_up, padded_to. set (N := o_n o). set (q := cdiv N L).
    assert (N <= q * L < N + L) as Hq.
    { unfold q, cdiv. pose proof (Nat.div_mod (N + (L - 1)) L ltac:(lia)). pose proof (Nat.mod_upper_bound (N + (L - 1)) L ltac:(lia)). nia. }
    split; [lia|]. rewrite Nat2Z.inj_mul. apply Z.divide_factor_r. }
  assert (Hc : forall x, x ∈ padding_chunks o -> x ∈ app_chunks_verbose o k localities here A B C Cref diff verdict).
  { intros x Hx. unfold app_chunks_verbose, hpx_chunks_verbose. rewrite !(level_one o Hl).
    apply elem_of_list_In. apply elem_of_list_In in Hx.
    unfold accepted in Hin. repeat (apply elem_of_cons in Hin as [[= Ha ->]|Hin]; [rewrite Ha; try (exfalso; destruct Hv as [Hv|[Hv|Hv]]; discriminate);
      cbn [String.eqb Ascii.eqb Bool.eqb]; right; apply in_app_iff; (left; right; apply in_app_iff; right; apply in_app_iff; left; exact Hx) || (right; right; apply in_app_iff; left; exact Hx)|]).
    by apply elem_of_nil in Hin. }
  exists (o_n o + padding (o_n o) 420), (o_n o + padding (o_n o) 256), (o_n o + padding (o_n o) 256).
  split; [exact (Hp 420 ltac:(lia))|]. split; [exact (Hp 256 ltac:(lia))|]. split; [exact (Hp 256 ltac:(lia))|].
  rewrite !(Nat.add_comm (o_n o)), !Nat.add_sub. split; apply Hc.
  - apply elem_of_cons. left. unfold put. cbn [fold_right]. rewrite append_nil. reflexivity.
  - apply elem_of_cons. right. apply elem_of_cons. left. unfold put. cbn [fold_right]. rewrite append_nil, !(Nat.add_comm (o_n o)). reflexivity.
Qed.

(** * Where the packages are computed *)
Lemma silent_no_line h x y n line : silent line -> ~ says line h x y n.
Proof.
  intros Hq (sx & sy & sn & _ & _ & _ & E).
  assert (E' : line = (h ++ " work on x") ++ String ":" (String " " (sx ++ ", y: " ++ sy ++ " blockSize: " ++ sn ++ newline))).
  { rewrite E, !append_assoc. reflexivity. }
  exact (Hq _ _ E' h "" eq_refl).
Qed.
Lemma large_silent n : silent (chunk_large n).
Proof. apply silent_text. unfold chunk_large. cbn [put fold_right]. rewrite !has_app, (show_nat_has ":" _ eq_refl). reflexivity. Qed.
Lemma trace_inside fuel br here x y n line h x' y' n' : ~ occurs ":" here -> ~ occurs ":" h -> line ∈ trace fuel br here x y n -> says line h x' y' n' ->
  h = here /\ x <= x' /\ x' + n' <= x + n /\ y <= y' /\ y' + n' <= y + n.
Proof.
  intros Hh Hh'. revert x y n. induction fuel as [|fuel IH]; intros x y n Hin Hs; cbn [trace] in Hin; apply elem_of_cons in Hin as [->|Hin].
  1, 3: destruct (says_inj _ _ _ _ _ _ _ _ _ Hh Hh' (work_says here x y n) Hs) as (-> & -> & -> & ->); repeat split; lia.
  - by apply elem_of_nil in Hin.
  - destruct (n <=? br)%nat; [by apply elem_of_nil in Hin|]. apply elem_of_cons in Hin as [->|Hin]; [destruct (silent_no_line _ _ _ _ _ (large_silent n) Hs)|].
    pose proof (Nat.div_mod n 2 ltac:(lia)) as Hn. cbn zeta in Hin. cbn [flat_map fst snd] in Hin. set (m := n / 2) in *.
    assert (2 * m <= n) by lia. clearbody m. clear Hn. rewrite !elem_of_app in Hin.
    destruct Hin as [Hin|[Hin|[Hin|[Hin|Hin]]]]; [..|by apply elem_of_nil in Hin]; destruct (IH _ _ _ Hin Hs) as (-> & ?); repeat split; lia.
Qed.
Lemma trace_first br here x y n : chunk_work here x y n ∈ work_trace br here x y n.
Proof. unfold work_trace. destruct n; cbn [trace]; by left. Qed.
Lemma packages_in br (name : nat -> string) all line : line ∈ packages_trace br name all <->
  exists i ws w, all !! i = Some ws /\ w ∈ ws /\ line ∈ work_trace br (name i) (Z.to_nat (wx w)) (Z.to_nat (wy w)) (Z.to_nat (wN w)).
Proof.
  unfold packages_trace. rewrite elem_of_list_In, in_concat. split.
  - intros (l & Hl & Hin). apply elem_of_list_In, elem_of_lookup_imap in Hl as (i & ws & -> & Hi). apply in_flat_map in Hin as (w & Hw & Hin).
    exists i, ws, w. split; [exact Hi|]. split; by apply elem_of_list_In.
  - intros (i & ws & w & Hi & Hw & Hin). eexists. split; [apply elem_of_list_In, elem_of_lookup_imap; exists i, ws; split; [reflexivity|exact Hi]|].
    apply in_flat_map. exists w. split; by apply elem_of_list_In.
Qed.
Lemma package_lines o k localities here A B C Cref diff verdict : o_algorithm o = "pseudodynamic" -> 1 <= o_verbose o ->
  names_ok k -> ~ occurs ":" here -> 0 < localities -> (Z.of_nat (o_n o) * Z.of_nat (o_n o) < 2 ^ 62)%Z -> (0 <= o_min_work_size o)%Z ->
  let chunks := app_chunks_verbose o k localities here A B C Cref diff verdict in
  exists all,
    create_schedule (Z.of_nat (o_n o)) (o_min_work_size o) (o_max_work_difference o) (o_rel o) (S (o_n o * o_n o * o_n o))
      (if (1 <? localities)%nat then localities - 1 else localities) = Ok all /\
    (forall line h x y n, line ∈ chunks -> ~ occurs ":" h -> says line h x y n -> exists i ws w, all !! i = Some ws /\ w ∈ ws /\ h = nth i (c_ids k) here /\
      (wx w <= Z.of_nat x /\ Z.of_nat x + Z.of_nat n <= wx w + wN w /\ wy w <= Z.of_nat y /\ Z.of_nat y + Z.of_nat n <= wy w + wN w)%Z) /\
    (0 < o_repetitions o -> forall i ws w, all !! i = Some ws -> w ∈ ws ->
      exists line, line ∈ chunks /\ says line (nth i (c_ids k) here) (Z.to_nat (wx w)) (Z.to_nat (wy w)) (Z.to_nat (wN w))).
Proof.
  intros Ha Hv Hk Hh Hlo HN Hm chunks. unfold chunks. rewrite (pseudodynamic_split o k localities here A B C Cref diff Hv verdict Ha). unfold pseudodynamic_chunks.
  set (m := if (1 <? localities)%nat then _ else _). set (N := Z.of_nat (o_n o)) in *.
  set (mws := o_min_work_size o) in *. set (maxd := o_max_work_difference o). set (rel := o_rel o). set (fuel := S (o_n o * o_n o * o_n o)).
  assert (Hm0 : 0 < m) by (unfold m; destruct (Nat.ltb_spec 1 localities); lia).
  destruct (schedule_ok N mws maxd rel ltac:(lia) HN Hm fuel m Hm0) as [s Hs]; [unfold fuel, N; lia|]. rewrite Hs.
  assert (Hc : create_schedule N mws maxd rel fuel m = Ok (all_work s)) by (unfold create_schedule; by rewrite Hs).
  destruct (schedule_disjoint N mws maxd rel ltac:(lia) HN Hm fuel m _ Hc) as [Hi _].
  exists (all_work s). split; [exact Hc|]. split.
  - intros line h x y n Hin Hno Hsay. rewrite !elem_of_app in Hin.
    assert (Hq : forall l, Forall silent l -> line ∉ l). { intros l Hl Hx. rewrite Forall_forall in Hl. exact (silent_no_line _ _ _ _ _ (Hl line Hx) Hsay). }
    destruct Hin as [[Hin|Hin]|[[Hin|[Hin|Hin]]|Hin]].
    + destruct (Hq _ (start_silent o A B) Hin).
    + destruct (Hq _ (silent_static k Hk) Hin).
    + exfalso. refine (Hq _ _ Hin). destruct (fulfills_constraints _ _ _) as [[|]|]; try constructor; [by apply silent_lit|constructor].
    + destruct (Hq _ (silent_schedule _) Hin).
    + apply elem_of_list_In, in_flat_map in Hin as (r & _ & Hin). apply elem_of_list_In, packages_in in Hin as (i & ws & w & Hl & Hw & Hin).
      assert (Hname : ~ occurs ":" (nth i (c_ids k) here)).
      { destruct (nth_in_or_default i (c_ids k) here) as [Hx| ->]; [|exact Hh]. apply Hk. by apply elem_of_list_In. }
      destruct (trace_inside _ _ _ _ _ _ _ _ _ _ _ Hname Hno Hin Hsay) as (-> & Hb).
      exists i, ws, w. split; [exact Hl|]. split; [exact Hw|]. split; [reflexivity|].
      rewrite Forall_forall in Hi. assert (Hw' : inside N w). { apply Hi, elem_of_list_In, in_concat. exists ws. split; [|by apply elem_of_list_In]. apply elem_of_list_In, elem_of_list_lookup. by exists i. }
      unfold inside in Hw'. lia.
    + rewrite <-!elem_of_app in Hin. destruct (Hq _ (post_silent o k C Cref diff verdict) Hin).
  - intros Hr i ws w Hl Hw. eexists. split; [|apply work_says]. rewrite !elem_of_app. right. left. right. right.
    apply elem_of_list_In, in_flat_map. exists 0. split; [apply in_seq; lia|]. apply elem_of_list_In, packages_in. exists i, ws, w. split; [exact Hl|]. split; [exact Hw|]. apply trace_first.
Qed.
