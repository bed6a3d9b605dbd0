(** What evaluate.py finds in the output of a verbose run. *)
From Coq Require Import ZArith Reals Ascii String Psatz.
From Flocq Require Import Core IEEE754.Binary IEEE754.Bits.
From Verif Require Import Base MDouble MPrint SpecPrint PPrint PPrint2 MReport MSchedule MTranscript PTranscript PTranscript2 PTranscript3 PTranscript5
  MVerbose MApp SpecApp SpecReport SpecTranscript.
Local Open Scope string_scope.

(** [l'] is [l] with further pieces in which nothing is found. *)
Inductive adds : list string -> list string -> Prop :=
| adds_nil : adds [] []
| adds_cons x l l' : adds l l' -> adds (x :: l) (x :: l')
| adds_extra x l l' : quiet_all x -> adds l l' -> adds l (x :: l').
Lemma adds_refl l : adds l l.
Proof. induction l; constructor; done. Qed.
Lemma adds_app l1 l1' l2 l2' : adds l1 l1' -> adds l2 l2' -> adds (l1 ++ l2) (l1' ++ l2').
Proof. intros H1 H2. induction H1; cbn [Datatypes.app]; [exact H2|by constructor|by constructor]. Qed.
Lemma adds_more e l l' : Forall quiet_all e -> adds l l' -> adds l (e ++ l').
Proof. intros He H. induction He; cbn [Datatypes.app]; [exact H|by constructor]. Qed.
Lemma adds_level o v e l l' : Forall quiet_all e -> adds l l' -> adds l (at_level o v e ++ l').
Proof. intros He H. unfold at_level. destruct (v <=? o_verbose o)%nat; [by apply adds_more|exact H]. Qed.
Lemma adds_in l l' x : adds l l' -> x ∈ l -> x ∈ l'.
Proof.
  intros H. induction H; intros Hx; [done| |].
  - apply elem_of_cons in Hx as [->|Hx]; apply elem_of_cons; [by left|right; auto].
  - apply elem_of_cons. right. auto.
Qed.
Lemma adds_pieces o k v l l' : adds l l' -> Forall (piece o k v) l -> Forall (piece o k v) l'.
Proof.
  intros H. induction H as [|x l l' _ IH|x l l' Hx _ IH]; intros Hl; [done| |].
  - inversion Hl; subst. constructor; auto.
  - constructor; [by constructor|auto].
Qed.

Lemma quiet_text x : has_char ":" x = false -> quiet_all x.
Proof.
  intros H. assert (forall p, quiet p x); [|by repeat split].
  intros p u w E. exfalso. apply has_false in H. apply H. by exists u, w.
Qed.

Ltac colons := repeat first [apply Forall_nil; exact I | apply Forall_cons; split | exact I
    | exact (show_nat_has ":" _ eq_refl) | exact (show64_has ":" _ _ (conj eq_refl eq_refl)) | assumption | reflexivity].
Ltac quiet ps := refine (quiet_parts _ ps _ _); [reflexivity|colons].

Lemma q_work here x y n : has_char ":" here = false -> quiet_all (chunk_work here x y n).
Proof.
  intros Hh. apply key_all. intros p [->|[->| ->]];
  quiet [Any here; Lit " work on x: "; Any (show_nat x); Lit ", y: "; Any (show_nat y); Lit " blockSize: "; Any (show_nat n); Lit newline].
Qed.
Lemma q_large n : quiet_all (chunk_large n).
Proof. apply quiet_text. unfold chunk_large. cbn [put fold_right]. rewrite !has_app, (show_nat_has ":" _ eq_refl). reflexivity. Qed.
Lemma q_trace fuel br here x y n : has_char ":" here = false -> Forall quiet_all (trace fuel br here x y n).
Proof.
  intros Hh. revert x y n. induction fuel as [|fuel IH]; intros x y n; cbn [trace]; (constructor; [by apply q_work|]); [constructor|].
  destruct (n <=? br)%nat; [constructor|]. constructor; [apply q_large|]. cbn [flat_map].
  repeat (apply Forall_app; split); first [apply IH|constructor].
Qed.
Lemma q_flat {A} (f : A -> list string) l : (forall a, Forall quiet_all (f a)) -> Forall quiet_all (flat_map f l).
Proof. intros H. induction l; [constructor|]. cbn [flat_map]. apply Forall_app. auto. Qed.
Lemma q_imap {A} (f : nat -> A -> list string) l : (forall i a, Forall quiet_all (f i a)) -> Forall quiet_all (concat (imap f l)).
Proof.
  intros H. revert f H. induction l as [|a l IH]; intros f H; [constructor|]. rewrite imap_cons. cbn [concat]. apply Forall_app. split; [apply H|].
  apply IH. intros i b. apply H.
Qed.
Lemma q_matrix o index m : Forall quiet_all (matrix_chunks o index m).
Proof.
  apply q_flat. intros i. apply Forall_app. split.
  - apply q_flat. intros j. apply Forall_app. split.
    + destruct (0 <? j)%nat; constructor; [by apply quiet_text|constructor].
    + constructor; [|constructor]. apply quiet_text. exact (show64_has ":" _ _ (conj eq_refl eq_refl)).
  - constructor; [by apply quiet_text|constructor].
Qed.
Lemma show_int_has z : has_char ":" (show_int z) = false.
Proof. pose proof (show_nat_has ":" (N.to_nat z) eq_refl) as H. unfold show_nat in H. by rewrite N2Nat.id in H. Qed.
Lemma q_schedule all : Forall quiet_all (schedule_chunks all).
Proof.
  constructor; [apply lit_all; reflexivity|]. apply q_imap. intros i ws. constructor.
  - apply key_all. intros p [->|[->| ->]]; quiet [Lit "locality: "; Any (show_nat i); Lit " = "].
  - apply Forall_app. split; [|constructor; [by apply quiet_text|constructor]]. apply q_imap. intros j w. apply Forall_app. split.
    + destruct (0 <? j)%nat; constructor; [by apply quiet_text|constructor].
    + constructor; [|constructor]. apply quiet_text. cbn [put fold_right]. rewrite !has_app, show_int_has. reflexivity.
Qed.
Lemma q_packages br name all : (forall i, has_char ":" (name i) = false) -> Forall quiet_all (packages_trace br name all).
Proof. intros Hn. apply q_imap. intros i ws. apply q_flat. intros w. apply q_trace. exact (Hn i). Qed.
Lemma q_padding o : Forall quiet_all (padding_chunks o).
Proof.
  unfold padding_chunks. set (x := padding (o_n o) (L3_X shipped)). set (y := padding (o_n o) (L3_Y shipped)). set (z := padding (o_n o) (L3_K shipped)).
  constructor; [|constructor; [|constructor]]; apply key_all; intros p [->|[->| ->]].
  1-3: quiet [Lit "matrix padding: x_pad = "; Any (show_nat x); Lit ", y_pad = "; Any (show_nat y); Lit ", k_pad = "; Any (show_nat z); Lit newline].
  all: quiet [Lit "matrix dimensions for calculation: X = "; Any (show_nat (o_n o + x)); Lit ", Y = "; Any (show_nat (o_n o + y)); Lit ", K = ";
    Any (show_nat (o_n o + z)); Lit newline].
Qed.
Lemma q_unsupported a : a = "looped" \/ a = "semi" -> Forall quiet_all (unsupported_chunks a).
Proof.
  intros Ha. constructor; [|constructor]. apply key_all. intros p [->|[->| ->]]; destruct Ha as [->| ->];
    quiet [Lit "warning: algorithm """; Any "semi"; Lit """ doesn't support the ""verbose"" parameter"] ||
    quiet [Lit "warning: algorithm """; Any "looped"; Lit """ doesn't support the ""verbose"" parameter"].
Qed.
Lemma q_result o C pre : pre = "" \/ pre = "non-HPX " -> Forall quiet_all (result_chunks o C pre).
Proof. intros [->| ->]; (constructor; [apply lit_all; reflexivity|apply q_matrix]). Qed.
Lemma q_input o A B : Forall quiet_all (input_chunks o A B).
Proof.
  constructor; [apply lit_all; reflexivity|]. apply Forall_app. split; [apply q_matrix|].
  constructor; [apply lit_all; reflexivity|apply q_matrix].
Qed.

Section Verbose.
  Context (o : options) (k : clocks) (localities : nat) (here : string) (A B C Cref diff : list binary64).
  Context (names : names_ok k) (root : ~ occurs ":" here).
  Let chunks := app_chunks_verbose o k localities here A B C Cref diff.

  Lemma here_has : has_char ":" here = false.
  Proof. by apply has_false. Qed.
  Lemma q_single : Forall quiet_all (single_chunks o here).
  Proof. apply q_flat. intros _. apply q_trace, here_has. Qed.
  Lemma q_pseudodynamic : Forall quiet_all (pseudodynamic_chunks o k localities here).
  Proof.
    unfold pseudodynamic_chunks. destruct (create_schedule_state _ _ _ _ _ _) as [s|]; [|constructor].
    apply Forall_app. split; [|apply Forall_app; split; [apply q_schedule|]].
    - destruct (fulfills_constraints _ _ _) as [[|]|]; try constructor; [|constructor]. apply lit_all; reflexivity.
    - apply q_flat. intros _. apply q_packages. intros i. apply has_false.
      destruct (nth_in_or_default i (c_ids k) here) as [Hin| ->]; [|exact root]. apply names. by apply elem_of_list_In.
  Qed.
  Lemma hpx_adds : adds (hpx_chunks o k) (hpx_chunks_verbose o k localities here A B C).
  Proof.
    unfold hpx_chunks, hpx_chunks_verbose. constructor. apply adds_level; [apply q_input|].
    set (times := time_chunks o "" (c_total k)).
    assert (Ht : adds times (times ++ at_level o 2 (result_chunks o C ""))).
    { rewrite <-(List.app_nil_r times) at 1. apply adds_app; [apply adds_refl|]. rewrite <-(List.app_nil_r (at_level _ _ _)).
      apply adds_level; [apply q_result; by left|constructor]. }
    repeat destruct (_ =? _).
    - constructor. apply adds_level; [apply q_single|exact Ht].
    - apply adds_app; [apply adds_refl|]. apply adds_level; [apply q_pseudodynamic|exact Ht].
    - apply adds_level; [apply q_unsupported; by left|]. apply adds_app; [apply adds_refl|exact Ht].
    - apply adds_level; [apply q_unsupported; by left|]. apply adds_app; [apply adds_refl|exact Ht].
    - apply adds_level; [apply q_unsupported; by right|]. apply adds_app; [apply adds_refl|exact Ht].
    - apply adds_level; [apply q_padding|]. apply adds_app; [apply adds_refl|exact Ht].
    - apply adds_level; [apply q_padding|exact Ht].
    - constructor.
  Qed.
  Lemma report_adds d verdict : adds (report_chunks o k d verdict) (report_chunks_verbose o k Cref diff d verdict).
  Proof.
    unfold report_chunks, report_chunks_verbose. constructor. destruct verdict as [ok|]; [|constructor].
    apply adds_app; [apply adds_refl|]. cbn [Datatypes.app]. do 2 constructor.
    apply adds_level; [constructor; [apply lit_all; reflexivity|apply q_matrix]|]. constructor.
    rewrite <-(List.app_nil_r (at_level _ _ _)).
    apply adds_level; [constructor; [apply lit_all; reflexivity|apply q_matrix]|]. constructor.
  Qed.
  Lemma verbose_adds verdict : adds (app_chunks o k verdict) (chunks verdict).
  Proof.
    unfold chunks, app_chunks, app_chunks_verbose. constructor. apply adds_app; [apply hpx_adds|]. constructor.
    destruct (o_algorithm o =? "kernel_test"); [|destruct (o_algorithm o =? "kernel_tiled"); [|destruct (known_algorithm _)]].
    - apply adds_app; [apply adds_refl|]. apply adds_level; [apply q_result; by right|apply report_adds].
    - apply adds_level; [apply q_padding|]. apply adds_app; [apply adds_refl|]. apply adds_app; [apply adds_refl|].
      apply adds_level; [apply q_result; by right|apply report_adds].
    - apply report_adds.
    - apply adds_refl.
  Qed.

  Lemma verbose_pieces v verdict l : (o_algorithm o, v) ∈ accepted -> l ≡ₚ chunks verdict -> Forall (piece o k v) l.
  Proof. intros Hv ->. exact (adds_pieces o k v _ _ (verbose_adds verdict) (all_pieces o k verdict names v Hv)). Qed.
  Lemma verbose_times v verdict l : (o_algorithm o, v) ∈ accepted -> l ≡ₚ chunks verdict ->
    total_time (put l) = Some (show64 6 (reported_time v k)) /\
    average_time (put l) = Some (show64 6 (average64 (Z.of_nat (o_repetitions o)) (reported_time v k))).
  Proof.
    intros Hv Hl. pose proof (verbose_pieces v verdict l Hv Hl) as Hp. destruct (in_total o k verdict v Hv) as (H1 & H2 & _). split.
    - apply (total_in o k v l Hp). rewrite Hl. exact (adds_in _ _ _ (verbose_adds verdict) H1).
    - apply (average_in o k v l Hp). rewrite Hl. exact (adds_in _ _ _ (verbose_adds verdict) H2).
  Qed.
  Lemma verbose_performance v verdict l : (o_algorithm o, v) ∈ accepted -> ~ reports_inner v -> l ≡ₚ chunks verdict ->
    performance (put l) = Some (show64 6 (perf o k v)).
  Proof.
    intros Hv Hi Hl. apply (performance_in o k v l Hi (verbose_pieces v verdict l Hv Hl)). rewrite Hl.
    exact (adds_in _ _ _ (verbose_adds verdict) (proj2 (proj2 (in_total o k verdict v Hv)))).
  Qed.
  (** The same as without --verbose *)
  Lemma verbose_same v verdict l l' : (o_algorithm o, v) ∈ accepted -> ~ reports_inner v -> l ≡ₚ chunks verdict -> l' ≡ₚ app_chunks o k verdict ->
    performance (put l) = performance (put l').
  Proof. intros Hv Hi Hl Hl'. by rewrite (verbose_performance v verdict l Hv Hi Hl), (find_performance o k verdict names v l' Hv Hi Hl'). Qed.
  Lemma adds_first x l l' : adds l l' -> forall l1 l2, l = (l1 ++ x :: l2)%list -> Forall (PTranscript.quiet "performance") l1 ->
    exists l1' l2', l' = (l1' ++ x :: l2')%list /\ Forall (PTranscript.quiet "performance") l1'.
  Proof.
    intros H. induction H as [|y l l' H IH|y l l' Hy H IH]; intros l1 l2 E H1.
    - by destruct l1.
    - destruct l1 as [|z l1]; cbn [Datatypes.app] in E.
      + assert (y = x) as -> by congruence. by exists [], l'.
      + assert (y = z) as -> by congruence. assert (l = (l1 ++ x :: l2)%list) as E' by congruence. inversion H1; subst.
        destruct (IH l1 l2 eq_refl) as (a & b & -> & Ha); [done|]. exists (z :: a), b. by split; [|constructor].
    - destruct (IH l1 l2 E H1) as (a & b & -> & Ha). exists (y :: a), b. split; [done|]. constructor; [apply Hy|done].
  Qed.
  Lemma verbose_inner v verdict : (o_algorithm o, v) ∈ accepted -> reports_inner v ->
    performance (put (chunks verdict)) = Some (show64 6 (inner_perf o k)).
  Proof.
    intros Hv Hi.
    assert (exists l1 l2, app_chunks o k verdict = (l1 ++ the_inner o k :: l2)%list /\ Forall (PTranscript.quiet "performance") l1) as (l1 & l2 & E & H1).
    { assert (Hd : PTranscript.quiet "performance" (chunk_duration k)) by (apply q_duration; unfold key; tauto).
      rewrite (chunks_eq o k verdict v Hv). destruct Hi as [->| ->].
      - exists [put ["before HPX"; newline]; put ["in HPX main"; newline]; chunk_duration k]. eexists. split; [reflexivity|].
        constructor; [by apply q_lit|]. constructor; [by apply q_lit|]. constructor; [exact Hd|constructor].
      - exists [put ["before HPX"; newline]; put ["in HPX main"; newline]; put ["after HPX"; newline]; chunk_duration k]. eexists. split; [reflexivity|].
        constructor; [by apply q_lit|]. constructor; [by apply q_lit|]. constructor; [by apply q_lit|]. constructor; [exact Hd|constructor]. }
    destruct (adds_first _ _ _ (verbose_adds verdict) l1 l2 E H1) as (a & b & -> & Ha). exact (inner_first o k a b Ha).
  Qed.
End Verbose.
(** Without --verbose nothing is added. *)
Lemma verbose_zero o k localities here A B C Cref diff verdict : o_verbose o = 0 ->
  app_chunks_verbose o k localities here A B C Cref diff verdict = app_chunks o k verdict.
Proof.
  intros Hv. unfold app_chunks_verbose, app_chunks, hpx_chunks_verbose, hpx_chunks, report_chunks_verbose, report_chunks, at_level. rewrite Hv.
  cbn [Nat.leb Datatypes.app]. rewrite !List.app_nil_r. reflexivity.
Qed.
