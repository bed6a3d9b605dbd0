(** The options that a command line selects. *)
From Coq Require Import ZArith NArith Ascii String Lia.
From stdpp Require Import list.
From Flocq Require Import IEEE754.Binary IEEE754.Bits.
From Verif Require Import MBalance MApp MTranscript MCmdline SpecPrint SpecCmdline PCmdline PCmdline2.
Local Open Scope string_scope.

(** The types of the values of an option *)
Definition typed (t : vtype) (v : value) : Prop :=
  match t, v with
  | TUnsigned, VUnsigned _ | TBool, VBool _ | TString, VString _ | TDouble, VDouble _ => True
  | TFlag, VString s => s = ""
  | _, _ => False
  end.
Lemma means_typed strtod t s v : means strtod t s v -> typed t v.
Proof. by destruct 1. Qed.
Lemma table_unique r r' : r ∈ table -> r' ∈ table -> r_name r = r_name r' -> r = r'.
Proof.
  intros H H'. unfold table in *.
  repeat (apply elem_of_cons in H as [->|H]; [repeat (apply elem_of_cons in H' as [->|H']; [done|]); by apply elem_of_nil in H'|]).
  by apply elem_of_nil in H.
Qed.

Section Values.
  Context (strtod : string -> option binary64) (accepts : string -> bool).
  Local Notation parse := (parse strtod accepts).
  Local Notation sets := (sets strtod accepts).

  Lemma sets_typed l args : sets l args -> forall r v, r ∈ table -> (r_name r, v) ∈ l -> typed (r_type r) v.
  Proof.
    induction 1 as [|ws Hws|w l args Hf Ha Hs IH|p r text v l args Hr Hp Ht Hv Hs IH|p r text v l args Hr Hp Hv Hb Hs IH|p r l args Hr Hfl Hp Hs IH];
      intros r0 v0 Hr0; try (by intros H%elem_of_nil); try (by apply IH).
    all: intros [E|H]%elem_of_cons; [|by apply IH]; injection E as E1 E2; subst v0; rewrite (table_unique r0 r Hr0 Hr E1).
    - by eapply means_typed.
    - by eapply means_typed.
    - by rewrite Hfl.
  Qed.

  Lemma find_row r : r ∈ table -> find (fun x => r_name x =? r_name r) table = Some r.
  Proof.
    intros H. destruct (find _ table) as [r'|] eqn:E.
    - apply find_some in E as [H' E%String.eqb_eq]. f_equal. apply table_unique; [by apply elem_of_list_In|done|done].
    - exfalso. apply elem_of_list_In in H. apply (find_none _ _ E r) in H. rewrite String.eqb_refl in H. done.
  Qed.
  Lemma lookup_chosen l r d : NoDup l.*1 -> r ∈ table -> r_default r = Some d ->
    exists v, lookup_value (reverse l) (r_name r) = Some v /\ chosen l (r_name r) d v.
  Proof.
    intros Hl Hr Hd. unfold lookup_value. destruct (find _ (reverse l)) as [[name v]|] eqn:E.
    - apply find_some in E as [H E%String.eqb_eq]. cbn in E. subst name. exists v. split; [done|]. left.
      apply elem_of_list_In in H. by rewrite elem_of_reverse in H.
    - rewrite find_row by done. exists d. split; [done|]. right. split; [|done]. intros [v Hv].
      assert (H : In (r_name r, v) (reverse l)) by (apply elem_of_list_In; by rewrite elem_of_reverse).
      apply (find_none _ _ E) in H. cbn in H. by rewrite String.eqb_refl in H.
  Qed.
  Lemma lookup_typed l args r d : sets l args -> NoDup l.*1 -> r ∈ table -> r_default r = Some d -> typed (r_type r) d ->
    exists v, lookup_value (reverse l) (r_name r) = Some v /\ chosen l (r_name r) d v /\ typed (r_type r) v.
  Proof.
    intros Hs Hl Hr Hd Ht. destruct (lookup_chosen l r d Hl Hr Hd) as (v&H1&H2). exists v. split_and!; [done|done|].
    destruct H2 as [H2|[_ ->]]; [|done]. by eapply sets_typed.
  Qed.

  Lemma extract_selects l args : sets l args -> NoDup l.*1 -> exists o, extract (reverse l) = Some o /\ selects l o.
  Proof.
    intros Hs Hl.
    assert (HN : forall name d, Row name TUnsigned (Some (VUnsigned d)) ∈ table ->
      exists n, as_unsigned (reverse l) name = Some n /\ chosen l name (VUnsigned d) (VUnsigned n)).
    { intros name d Hr. destruct (lookup_typed l args _ (VUnsigned d) Hs Hl Hr eq_refl I) as (v&H1&H2&H3). cbn [r_name r_type] in *.
      destruct v as [n| | |]; try done. exists n. unfold as_unsigned. by rewrite H1. }
    assert (HB : forall name d, Row name TBool (Some (VBool d)) ∈ table ->
      exists n, as_bool (reverse l) name = Some n /\ chosen l name (VBool d) (VBool n)).
    { intros name d Hr. destruct (lookup_typed l args _ (VBool d) Hs Hl Hr eq_refl I) as (v&H1&H2&H3). cbn [r_name r_type] in *.
      destruct v as [|n| |]; try done. exists n. unfold as_bool. by rewrite H1. }
    assert (HS : forall name d, Row name TString (Some (VString d)) ∈ table ->
      exists n, as_string (reverse l) name = Some n /\ chosen l name (VString d) (VString n)).
    { intros name d Hr. destruct (lookup_typed l args _ (VString d) Hs Hl Hr eq_refl I) as (v&H1&H2&H3). cbn [r_name r_type] in *.
      destruct v as [| |n|]; try done. exists n. unfold as_string. by rewrite H1. }
    assert (HD : forall name d, Row name TDouble (Some (VDouble d)) ∈ table ->
      exists n, as_double (reverse l) name = Some n /\ chosen l name (VDouble d) (VDouble n)).
    { intros name d Hr. destruct (lookup_typed l args _ (VDouble d) Hs Hl Hr eq_refl I) as (v&H1&H2&H3). cbn [r_name r_type] in *.
      destruct v as [| | |n]; try done. exists n. unfold as_double. by rewrite H1. }
    assert (Ht : forall k r, nth_error table k = Some r -> r ∈ table) by (intros k r H; apply elem_of_list_In; by eapply nth_error_In).
    destruct (HN "n-value" 4%N (Ht 0 _ eq_refl)) as (x0&E0&C0).
    destruct (HB "transposed" true (Ht 1 _ eq_refl)) as (x1&E1&C1).
    destruct (HN "repetitions" 1%N (Ht 2 _ eq_refl)) as (x2&E2&C2).
    destruct (HN "verbose" 0%N (Ht 3 _ eq_refl)) as (x3&E3&C3).
    destruct (HN "block-result" 128%N (Ht 4 _ eq_refl)) as (x4&E4&C4).
    destruct (HN "block-input" 128%N (Ht 5 _ eq_refl)) as (x5&E5&C5).
    destruct (HB "check" false (Ht 6 _ eq_refl)) as (x6&E6&C6).
    destruct (HS "algorithm" "single" (Ht 7 _ eq_refl)) as (x7&E7&C7).
    destruct (HN "min-work-size" 256%N (Ht 8 _ eq_refl)) as (x8&E8&C8).
    destruct (HN "max-work-difference" 10000%N (Ht 9 _ eq_refl)) as (x9&E9&C9).
    destruct (HD "max-relative-work-difference" five_percent (Ht 10 _ eq_refl)) as (x10&E10&C10).
    unfold extract. rewrite E0, E1, E2, E3, E4, E5, E6, E7, E8, E9, E10. eexists. split; [reflexivity|].
    unfold selects. cbn [o_n o_transposed o_repetitions o_verbose o_block_result o_block_input o_check o_algorithm o_min_work_size o_max_work_difference o_rel o_help].
    rewrite !N2Nat.id, !N2Z.id. split_and!; try done; try apply N2Z.is_nonneg.
    - by exists x10.
    - rewrite given_spec, elem_of_list_fmap. split.
      + intros ([n v]&E&H). rewrite elem_of_reverse in H. cbn in E. subst n. by exists v.
      + intros [v H]. exists ("help", v). split; [done|]. by rewrite elem_of_reverse.
  Qed.

  (** A command line that is neither accepted nor outside the model is rejected. *)
  Lemma store_modelled r v m : store r v m <> Unmodelled.
  Proof. unfold store. destruct (given m (r_name r)); [done|]. by destruct v. Qed.
  Lemma unmodelled_dash n : forall m args, (length args <= n)%nat -> parse m args = Unmodelled -> dash_value args.
  Proof.
    induction n as [|n IH]; intros m args Hn; (destruct args as [|a rest]; [done|]); cbn [length] in Hn; [lia|]. cbn [MCmdline.parse].
    assert (Hup : forall b, dash_value b -> forall a, dash_value (a ++ b)%list).
    { intros b (before&p&r&text&r2&->&H) b2. exists (b2 ++ before)%list, p, r, text, r2. split; [by rewrite <- app_assoc|done]. }
    destruct (a =? "--"); [by destruct (forallb accepts rest)|].
    assert (Hgo : forall m', parse m' rest = Unmodelled -> dash_value (a :: rest)) by (intros m' E; apply (Hup rest) with (a := [a]); apply (IH m'); [lia|done]).
    destruct (behind "--" a) as [w|] eqn:Eb; [|destruct (accepts a); [apply Hgo|done]].
    destruct (split_name w) as [name text] eqn:Es. destruct (find_option name) as [r| |] eqn:Ef; [|destruct (accepts a); [apply Hgo|done]|done].
    apply find_option_found in Ef as [Hr Hp].
    assert (Hst : forall v, match store r v m with Parsed m => parse m rest | e => e end = Unmodelled -> dash_value (a :: rest)).
    { intros v. destruct (store r v m) eqn:E; [apply Hgo|done|by apply store_modelled in E]. }
    apply behind_spec in Eb. apply split_inv in Es as [Hn1 Hn2].
    assert (Hnx : text = None -> r_type r <> TFlag -> forall v s rest', rest = s :: rest' ->
      (if String.prefix "-" s then Unmodelled else match store r v m with Parsed m => parse m rest' | e => e end) = Unmodelled -> dash_value (a :: rest)).
    { intros -> Hfl v s rest' ->. destruct (String.prefix "-" s) eqn:Epre.
      - intros _. subst w a. rewrite app_nil. exists [], name, r, s, rest'. split_and!; try done. by apply prefix_spec.
      - destruct (store r v m) as [m1| |] eqn:E; [|done|by apply store_modelled in E]. intros Eu. apply (Hup rest') with (a := [a; s]).
        apply (IH m1); [cbn [length] in Hn; lia|done]. }
    destruct text as [text|].
    - destruct (r_type r); try done; destruct text; try done; apply Hst.
    - destruct (r_type r) eqn:Et; try (apply Hst); (destruct rest as [|s rest']; [done|]); eapply Hnx; done.
  Qed.
  Lemma rejected args : ~ (exists l, sets l args /\ NoDup l.*1) -> ~ dash_value args -> parse [] args = Rejected.
  Proof.
    intros H1 H2. destruct (parse [] args) as [m| |] eqn:E; [|done|by apply (unmodelled_dash (length args)) in E].
    exfalso. apply H1. apply accepted_iff in E as (l&Hs&Hl&_). by exists l.
  Qed.
End Values.
