(** The documented runs end to end. *)
From Coq Require Import ZArith Reals Ascii String.
From Flocq Require Import Core IEEE754.Binary IEEE754.Bits.
From Verif Require Import Base Conc ConcFacts Num MCeil MDouble SpecRound MPrint SpecPrint MReport MTranscript PTranscript5 PApp2
  Properties10 Properties11 MApp SpecApp SpecReport SpecTranscript.

Lemma app_weaken {T} `{NumOps T} {R : Type} (tol tol' : loc -> Prop) (a : app T R) (Q Q' : R -> Prop) :
  (forall l, tol l -> tol' l) -> (forall r, Q r -> Q' r) -> app_always tol a Q -> app_always tol' a Q'.
Proof.
  intros Ht HQ. induction a as [r|e|X p k IH]; [apply HQ|done|]. cbn [app_always]. intros Hm.
  apply (must_tol tol); [exact Ht|]. eapply must_mono; [|exact Hm]. intros x m. apply IH.
Qed.
Lemma evaluate_facts rel o : o ∈ evaluate_runs rel -> o_algorithm o = "pseudodynamic"%string /\ o_help o = false /\ o_check o = false.
Proof.
  intros Ho. unfold evaluate_runs in Ho. cbn [flat_map map Datatypes.app fst snd] in Ho.
  repeat (apply elem_of_cons in Ho as [->|Ho]; [done|]). by apply elem_of_nil in Ho.
Qed.
Lemma evaluate_run rel o localities (gen : nat -> binary64) k : o ∈ evaluate_runs rel -> 0 < localities ->
  (forall i, i < o_n o * o_n o -> finite64 (gen i) = true /\ neg64 (gen i) = false) -> names_ok k -> measurable (c_total k) ->
  app_always (fun _ => False) (main absdiff64 small64 o localities gen) (fun r =>
    r = Outcome 0 false None (gen <$> seq 0 (o_n o * o_n o)) /\
    forall l, l ≡ₚ app_chunks o k (r_check r) -> exists s x, performance (put l) = Some s /\ denotes s x /\
      let e := (INR (o_repetitions o) * rate (2 * INR (o_n o) * INR (o_n o) * INR (o_n o)) (val64 (c_total k)))%R in
      (Rabs (x - e) <= 51 / 10000000 * e)%R).
Proof.
  intros Ho Hl Hg Hn Hm. destruct (evaluate_facts rel o Ho) as (Ha & Hh & Hc).
  destruct (evaluate_suitable rel o localities Ho Hl) as (Hs & HN & Hr).
  assert (Hv : (o_algorithm o, Pseudodynamic) ∈ accepted) by (rewrite Ha; apply elem_of_list_In; cbn; tauto).
  eapply app_weaken; [| |exact (C58_end_to_end_double o localities gen Pseudodynamic Hh Hv I Hs Hg)].
  - intros l [H _]. discriminate.
  - intros r ->. rewrite Hc. split; [reflexivity|]. intros l Hp.
    refine (plotted o k Pseudodynamic _ l Hv Hh _ Hn HN Hr Hm Hp). intros [H|H]; discriminate.
Qed.
Lemma readme_run rel name localities (gen : nat -> binary64) : name ∈ ["single"; "kernel_tiled"; "pseudodynamic"; "kernel_test"]%string -> 0 < localities ->
  let o := readme_options rel name in
  (forall i, i < o_n o * o_n o -> finite64 (gen i) = true /\ neg64 (gen i) = false) ->
  app_always (fun _ => False) (main absdiff64 small64 o localities gen) (eq (Outcome 0 false None (gen <$> seq 0 (o_n o * o_n o)))).
Proof.
  intros Hn Hl o Hg.
  assert (exists v, (name, v) ∈ [("single", Single); ("kernel_tiled", KernelTiled); ("pseudodynamic", Pseudodynamic); ("kernel_test", KernelTest)]%string /\ v <> Combined) as (v & Hv & Hne).
  { repeat (apply elem_of_cons in Hn as [->|Hn];
      [first [exists Single; split; [apply elem_of_list_In; cbn; tauto|discriminate] | exists KernelTiled; split; [apply elem_of_list_In; cbn; tauto|discriminate]
             | exists Pseudodynamic; split; [apply elem_of_list_In; cbn; tauto|discriminate] | exists KernelTest; split; [apply elem_of_list_In; cbn; tauto|discriminate]]|]).
    by apply elem_of_nil in Hn. }
  destruct (readme_suitable rel (name, v) localities Hv Hl) as (Hs & Ha & Hf). cbn [fst snd] in Hs, Ha, Hf.
  eapply app_weaken; [| |exact (C58_end_to_end_double o localities gen v eq_refl Ha Hf Hs Hg)].
  - intros l [H _]. contradiction.
  - intros r ->. reflexivity.
Qed.
Lemma readme_combined {T} `{NumOps T} (absdiff : T -> T -> T) (small : T -> bool) rel localities gen :
  app_fails (fun e => e = EException) (main absdiff small (readme_options rel "combined") localities gen).
Proof.
  apply (C48_wrong_flag absdiff small (readme_options rel "combined") localities gen Combined); [reflexivity|apply elem_of_list_In; cbn; tauto|].
  discriminate.
Qed.
