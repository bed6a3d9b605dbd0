(** Concrete cases for Properties29. *)
From Coq Require Import ZArith Ascii String.
From Verif Require Import MPrint MTranscript PTranscript PTranscript2 Base Conc ConcFacts Num Spec Tools MRecursive MSchedule SpecSched PSchedule PPseudo Examples1 Examples2 PComponents Properties29
  MVerbose MComponents SpecComponents MApp SpecApp SpecTranscript SpecVerbose.
Local Open Scope string_scope.

Example ex_names : multiplier_name 12 = "/multiplier#12" /\ recursive_name 0 = "/recursive#0".
Proof. by vm_compute. Qed.
Example ex_C89_names := C89_names 1 12.

(** * single on locality 0; another component is registered elsewhere. *)
Definition elsewhere : registry Z := [(multiplier_name 1, Object 1 (Multiplier 2 A2 B2 true 0)); (recursive_name 10, Object 10 (Recursive 7))].
Lemma elsewhere_unused : unused elsewhere [multiplier_name 0; recursive_name 0].
Proof.
  intros name ob Hin Hn. apply elem_of_list_In in Hin, Hn. destruct Hin as [Hin|[Hin|[]]], Hn as [Hn|[Hn|[]]]; rewrite <-Hn in Hin; vm_compute in Hin; discriminate.
Qed.
Definition reg4 : registry Z := (elsewhere ++ single_registry 0 4 A4 B4 false 0 2)%list.
Example ex_C89_single : always (single_named (oldest reg4) 0 4 2 3) (is_matrix 4 (pentry false 4 A4 B4)).
Proof.
  apply (C89_single_product A4 B4 false 0 2 0 4 2 1 3 elsewhere); try done; try lia; [exact elsewhere_unused|exact (oldest_answers reg4)].
Qed.
Example ex_C89_value : result (single_named (oldest reg4) 0 4 2 1) = Some [15; 14; 5; 23;  9; 9; 2; 17;  7; 0; 10; 5;  8; 6; 5; 1]%Z.
Proof. by vm_compute. Qed.
Example ex_C89_application := C89_application_same A4 B4 0 (Options 4 false 1 0 2 0 true "single" 1 1 Examples2.never false) elsewhere (oldest reg4) elsewhere_unused (oldest_answers reg4).
(** A name that nobody registers: the call waits; a component of the other kind *)
Example ex_unregistered : single_named (T := Z) (oldest []) 0 4 4 1 = Err EDiverge.
Proof. by vm_compute. Qed.
Example ex_wrong_kind : single_named (T := Z) (oldest [(multiplier_name 0, Object 0 (Recursive 3))]) 0 4 4 1 = Err EType.
Proof. by vm_compute. Qed.
(** An older multiplier *)
Example ex_C89_stale := C89_stale_refuted A4 B4 false 0 2 B4 A4 0 4 2 1 3 eq_refl eq_refl eq_refl ltac:(lia) ltac:(right; lia) ltac:(done) ltac:(lia).
Example ex_stale_value : let reg := (multiplier_name 0, Object 0 (Multiplier 4 B4 A4 false 0)) :: single_registry 0 4 A4 B4 false 0 2 in
  result (single_named (oldest reg) 0 4 2 1) = result (single_matrix_multiply 4 B4 A4 false 0 2 1) /\
  result (single_matrix_multiply 4 B4 A4 false 0 2 1) <> result (single_matrix_multiply 4 A4 B4 false 0 2 1).
Proof. by vm_compute. Qed.

(** * pseudodynamic: root 0 and the localities 1 to 3 *)
Definition all4 : list (list work) := match create_schedule 4 1 0 Examples2.never 65 3 with Ok all => all | Fail _ => [] end.
Example ex_ids : compute_ids 0 [2; 0; 1; 3] = [2; 1; 3] /\ compute_ids 0 [0] = [0].
Proof. done. Qed.
Definition regp : registry Z := static_registry 0 [0; 1; 2; 3] 4 A4 B4 true 0 2 all4 2.
Example ex_regp : length regp = 35 /\ length (filter (fun e => e.1 = recursive_name 1) regp) = 12.
Proof. by vm_compute. Qed.
Lemma all4_ok : create_schedule (Z.of_nat 4) 1 0 Examples2.never (S (4 * 4 * 4)) 3 = Ok all4.
Proof. by vm_compute. Qed.
Lemma none_unused names : unused ([] : registry Z) names.
Proof. intros name ob Hin. by apply elem_of_nil in Hin. Qed.
Lemma even4 : even_chain (Z.of_nat 4) 1.
Proof. change (Z.of_nat 4) with (2 ^ Z.of_nat 2)%Z. by apply even_chain_pow2. Qed.
Example ex_C89_pseudodynamic_same := C89_pseudodynamic_same A4 B4 true 0 2 4 0 [0; 1; 2; 3] 1 0 Examples2.never 2 all4 [] (oldest regp)
  ltac:(set_solver) ltac:(done) ltac:(done) all4_ok (none_unused _) (oldest_answers regp).
Example ex_C89_pseudodynamic_value : result (static_improved_named (oldest regp) 0 [0; 1; 2; 3] 4 2 1 0 Examples2.never 2) =
  Some [7; 5; 15; 22;  4; 1; 9; 15;  5; 15; 1; 15;  4; 8; 9; 4]%Z.
Proof. by vm_compute. Qed.
Lemma leaf4 n : size_of (Z.of_nat 4) 1 n -> rec_ok true 0 2 4 (Z.to_nat n).
Proof.
  intros (k & Hk & -> & Hc). assert (k = 0 \/ k = 1 \/ k = 2)%Z as Hk3.
  { destruct (decide (k <= 2)%Z); [lia|]. destruct Hc as [?|Hc]; [lia|]. exfalso. change (Z.of_nat 4) with 4%Z in Hc. assert (4 / 2 ^ (k - 1) <= 1)%Z; [|lia].
    apply Z.div_le_upper_bound; [apply Z.pow_pos_nonneg; lia|]. assert (2 ^ 2 <= 2 ^ (k - 1))%Z by (apply Z.pow_le_mono_r; lia). lia. }
  destruct Hk3 as [->|[->| ->]].
  - exists 2, 1. split; [reflexivity|]. split; [lia|]. split; [right; lia|]. intros _ ?. lia.
  - exists 2, 0. split; [reflexivity|]. split; [lia|]. split; [left; lia|]. intros _ ?. lia.
  - exists 1, 0. split; [reflexivity|]. split; [lia|]. split; [left; lia|]. intros _ ?. lia.
Qed.
Example ex_C89_pseudodynamic : always (static_improved_named (oldest regp) 0 [0; 1; 2; 3] 4 2 1 0 Examples2.never 2) (is_matrix 4 (pentry true 4 A4 B4)).
Proof.
  exact (C89_pseudodynamic_product A4 B4 true 0 2 4 0 [0; 1; 2; 3] 1 0 Examples2.never 2 all4 [] (oldest regp)
    ltac:(set_solver) ltac:(done) ltac:(done) ltac:(lia) eq_refl eq_refl even4 leaf4 all4_ok (none_unused _) (oldest_answers regp)).
Qed.
Example ex_C89_local := C89_local A4 B4 true 0 2 4 0 [0; 1; 2; 3] 2 all4 [] (oldest regp) (none_unused _) (oldest_answers regp) 1 2 _ eq_refl eq_refl ltac:(discriminate) ltac:(lia).
Lemma plain_names k : ~ occurs ":" (show_nat k).
Proof. apply PTranscript.has_false. by apply PTranscript2.show_nat_has. Qed.
Example ex_C89_lines := C89_lines A4 B4 true 0 2 4 0 [0; 1; 2; 3] 2 all4 [] (oldest regp) show_nat (none_unused _) (oldest_answers regp) plain_names ltac:(lia).
