(** Concrete cases meeting the hypotheses of Properties3. *)
From Coq Require Import Sorting.Sorted.
From Verif Require Import Tools MIter SpecIter PIter PIter2 Properties3.

(** Two dimensions, blocks (4,2) parallel in dimension 0 around steps (2,1). *)
Definition pol1 : policy := Policy 2 [([4; 2], [true; false]); ([2; 1], [false; false])].
Lemma pol1_built : (let? p := policy_new 2 in let? p := set_final_steps p [2; 1] in
  add_blocking p [4; 2] [true; false]) = Ok pol1.
Proof. done. Qed.
Lemma pol1_nested : nested 2 (pconf pol1).
Proof.
  cbn [pol1 pconf nested]. split_and!; try reflexivity; try (repeat constructor; lia).
  repeat constructor; [exists 2; reflexivity|exists 2; reflexivity].
Qed.
Lemma ext1 : divides_all [4; 2] (extent [1; 0] [9; 4]).
Proof. repeat constructor; [exists 2; reflexivity|exists 2; reflexivity]. Qed.
(** C32: eight rows in two parallel blocks *)
Example ex_C32 : exists ord, lists_grid [1; 0] [9; 4] [2; 1] ord /\
  always (call_log [[1]; [3]; [5]; [7]] [true; false] (iterate_indices 2 pol1 [1; 0] [9; 4]))
    (fun logs => logs = (fun k => filter (fun x => coords [true; false] x = k) ord) <$> [[1]; [3]; [5]; [7]]).
Proof.
  assert (Forall2 le [1; 0] [9; 4]) as Hle by (repeat constructor; lia).
  destruct (C32_iterate_indices_exactly_once 2 pol1 [1; 0] [9; 4] pol1_nested eq_refl eq_refl Hle ext1) as (ord&Hg&_&Hl&_).
  exists ord. split; [exact Hg|]. apply Hl. intros x Hx. apply Hg in Hx as (_&Hx). destruct (Hx 0) as (m&mx&s&q&Hm&Hmx&Hs&Hq&Hlt); [simpl; lia|].
  injection Hm as <-. injection Hmx as <-. injection Hs as <-. destruct x as [|a x]; [done|]. injection Hq as ->.
  assert (q = 0 \/ q = 1 \/ q = 2 \/ q = 3) as [->|[->|[->| ->]]] by lia; cbn [coords]; destruct x; cbn [coords]; repeat (first [apply elem_of_list_here|apply elem_of_list_further]).
Qed.
Example ex_C32_value : match run (call_log [[1]; [3]; [5]; [7]] [true; false] (iterate_indices 2 pol1 [1; 0] [9; 4])) ∅ with
  Ok (l, _) => l = [ [[1;0]; [1;1]; [1;2]; [1;3]]; [[3;0]; [3;1]; [3;2]; [3;3]];
                     [[5;0]; [5;1]; [5;2]; [5;3]]; [[7;0]; [7;1]; [7;2]; [7;3]] ] | _ => False end.
Proof. by vm_compute. Qed.
(** C33: block 4 on extent 6 visits 6 and 7 *)
Definition pol2 : policy := Policy 1 [([4], [true]); ([1], [false])].
Example ex_C33 : exists ord, lists_grid [0] [8] [1] ord /\ exists q, q ∈ ord /\ q !! 0 = Some 6.
Proof.
  destruct (C33_iterate_indices_rounds_up 1 pol2 [4] [true] ([1], [false]) [] [0] [6]) as (ord&Hg&_&_&Ho); try reflexivity.
  { cbn [pol2 pconf nested]. split_and!; try reflexivity; try (repeat constructor; lia).
    repeat constructor. exists 4. reflexivity. }
  exists ord. split; [exact Hg|]. apply (Ho 0 4 0 6); try reflexivity.
  - repeat constructor; lia.
  - intros [k Hk]. lia.
Qed.
(** C34 *)
Example ex_C34 : iterates 5 [1; 0] [4; 2] [2; 1] [1; 0] = Ok [[1; 0]; [3; 0]; [1; 1]; [3; 1]; [3; 1]].
Proof. by vm_compute. Qed.
Example ex_C34_hyp : exists l, iterates (prodl (counts [1; 0] [4; 2] [2; 1])) [1; 0] [4; 2] [2; 1] [1; 0] = Ok l /\
  lists_grid [1; 0] [4; 2] [2; 1] l.
Proof.
  destruct (C34_dim_index_iterator_enumerates [1; 0] [4; 2] [2; 1]) as (l&_&H1&H2&_);
    [reflexivity|reflexivity|repeat constructor; lia|repeat constructor; lia|]. by exists l.
Qed.
(** C35 *)
Example ex_C35 : exists l, lists_grid [1; 0] [4; 2] [2; 1] l /\ StronglySorted lex_lt l.
Proof.
  destruct (C35_loop_nest_lexicographic (T := nat) 2 [1; 0] [4; 2] [2; 1]) as (l&H1&H2&_);
    [reflexivity|reflexivity|reflexivity|repeat constructor; lia|]. by exists l.
Qed.
Example ex_C35_diverge : must_fail (fun e => e = EDiverge) (loop_nest 2 [1; 0] [4; 2] [2; 0] (fun _ => Ret tt : prog nat unit)) ∅.
Proof.
  apply C35_loop_nest_zero_step_diverges; try reflexivity; try done.
  - repeat constructor; lia.
  - apply Exists_cons_tl, Exists_cons_hd. reflexivity.
Qed.
