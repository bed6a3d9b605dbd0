(** The numbers that learning/MetaProgrammingCPP.cpp prints are decimal numerals. *)
From Coq Require Import String Ascii Decimal DecimalString DecimalFacts DecimalNat.
From Verif Require Import Base MLearn SpecLearn2.
Local Open Scope nat_scope.

Lemma digits_of_uint u acc : digits_value acc (NilEmpty.string_of_uint u) = Some (Nat.of_uint_acc u acc).
Proof.
  revert acc. induction u; intros acc; [reflexivity|..];
    cbn [NilEmpty.string_of_uint Nat.of_uint_acc];
    rewrite Nat.tail_mul_spec; cbn [digits_value];
    match goal with |- context [nat_of_ascii ?c] =>
      let k := eval vm_compute in (nat_of_ascii c) in change (nat_of_ascii c) with k end;
    cbn [Nat.leb andb Nat.sub]; rewrite <- IHu; f_equal; lia.
Qed.
Lemma uint_of_digits s : forall acc n, digits_value acc s = Some n -> exists u, s = NilEmpty.string_of_uint u /\ Nat.of_uint_acc u acc = n.
Proof.
  intros acc n H.
  assert (E : exists u, s = NilEmpty.string_of_uint u).
  { revert acc H. induction s as [|c s IH]; intros acc H; [exists Nil; reflexivity|].
    cbn [digits_value] in H.
    destruct ((48 <=? nat_of_ascii c) && (nat_of_ascii c <=? 57)) eqn:E; [|discriminate].
    destruct (IH _ H) as [u ->]. clear IH H.
    apply andb_prop in E as [E1 E2]. apply Nat.leb_le in E1, E2.
    rewrite <- (ascii_nat_embedding c).
    assert (D : exists k, k < 10 /\ nat_of_ascii c = 48 + k) by (exists (nat_of_ascii c - 48); lia).
    destruct D as (k & K & ->). clear E1 E2.
    do 10 (destruct k as [|k]; [first
      [exists (D0 u); reflexivity|exists (D1 u); reflexivity|exists (D2 u); reflexivity|exists (D3 u); reflexivity|exists (D4 u); reflexivity
      |exists (D5 u); reflexivity|exists (D6 u); reflexivity|exists (D7 u); reflexivity|exists (D8 u); reflexivity|exists (D9 u); reflexivity]|]).
    lia. }
  destruct E as [u ->]. exists u. split; [done|].
  rewrite digits_of_uint in H. by injection H.
Qed.
Lemma unorm_head n : unorm (Nat.to_uint n) = Nat.to_uint n.
Proof. rewrite <- Unsigned.to_of, Unsigned.of_to. done. Qed.
Lemma nz_len u : nb_digits (nzhead u) <= nb_digits u.
Proof. induction u; cbn; lia. Qed.

Lemma show_numeral n s : show n = s <-> numeral n s.
Proof.
  split.
  - intros <-. unfold show, numeral. split_and!.
    + rewrite digits_of_uint. f_equal. exact (Unsigned.of_to n).
    + pose proof (unorm_head n) as U. intros E. destruct (Nat.to_uint n); try discriminate. 
    + intros r E. pose proof (unorm_head n) as U.
      destruct (Nat.to_uint n) as [|u|u|u|u|u|u|u|u|u|u]; try discriminate.
      cbn in E. injection E as <-. unfold unorm in U. cbn [nzhead] in U.
      pose proof (nz_len u) as L.
      destruct (nzhead u) eqn:Z; try discriminate; injection U as <-; try reflexivity; cbn in *; lia.
  - intros (V & NE & Z).
    destruct (uint_of_digits _ _ _ V) as (u & -> & H). unfold show. f_equal.
    change (Nat.of_uint u = n) in H. rewrite <- H, Unsigned.to_of.
    destruct u; try reflexivity; [exfalso; by apply NE|].
    specialize (Z _ eq_refl). destruct u; try discriminate Z. reflexivity.
Qed.
