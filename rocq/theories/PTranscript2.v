(** What evaluate.py finds in the standard output of the application. *)
From Coq Require Import ZArith Reals Ascii String Decimal DecimalString DecimalN Lia.
From Flocq Require Import Core IEEE754.Binary IEEE754.Bits.
From Verif Require Import Base MDouble MPrint SpecPrint PPrint PPrint2 MReport MTranscript PTranscript MApp SpecApp SpecTranscript.
Local Open Scope string_scope.

(** * The characters of numbers *)
Lemma text_has c ds : Forall is_digit ds -> as_digit c = None -> has_char c (text ds) = false.
Proof.
  intros Hd Hc. induction Hd as [|d ds Hd _ IH]; [reflexivity|].
  change ((digit d =? c)%char || has_char c (text ds) = false). by rewrite (digit_not c d Hd Hc), IH.
Qed.
Definition number_sign : list ascii := ["+"; "-"; "."; "e"; "i"; "n"; "f"; "a"]%char.
Definition foreign (c : ascii) : Prop := as_digit c = None /\ existsb (Ascii.eqb c) number_sign = false.
Lemma foreign_sign c x : foreign c -> In x number_sign -> (x =? c)%char = false.
Proof.
  intros [_ H] Hx. rewrite Ascii.eqb_sym. destruct (c =? x)%char eqn:E; [|reflexivity].
  assert (existsb (Ascii.eqb c) number_sign = true) as Ht by (apply existsb_exists; by exists x). congruence.
Qed.
Lemma has_cons c x s : has_char c (String x s) = (x =? c)%char || has_char c s.
Proof. reflexivity. Qed.
Lemma with_point_has c i f : foreign c -> Forall is_digit i -> Forall is_digit f -> has_char c (with_point i f) = false.
Proof.
  intros Hc Hi Hf. unfold with_point. rewrite has_app, text_has by (by destruct Hc || done).
  pose proof (strip_range f Hf) as Hs. destruct (strip f) as [|d ds]; [reflexivity|].
  change ("." ++ text (d :: ds)) with (String "." (text (d :: ds))). rewrite has_cons, (foreign_sign c); [|exact Hc|cbn; tauto].
  apply text_has; [exact Hs|]. by destruct Hc.
Qed.
Lemma show_digits_has c P D X : foreign c -> has_char c (show_digits P D X) = false.
Proof.
  intros Hc. unfold show_digits. pose proof (digits_range P D) as Hd.
  destruct ((X <? -4)%Z || (Z.of_nat P <=? X)%Z); [|destruct (X <? 0)%Z].
  - rewrite has_app, with_point_has; [|exact Hc|by apply Forall_take|by apply Forall_drop]. unfold show_exponent.
    rewrite !has_app. rewrite (text_has c); [|apply digits_range|by destruct Hc].
    rewrite has_cons, (foreign_sign c); [|exact Hc|cbn; tauto]. cbn. rewrite orb_false_r.
    destruct (X <? 0)%Z; rewrite has_cons, (foreign_sign c); (exact Hc || reflexivity || (cbn; tauto)).
  - apply with_point_has; [exact Hc|by repeat constructor|]. apply Forall_app. split; [|exact Hd].
    apply Forall_replicate. by unfold is_digit.
  - apply with_point_has; [exact Hc|by apply Forall_take|by apply Forall_drop].
Qed.
Lemma show64_has c P x : foreign c -> has_char c (show64 P x) = false.
Proof.
  intros Hc. assert (Hs : forall s : bool, has_char c (if s then "-" else "") = false).
  { intros []; [|reflexivity]. by rewrite has_cons, (foreign_sign c); [..|cbn; tauto]. }
  destruct x as [s|s|s pl H|s m e H]; unfold show64.
  - assert (E : (digit 0 =? c)%char = false) by (apply digit_not; [by unfold is_digit|by destruct Hc]).
    rewrite has_app, Hs, has_cons. change "0"%char with (digit 0). by rewrite E.
  - rewrite has_app, Hs, !has_cons, !(foreign_sign c); try (exact Hc || (cbn; tauto)).
  - rewrite has_app, Hs, !has_cons, !(foreign_sign c); try (exact Hc || (cbn; tauto)).
  - destruct (decimal _ _ _) as [D X]. rewrite has_app, Hs. by apply show_digits_has.
Qed.
Lemma uint_has c u : as_digit c = None -> has_char c (NilEmpty.string_of_uint u) = false.
Proof.
  intros Hc. assert (Hx : forall x, as_digit x <> None -> (x =? c)%char = false).
  { intros x Hx. apply Ascii.eqb_neq. intros ->. contradiction. }
  induction u as [|u IH|u IH|u IH|u IH|u IH|u IH|u IH|u IH|u IH|u IH]; [reflexivity|..]; cbn [NilEmpty.string_of_uint];
    rewrite has_cons, IH, orb_false_r; apply Hx; discriminate.
Qed.
Lemma show_nat_has c n : as_digit c = None -> has_char c (show_nat n) = false.
Proof. apply uint_has. Qed.

(** * Unsigned integers are read back *)
Fixpoint uint_value (m : Z) (u : uint) : Z :=
  match u with
  | Nil => m
  | D0 u => uint_value (10 * m) u | D1 u => uint_value (10 * m + 1) u | D2 u => uint_value (10 * m + 2) u
  | D3 u => uint_value (10 * m + 3) u | D4 u => uint_value (10 * m + 4) u | D5 u => uint_value (10 * m + 5) u
  | D6 u => uint_value (10 * m + 6) u | D7 u => uint_value (10 * m + 7) u | D8 u => uint_value (10 * m + 8) u
  | D9 u => uint_value (10 * m + 9) u
  end%Z.
Lemma uint_acc u a : uint_value (Z.pos a) u = Z.pos (Pos.of_uint_acc u a).
Proof.
  revert a. induction u as [|u IH|u IH|u IH|u IH|u IH|u IH|u IH|u IH|u IH|u IH]; intros a; [reflexivity|..];
    cbn [uint_value Pos.of_uint_acc]; rewrite <-IH; f_equal; lia.
Qed.
Lemma uint_N u : uint_value 0 u = Z.of_N (N.of_uint u).
Proof.
  unfold N.of_uint.
  induction u as [|u IH|u IH|u IH|u IH|u IH|u IH|u IH|u IH|u IH|u IH]; [reflexivity|exact IH|..];
    cbn [Pos.of_uint Z.of_N]; rewrite <-uint_acc; reflexivity.
Qed.
Lemma read_uint u m n : exists k, (0 <= k)%Z /\ (u <> Nil -> 0 < k)%Z /\ read_digits m n (NilEmpty.string_of_uint u) = (uint_value m u, n + k, "")%Z.
Proof.
  revert m n. induction u as [|u IH|u IH|u IH|u IH|u IH|u IH|u IH|u IH|u IH|u IH]; intros m n;
    [exists 0%Z; rewrite Z.add_0_r; done|..]; cbn [NilEmpty.string_of_uint read_digits as_digit uint_value];
    match goal with |- context [as_digit ?x] => let d := eval vm_compute in (as_digit x) in change (as_digit x) with d end; cbn iota;
    match goal with |- context [read_digits ?a ?b] => destruct (IH a b) as (k & Hk & _ & Ek) end;
    exists (1 + k)%Z; (split; [lia|split; [lia|]]); rewrite Z.add_assoc; rewrite ?Z.add_0_r in *; exact Ek.
Qed.
Lemma to_uint_nonnil n : N.to_uint n <> Nil.
Proof.
  intros E. pose proof (Unsigned.of_to n) as H. rewrite E in H. cbn in H. subst n. discriminate.
Qed.
Lemma read_show_int n : read (show_int n) = Some (Z.of_N n, 0%Z).
Proof.
  assert (E : read_unsigned (show_int n) = Some (Z.of_N n, 0%Z)).
  { unfold read_unsigned, show_int. destruct (read_uint (N.to_uint n) 0 0) as (k & _ & Hk & ->).
    specialize (Hk (to_uint_nonnil n)). rewrite Z.add_0_l. destruct (Z.eqb_spec k 0); [lia|].
    rewrite uint_N, Unsigned.of_to. reflexivity. }
  rewrite read_positive; [exact E|]. rewrite E. discriminate.
Qed.
