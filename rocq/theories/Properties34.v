(** More about printing (C81), schedules (C86) and the command line (C87). *)
From Coq Require Import ZArith NArith Reals Ascii String.
From stdpp Require Import list.
From Flocq Require Import Core IEEE754.Binary IEEE754.Bits.
From Verif Require Import Base MDouble MPrint SpecPrint SpecSched MCmdline SpecCmdline SpecCmdline3 PScale4 PCmdline7.

(** C81: a zero is printed as one digit. *)
Theorem C81_zero P x : finite64 x = true -> val64 x = 0%R -> show64 P x = (if neg64 x then "-0" else "0")%string.
Proof.
  intros Hf Hv. destruct x as [s|s|s pl Hpl|s m e He]; try discriminate Hf; [by destruct s|].
  exfalso. apply (eq_0_F2R radix2) in Hv. by destruct s.
Qed.
Print Assumptions C81_zero.

(** C86: equal shares exist for the square of any number of localities: one square
    package each. *)
Theorem C86_equal_shares_exist k n : (0 < n)%Z -> exists all, length all = k * k /\
  (forall ws, ws ∈ all -> area ws = (n * n)%Z /\ forall w, w ∈ ws -> wN w = n /\ inside (Z.of_nat k * n) w) /\
  forall i j, (0 <= i < Z.of_nat k * n)%Z -> (0 <= j < Z.of_nat k * n)%Z -> hits i j (concat all) = 1.
Proof. exact (equal_shares_exist k n). Qed.
Print Assumptions C86_equal_shares_exist.
(** C86: so for the 256 localities that do not get them, with packages that arise by
    halving and are larger than min_work_size. *)
Theorem C86_equal_shares_missed c : (0 < c)%Z -> exists all, length all = 256 /\
  (forall ws, ws ∈ all -> (256 * area ws = 512 * c * (512 * c))%Z /\
    forall w, w ∈ ws -> inside (512 * c) w /\ size_of (512 * c) (2 * c - 1) (wN w) /\ (2 * c - 1 < wN w)%Z) /\
  forall i j, (0 <= i < 512 * c)%Z -> (0 <= j < 512 * c)%Z -> hits i j (concat all) = 1.
Proof.
  intros Hc. destruct (equal_shares_exist 16 (32 * c) ltac:(lia)) as (all&Hl&Hw&Hh). exists all. split; [exact Hl|].
  replace (512 * c)%Z with (Z.of_nat 16 * (32 * c))%Z by lia. split; [|exact Hh].
  intros ws Hws. destruct (Hw ws Hws) as [Ha Hi]. split; [lia|]. intros w Hin. destruct (Hi w Hin) as [E Hins].
  split; [done|]. rewrite E. split; [|lia]. replace (Z.of_nat 16 * (32 * c))%Z with (512 * c)%Z by lia. by apply size_512.
Qed.
Print Assumptions C86_equal_shares_missed.

Local Open Scope string_scope.
(** C87: there are twelve options. *)
Theorem C87_twelve : r_name <$> table ≡ₚ shortest.*1 /\ length table = 12.
Proof. split; [|reflexivity]. apply (bool_decide_unpack _). vm_compute. exact I. Qed.
Print Assumptions C87_twelve.
(** C87: each name may be shortened to the beginning listed, or less, wherever it
    stands; shortened further it is rejected. *)
Theorem C87_shortened strtod accepts name short p rest : (name, short) ∈ shortest -> begins p name -> rest = "" \/ begins "=" rest ->
  (begins short p -> forall m args, parse strtod accepts m (("--" ++ p ++ rest) :: args) = parse strtod accepts m (("--" ++ name ++ rest) :: args)) /\
  (~ begins short p -> p ++ rest <> "" -> forall m args, parse strtod accepts m (("--" ++ p ++ rest) :: args) = Rejected).
Proof. exact (shortened strtod accepts name short p rest). Qed.
Print Assumptions C87_shortened.
