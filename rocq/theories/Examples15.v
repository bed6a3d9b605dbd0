(** Concrete cases for Properties15. *)
From Coq Require Import ZArith String.
From Flocq Require Import IEEE754.Bits IEEE754.Binary.
From Verif Require Import Conc ConcFacts SpecBench MCeil MDouble MBench Properties15.

(** Five arrays of 4096*4096+8 doubles, none at a multiple of 64 bytes. *)
Definition base (k : Z) : Z := (16 + k * 134217800)%Z.
Definition pc {T} (fma : option (T -> T -> T -> T)) (asm : bool) (junk : T) (off : nat) : platform T :=
  Platform fma asm junk off 0 off 4 (base 0) (base 1) (base 2) (base 3) (base 4).
Lemma bases_good n k : (Z.of_nat n <= 4096)%Z -> (0 <= k <= 4)%Z -> good_address n (base k).
Proof.
  intros Hn Hk. unfold good_address, base. split; [lia|]. split; [exists (2 + k * 16777225)%Z; lia|]. nia.
Qed.
Lemma pc_good n {T} fma asm (junk : T) off : (Z.of_nat n <= 4096)%Z ->
  forall a, a ∈ [p_A (pc fma asm junk off); p_ATransposed (pc fma asm junk off); p_B (pc fma asm junk off); p_BTransposed (pc fma asm junk off); p_C (pc fma asm junk off)] ->
  good_address n a.
Proof.
  intros Hn a. cbn. rewrite !elem_of_cons. intros [->|[->|[->|[->|[->|[]%elem_of_nil]]]]]; apply bases_good; lia.
Qed.
Lemma n4096 : (Z.of_nat bench_n <= 4096)%Z.
Proof. change (Z.of_nat bench_n) with 4096%Z. lia. Qed.
(** Uninitialised memory may even hold an infinity. *)
Definition inf64 : binary64 := B754_infinity 53 1024 false.

Example ex_C67_shipped name : name ∈ right_names ->
  always (bench_main (double_of 2) (b64_sqrt rne) (pc (Some (b64_fma rne)) true inf64 8) ["./benchmark"; name]%string) (eq (BenchRun 0 (Some (double_of 8192)))).
Proof.
  intros Hn. apply C67_right_shipped; [apply pc_good, n4096|by right|cbn; split_and!; reflexivity|exact Hn|by eexists|done].
Qed.
Example ex_C67_shipped_naive_no_fma :
  always (bench_main (double_of 2) (b64_sqrt rne) (pc None false inf64 8) ["./benchmark"; "intrinLoop"]%string) (eq (BenchRun 0 (Some (double_of 8192)))).
Proof.
  apply C67_right_shipped; [apply pc_good, n4096|by left|cbn; split_and!; reflexivity|..].
  - unfold right_names. rewrite !elem_of_cons. tauto.
  - rewrite !elem_of_cons. intros [E|[E|[]%elem_of_nil]]; discriminate.
  - discriminate.
Qed.
Section Size256.
  Context (n : nat) (E : n = 256).
  Lemma s8 : 8 <= n. Proof. rewrite E. apply Nat.leb_le. reflexivity. Qed.
  Lemma s25 : (Z.of_nat n <= 2 ^ 25)%Z. Proof. rewrite E. apply Z.leb_le. reflexivity. Qed.
  Lemma s256 : (256 | n). Proof. rewrite E. exists 1. reflexivity. Qed.
  Lemma s4096 : (Z.of_nat n <= 4096)%Z. Proof. rewrite E. apply Z.leb_le. reflexivity. Qed.
End Size256.
Example ex_C67_wrong n : n = 256 ->
  always (bench_main_at (double_of 2) (b64_sqrt rne) n (pc None true inf64 0) ["./benchmark"; "blocked4"]%string) (eq (BenchRun 0 (Some (double_of (Z.of_nat n))))) /\
  always (bench_main_at (double_of 2) (b64_sqrt rne) n (pc None true inf64 0) ["./benchmark"; "gpuasm"]%string) (eq (BenchRun 0 (Some (double_of 0)))).
Proof.
  intros E. destruct (C67_wrong_reported_refuted n (pc None true inf64 0) "./benchmark"%string [] (s8 n E) (s25 n E) (s256 n E)
    (pc_good n None true inf64 0 (s4096 n E))) as [H1 H2].
  - cbn. split_and!; reflexivity.
  - split; [exact H1|exact (proj1 (H2 eq_refl))].
Qed.
Example ex_C67_unknown :
  bench_main_at 2%Z Z.sqrt 8 (pc None true 0%Z 0) ["./benchmark"; "strassen"]%string = Ret (BenchRun 0 None).
Proof.
  apply C67_unknown; [lia|apply pc_good; lia|]. unfold right_names. rewrite !not_elem_of_cons. split_and!; try discriminate. by apply not_elem_of_nil.
Qed.
(** 16 bytes behind a multiple of 32 *)
Example ex_C67_misaligned :
  always_ub (bench_main_at 2%Z Z.sqrt 8 (pc None true 0%Z 2) ["./benchmark"; "register"]%string).
Proof. apply C67_misaligned; [lia|apply pc_good; lia|]. left. split; [done|left; discriminate]. Qed.
(** Integers: the check of a product of size 256 is the integer square root of 4*256*256. *)
Lemma numbers_Z : bench_numbers 2%Z.
Proof. repeat split. Qed.
Example ex_C67_integers n : n = 256 ->
  always (bench_main_at 2%Z Z.sqrt n (pc (Some (fun x y z => z + x * y)%Z) true 77%Z 0) ["./benchmark"; "gpuasm"]%string)
    (eq (BenchRun 0 (Some (Z.sqrt (sum_sq n (fun _ _ => 2%Z)))))).
Proof.
  intros E. apply C67_right.
  - exact numbers_Z.
  - exact (s8 n E).
  - exact (s256 n E).
  - exact (pc_good n _ _ _ _ (s4096 n E)).
  - repeat split.
  - cbn. split_and!; reflexivity.
  - unfold right_names. rewrite !elem_of_cons. tauto.
  - by eexists.
  - discriminate.
Qed.
Example ex_C67_zero n : n = 256 ->
  always (bench_main_at 2%Z Z.sqrt n (pc None false 77%Z 0) ["./benchmark"; "asm"]%string) (eq (BenchRun 0 (Some (Z.sqrt (sum_sq n (fun _ _ => nzero : Z)))))).
Proof.
  intros E. apply C67_zero.
  - exact numbers_Z.
  - exact (s8 n E).
  - exact (s256 n E).
  - exact (pc_good n _ _ _ _ (s4096 n E)).
  - cbn. split_and!; reflexivity.
  - by right.
Qed.
Example ex_C67_blocked4 n : n = 256 ->
  always (bench_main_at 2%Z Z.sqrt n (pc None false 77%Z 0) ["./benchmark"; "blocked4"; "more"]%string)
    (eq (BenchRun 0 (Some (Z.sqrt (sum_sq n (fun _ j => if decide (j mod 4 = 0) then 2%Z else nzero)))))).
Proof.
  intros E. apply C67_blocked4.
  - exact numbers_Z.
  - exact (s8 n E).
  - exact (s256 n E).
  - exact (pc_good n _ _ _ _ (s4096 n E)).
Qed.
