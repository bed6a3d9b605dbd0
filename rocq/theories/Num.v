(** Scalar arithmetic.  The models are generic in the scalar type. *)
From Verif Require Export Base.

(** The operations the kernels use on [double].  No law is assumed. *)
Class NumOps (T : Type) := {
  nzero : T;
  none1 : T;
  nadd : T -> T -> T;
  nmul : T -> T -> T;
}.

(** Laws of exact arithmetic that are needed when a kernel re-associates sums
    or pads with zeros.  They hold in every (not necessarily commutative)
    semiring, not for rounded doubles. *)
Class Exact (T : Type) `{NumOps T} : Prop := {
  nadd_comm x y : nadd x y = nadd y x;
  nadd_assoc x y z : nadd x (nadd y z) = nadd (nadd x y) z;
  nadd_0_l x : nadd nzero x = x;
  nmul_0_l x : nmul nzero x = nzero;
  nmul_0_r x : nmul x nzero = nzero;
}.

(** The four equations used when multiplying by the identity matrix.  They
    hold for finite doubles other than -0 as well. *)
Class UnitLaws (T : Type) `{NumOps T} : Prop := {
  unit_add_l x : nadd nzero x = x;
  unit_add_r x : nadd x nzero = x;
  unit_mul_1 x : nmul x none1 = x;
  unit_mul_0 x : nmul x nzero = nzero;
}.

(** Left-to-right sum starting from zero:
    [double acc = 0.0; for (k : ks) acc += f(k);] *)
Definition dot {T} `{NumOps T} (f : nat -> T) (ks : list nat) : T :=
  foldl (fun acc k => nadd acc (f k)) nzero ks.

(** Integers: used by the examples. *)
Global Instance Z_ops : NumOps Z := {| nzero := 0%Z; none1 := 1%Z; nadd := Z.add; nmul := Z.mul |}.
Global Instance Z_exact : Exact Z.
Proof. split; simpl; intros; lia. Qed.
Global Instance Z_unit : UnitLaws Z.
Proof. split; simpl; intros; lia. Qed.
