(** IEEE-754 instances of [Ops]: binary64 and binary32, round to nearest even. *)
From Coq Require Import Reals.
From Flocq Require Import Core.Core IEEE754.BinarySingleNaN.
From Verif Require Import Base Ops.
Open Scope Z_scope.

Section Fmt.
Variables prec emax : Z.
Context (Hp : Prec_gt_0 prec) (He : Prec_lt_emax prec emax).

Notation fl := (binary_float prec emax).

(** Conversion to isize (num_traits): Some (truncation) iff -2^63 <= x < 2^63. *)
Definition B_to_isize (x : fl) : option Z :=
  if is_finite x then
    let z := Btrunc x in
    if (isize_min <=? z) && (z <=? isize_max) then Some z else None
  else None.

(** num_traits min/max through libm: a NaN operand is ignored. *)
Definition B_min (a b : fl) : fl :=
  if is_nan a then b else if is_nan b then a else if Bltb a b then a else b.
Definition B_max (a b : fl) : fl :=
  if is_nan a then b else if is_nan b then a else if Bltb a b then b else a.

Definition BOps : Ops fl := mkOps
  (B754_zero false) (Bone)
  (Bplus mode_NE) (Bminus mode_NE) (Bmult mode_NE) (Bdiv mode_NE)
  Bopp Babs
  (Bnearbyint mode_DN)
  (Bfma mode_NE)
  Bltb Bleb B_min B_max
  (fun n => Some (binary_normalize prec emax Hp He mode_NE n 0 false))
  B_to_isize.
End Fmt.

#[global] Instance Hp64 : Prec_gt_0 53 := eq_refl _.
#[global] Instance He64 : Prec_lt_emax 53 1024 := eq_refl _.
#[global] Instance Hp32 : Prec_gt_0 24 := eq_refl _.
#[global] Instance He32 : Prec_lt_emax 24 128 := eq_refl _.

Definition f64 := binary_float 53 1024.
Definition f32 := binary_float 24 128.
Definition F64Ops : Ops f64 := BOps Hp64 He64.
Definition F32Ops : Ops f32 := BOps Hp32 He32.

(** Literals: [f64_lit m e] is m * 2^e rounded. *)
Definition f64_lit (m e : Z) : f64 := binary_normalize 53 1024 Hp64 He64 mode_NE m e false.
Definition f32_lit (m e : Z) : f32 := binary_normalize 24 128 Hp32 He32 mode_NE m e false.
