(** Which inputs the Python classes accept: small specifications. *)
From Coq Require Import Reals ZArith List.
From Flocq Require Import Core.Core IEEE754.BinarySingleNaN.
From Verif Require Import Base Ops FInst ModelPython ModelSerial.
Import ListNotations.
Unset Implicit Arguments.
Open Scope Z_scope.

(** Order of floating-point numbers: NaN is neither below nor above anything. *)
Inductive less {p e : Z} : binary_float p e -> binary_float p e -> Prop :=
| less_finite x y : is_finite x = true -> is_finite y = true -> (B2R x < B2R y)%R -> less x y
| less_top x : is_finite x = true -> less x (B754_infinity false)
| less_bottom y : is_finite y = true -> less (B754_infinity true) y
| less_ends : less (B754_infinity true) (B754_infinity false).
Definition positive {p e : Z} (x : binary_float p e) : Prop := less (B754_zero false) x.
Definition increasing_list {p e : Z} (l : list (binary_float p e)) : Prop :=
  forall i a b, nth_error l i = Some a -> nth_error l (S i) = Some b -> less a b.

Definition positive_array (a : array) : Prop :=
  match a with F32Array l => Forall positive l | F64Array l => Forall positive l end.
Definition increasing_array (a : array) : Prop :=
  match a with F32Array l => increasing_list l | F64Array l => increasing_list l end.
Definition size_of (a : array) : nat := match a with F32Array l => length l | F64Array l => length l end.
Definition same_type (a b : array) : Prop :=
  match a, b with F32Array _, F32Array _ => True | F64Array _, F64Array _ => True | _, _ => False end.

(** Only the multicubic classes have a flag. *)
Definition right_flag (fam : family) (lin : option bool) : Prop :=
  match fam with Multicubic => lin <> None | _ => lin = None end.
Definition axes_limit (fam : family) : nat := match fam with Nearest => 6 | _ => 8 end.
Definition product (l : list Z) : Z := fold_right Z.mul 1 l.

Definition regular_accepted (fam : family) (m : regular_model) : Prop :=
  let n := length (rm_dims m) in
  right_flag fam (rm_lin m) /\ (1 <= n <= axes_limit fam)%nat /\
  size_of (rm_starts m) = n /\ size_of (rm_steps m) = n /\
  Z.of_nat (size_of (rm_vals m)) = product (rm_dims m) /\ positive_array (rm_steps m) /\
  same_type (rm_steps m) (rm_vals m) /\ (fam = Nearest -> same_type (rm_starts m) (rm_vals m)).
Definition rectilinear_accepted (fam : family) (m : rectilinear_model) : Prop :=
  let n := length (cm_grids m) in
  right_flag fam (cm_lin m) /\ (1 <= n <= axes_limit fam)%nat /\
  Z.of_nat (size_of (cm_vals m)) = product (map (fun g => Z.of_nat (size_of g)) (cm_grids m)) /\
  Forall increasing_array (cm_grids m) /\ Forall (fun g => same_type g (cm_vals m)) (cm_grids m).
