(** Small specification for changes of units: all numbers along an axis multiplied by a power of
    two, exactly, and the interpolators compared. *)
From Coq Require Import Reals.
From Flocq Require Import Core.Core IEEE754.BinarySingleNaN.
From Verif Require Import Base Ops FInst ModelCore ModelLinear ModelCubic ModelNearest Spec SpecIEEE.
Unset Implicit Arguments.
Open Scope Z_scope.

Section B.
Context {prec emax : Z} (Hp : Prec_gt_0 prec) (He : Prec_lt_emax prec emax).
Notation fl := (binary_float prec emax).
Notation o := (BOps Hp He).

(** [b] is exactly [2 ^ k] times [a], and has its sign even if they are zeros. *)
Definition rescaled (k : Z) (a b : fl) : Prop :=
  is_finite a = true /\ is_finite b = true /\ B2R b = (B2R a * bpow radix2 k)%R /\ Bsign b = Bsign a.

(** [P k a b] for the exponent, the old and the new item of each axis. *)
Inductive each_axis {A B : Type} (P : Z -> A -> B -> Prop) : list Z -> list A -> list B -> Prop :=
| each_axis_nil : each_axis P [] [] []
| each_axis_cons k ks a l b m : P k a b -> each_axis P ks l m -> each_axis P (k :: ks) (a :: l) (b :: m).

(** All N-dimensional methods on a rectilinear grid. *)
Inductive rect_method := LinearRect | LinearRectRecursive (maxdims : nat) | NearestRect
  | CubicRect (linearize : bool) | CubicRectRecursive (maxdims : nat) (linearize : bool).
Definition built_rectilinear (m : rect_method) (c : cfg) (grids : list (list fl)) (vals : list fl)
  (eval : list fl -> outcome fl) : Prop :=
  rect_input c grids vals /\
  match m with
  | LinearRect => exists s, mlc_new o c grids vals = Ok s /\ eval = mlc_interp_one o c s
  | LinearRectRecursive n => exists s, mlcr_new o c n grids vals = Ok s /\ eval = mlcr_interp_one o c n s
  | NearestRect => exists s, nc_new o c grids vals = Ok s /\ eval = nc_interp_one o c s
  | CubicRect lin => exists s, mcc_new o c grids vals lin = Ok s /\ eval = mcc_interp_one o c s
  | CubicRectRecursive n lin => exists s, mccr_new o c n grids vals lin = Ok s /\ eval = mccr_interp_one o c n s
  end.

(** All methods on a regular grid. *)
Inductive reg_method := LinearReg | LinearRegRecursive (maxdims : nat) | NearestReg
  | CubicReg (linearize : bool) | CubicRegRecursive (maxdims : nat) (linearize : bool).
Definition built_regular (m : reg_method) (c : cfg) (dims : list Z) (starts steps vals : list fl)
  (eval : list fl -> outcome fl) : Prop :=
  reg_input c dims starts steps vals /\
  match m with
  | LinearReg => exists s, mlr_new o c dims starts steps vals = Ok s /\ eval = mlr_interp_one o c s
  | LinearRegRecursive n => exists s, mlrr_new o c n dims starts steps vals = Ok s /\ eval = mlrr_interp_one o c n s
  | NearestReg => exists s, nr_new o c dims starts steps vals = Ok s /\ eval = nr_interp_one o c s
  | CubicReg lin => exists s, mcr_new o c dims starts steps vals lin = Ok s /\ eval = mcr_interp_one o c s
  | CubicRegRecursive n lin => exists s, mcrr_new o c n dims starts steps vals lin = Ok s /\ eval = mcrr_interp_one o c n s
  end.

(** The grid and the point are far from overflow. *)
Definition roomy_axis (start step : fl) (d : Z) : Prop :=
  (Rabs (B2R start) <= bpow radix2 (emax - 4))%R /\ (Rabs (B2R step) * IZR d <= bpow radix2 (emax - 4))%R.
Definition roomy_axes (starts steps : list fl) (dims : list Z) : Prop :=
  forall k a h d, nth_error starts k = Some a -> nth_error steps k = Some h -> nth_error dims k = Some d ->
  roomy_axis a h d.
Definition roomy (v : fl) : Prop := (Rabs (B2R v) <= bpow radix2 (emax - 4))%R.

(** [b] compares equal to [- a] (zeros of either sign do), or both are NaN. *)
Definition negation (a b : fl) : Prop :=
  (is_nan a = true /\ is_nan b = true) \/ Beqb b (Bopp a) = true.
End B.

(** Both calls return, and the results are related; or both fail in the same way. *)
Definition outcome_rel {A B : Type} (P : A -> B -> Prop) (r : outcome A) (q : outcome B) : Prop :=
  match r, q with
  | Ok u, Ok v => P u v
  | Err s, Err t => s = t
  | Panic, Panic => True
  | _, _ => False
  end.
