(** Which stored values an evaluation uses. *)
From Coq Require Import List ZArith.
From Flocq Require Import Core.Core IEEE754.BinarySingleNaN.
From Verif Require Import Base Ops FInst ModelCore ModelLinear ModelCubic Spec SpecOrder SpecIEEE SpecMonotone.
Import ListNotations.
Unset Implicit Arguments.
Open Scope Z_scope.

(** [cells] holds, axis by axis, the cell that the coordinate of [x] belongs to: on rectilinear
    grids by comparison with the grid points, on regular ones as computed from start and step. *)
Definition rectilinear_cells {F} (o : Ops F) (grids : list (list F)) (x : list F) (cells : list Z) : Prop :=
  length cells = length grids /\ length x = length grids /\
  forall k g v j, nth_error grids k = Some g -> nth_error x k = Some v -> nth_error cells k = Some j -> bracketing_cell o v g j.

Section B.
Context {prec emax : Z} (Hp : Prec_gt_0 prec) (He : Prec_lt_emax prec emax).
Notation fl := (binary_float prec emax).
Definition regular_cells (dims : list Z) (starts steps x : list fl) (cells : list Z) : Prop :=
  length cells = length dims /\ length x = length dims /\
  forall k d start h v j, nth_error dims k = Some d -> nth_error starts k = Some start -> nth_error steps k = Some h ->
  nth_error x k = Some v -> nth_error cells k = Some j -> computed_cell Hp He start h v d j.
(** The cell number is not the lowest one of the integer type. *)
Definition not_lowest (starts steps x : list fl) : Prop :=
  forall k start h v, nth_error starts k = Some start -> nth_error steps k = Some h -> nth_error x k = Some v ->
  isize_min < Zfloor (B2R (fdiv (BOps Hp He) (fsub (BOps Hp He) v start) h)).
(** The stored value matters to the result: a finite result needs it to be finite, and the result
    is NaN if the value is. *)
Definition carries (value result : fl) : Prop :=
  (is_finite result = true -> is_finite value = true) /\ (value = B754_nan -> result = B754_nan).
End B.

(** The grid point with index [idx] is a corner of the cell / is at most one grid point away from
    the cell along each axis. *)
Definition corner (cells idx : list Z) : Prop := Forall2 (fun j i => j <= i <= j + 1) cells idx.
Definition around (dims cells idx : list Z) : Prop :=
  in_shape dims idx /\ Forall2 (fun j i => j - 1 <= i <= j + 2) cells idx.

(** Two interpolators built by the same constructor from the same grid and different values. *)
Section C.
Context {prec emax : Z} (Hp : Prec_gt_0 prec) (He : Prec_lt_emax prec emax).
Notation fl := (binary_float prec emax).
Notation o := (BOps Hp He).
Inductive two_rectilinear (c : cfg) (grids : list (list fl)) (vals vals' : list fl) :
  (list fl -> outcome fl) -> (list fl -> outcome fl) -> Prop :=
| two_rectilinear_flat s s' :
    rect_input c grids vals -> rect_input c grids vals' -> mlc_new o c grids vals = Ok s -> mlc_new o c grids vals' = Ok s' ->
    two_rectilinear c grids vals vals' (mlc_interp_one o c s) (mlc_interp_one o c s')
| two_rectilinear_recursive m s s' :
    rect_input c grids vals -> rect_input c grids vals' -> mlcr_new o c m grids vals = Ok s -> mlcr_new o c m grids vals' = Ok s' ->
    two_rectilinear c grids vals vals' (mlcr_interp_one o c m s) (mlcr_interp_one o c m s').
Inductive two_regular (c : cfg) (dims : list Z) (starts steps vals vals' : list fl) :
  (list fl -> outcome fl) -> (list fl -> outcome fl) -> Prop :=
| two_regular_flat s s' :
    reg_input c dims starts steps vals -> reg_input c dims starts steps vals' ->
    mlr_new o c dims starts steps vals = Ok s -> mlr_new o c dims starts steps vals' = Ok s' ->
    two_regular c dims starts steps vals vals' (mlr_interp_one o c s) (mlr_interp_one o c s')
| two_regular_recursive m s s' :
    reg_input c dims starts steps vals -> reg_input c dims starts steps vals' ->
    mlrr_new o c m dims starts steps vals = Ok s -> mlrr_new o c m dims starts steps vals' = Ok s' ->
    two_regular c dims starts steps vals vals' (mlrr_interp_one o c m s) (mlrr_interp_one o c m s').
Inductive two_cubic_rectilinear (c : cfg) (lin : bool) (grids : list (list fl)) (vals vals' : list fl) :
  (list fl -> outcome fl) -> (list fl -> outcome fl) -> Prop :=
| two_cubic_rectilinear_flat s s' :
    rect_input c grids vals -> rect_input c grids vals' -> mcc_new o c grids vals lin = Ok s -> mcc_new o c grids vals' lin = Ok s' ->
    two_cubic_rectilinear c lin grids vals vals' (mcc_interp_one o c s) (mcc_interp_one o c s')
| two_cubic_rectilinear_recursive m s s' :
    rect_input c grids vals -> rect_input c grids vals' -> mccr_new o c m grids vals lin = Ok s -> mccr_new o c m grids vals' lin = Ok s' ->
    two_cubic_rectilinear c lin grids vals vals' (mccr_interp_one o c m s) (mccr_interp_one o c m s').
Inductive two_cubic_regular (c : cfg) (lin : bool) (dims : list Z) (starts steps vals vals' : list fl) :
  (list fl -> outcome fl) -> (list fl -> outcome fl) -> Prop :=
| two_cubic_regular_flat s s' :
    reg_input c dims starts steps vals -> reg_input c dims starts steps vals' ->
    mcr_new o c dims starts steps vals lin = Ok s -> mcr_new o c dims starts steps vals' lin = Ok s' ->
    two_cubic_regular c lin dims starts steps vals vals' (mcr_interp_one o c s) (mcr_interp_one o c s')
| two_cubic_regular_recursive m s s' :
    reg_input c dims starts steps vals -> reg_input c dims starts steps vals' ->
    mcrr_new o c m dims starts steps vals lin = Ok s -> mcrr_new o c m dims starts steps vals' lin = Ok s' ->
    two_cubic_regular c lin dims starts steps vals vals' (mcrr_interp_one o c m s) (mcrr_interp_one o c m s').
End C.
