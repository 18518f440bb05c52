(** Small specifications, independent of the model's code. *)
From Verif Require Import Base Ops.

(** Product of a list of sizes. *)
Definition zprod (l : list Z) : Z := fold_right Z.mul 1 l.

(** Position of the entry with multi-index [idx] in a C-ordered (row-major)
    array of shape [dims]. *)
Fixpoint cindex (dims idx : list Z) : Z :=
  match dims, idx with
  | _ :: ds, i :: is => i * zprod ds + cindex ds is
  | _, _ => 0
  end.

(** [idx] is a valid multi-index of an array of shape [dims]. *)
Definition in_shape (dims idx : list Z) : Prop :=
  Forall2 (fun d i => 0 <= i < d) dims idx.

(** The entry of a C-ordered array. [d] is only used outside the shape. *)
Definition entry {A} (d : A) (dims : list Z) (vals : list A) (idx : list Z) : A :=
  nth (Z.to_nat (cindex dims idx)) vals d.

(** Every usize converts to the number type (true of f32, f64 and the reals). *)
Definition usize_converts {F} (o : Ops F) : Prop :=
  forall n, 0 <= n < two64 -> exists v, of_usize o n = Some v.

(** The product of the sizes, computed from left to right, never leaves usize. *)
Definition prefix_products_fit (dims : list Z) : Prop :=
  forall k, 0 <= zprod (firstn k dims) < two64.

(** What Rust's types guarantee about the arguments of a regular-grid constructor
    (at least one axis, one start and one step per axis, a slice is no longer than
    isize::MAX), plus: the size product is either checked or does not overflow. *)
Definition reg_input {F} (c : cfg) (dims : list Z) (starts steps vals : list F) : Prop :=
  (1 <= length dims)%nat /\ length starts = length dims /\ length steps = length dims /\
  zlen vals <= isize_max /\ (ovf_checks c = true \/ zprod dims < two64).

(** The same for rectilinear grids. *)
Definition rect_input {F} (c : cfg) (grids : list (list F)) (vals : list F) : Prop :=
  (1 <= length grids)%nat /\ zlen vals <= isize_max /\
  (ovf_checks c = true \/ zprod (map zlen grids) < two64).

(** The i-th point of a batch of observation arrays, one array per axis. *)
Definition point_of {F} (d : F) (obs : list (list F)) (i : nat) : list F :=
  map (fun xs => nth i xs d) obs.

(** What a batch evaluation must do, given the evaluation [one] of a single
    point: on success every output is the result of its own point; on failure the
    outcome is that of the first failing point i, the outputs before i are the
    results of their points and the outputs from i on are unchanged. *)
Definition batch_spec {F} (d : F) (one : list F -> outcome F) (obs : list (list F))
  (out : list F) (res : outcome unit) (out' : list F) : Prop :=
  length out' = length out /\
  let good j := one (point_of d obs j) = Ok (nth j out' d) in
  match res with
  | Ok _ => forall j, (j < length out)%nat -> good j
  | Err e => exists i, (i < length out)%nat /\ one (point_of d obs i) = Err e /\
               (forall j, (j < i)%nat -> good j) /\ skipn i out' = skipn i out
  | Panic => exists i, (i < length out)%nat /\ one (point_of d obs i) = Panic /\
               (forall j, (j < i)%nat -> good j) /\ skipn i out' = skipn i out
  end.

(** The points before point [i] of a batch evaluate to [vs] and point [i] fails with [e]. *)
Definition first_failure {F} (d : F) (one : list F -> outcome F) (obs : list (list F)) (out : list F)
  (i : nat) (vs : list F) (e : string) : Prop :=
  (i < length out)%nat /\ length vs = i /\
  (forall j, (j < i)%nat -> one (point_of d obs j) = Ok (nth j vs d)) /\
  one (point_of d obs i) = Err e.

(** [res] is [Ok a] if every check holds, and the error of the first failing check
    otherwise. *)
Fixpoint checks_in_order {A} (checks : list (Prop * string)) (res : outcome A) (a : A) : Prop :=
  match checks with
  | [] => res = Ok a
  | (P, msg) :: rest => (P -> checks_in_order rest res a) /\ (~ P -> res = Err msg)
  end.

(** [idx] lies in the box of [FP] consecutive nodes per axis starting at [os]. *)
Definition in_box (FP : Z) (os idx : list Z) : Prop :=
  Forall2 (fun o i => o <= i < o + FP) os idx.

(** The box of [FP] nodes per axis starting at [os] lies in the grid. *)
Definition box_in_grid (FP : Z) (dims os : list Z) : Prop :=
  Forall2 (fun d o => 0 <= o /\ o + FP <= d) dims os.

(** The first two coordinates of a grid exist and increase. *)
Definition first_two_increase {F} (o : Ops F) (g : list F) : Prop :=
  match g with g0 :: g1 :: _ => flt o g0 g1 = true | _ => False end.

(** The result of an allocating call, given what the in-place call did. *)
Definition alloc_of {F} (r : outcome unit * list F) : outcome (list F) :=
  match r with (Ok _, out) => Ok out | (Err e, _) => Err e | (Panic, _) => Panic end.

(** The coordinates of the grid node with multi-index [idx]. *)
Fixpoint grid_point {F} (d : F) (grids : list (list F)) (idx : list Z) : list F :=
  match grids, idx with
  | g :: gs, i :: is => nth (Z.to_nat i) g d :: grid_point d gs is
  | _, _ => []
  end.
