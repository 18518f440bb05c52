(** Nearest and step interpolation never compute with the values (C103). *)
From Coq Require Import PeanoNat Bool Lia List ZArith.
From Flocq Require Import Core.Core IEEE754.BinarySingleNaN.
From Verif Require Import Base Ops FInst ModelCore ModelLinear ModelNearest ModelOneDim ModelPython SpecRelabel Relabel ExampleData.
Import ListNotations.
Open Scope list_scope.
Open Scope Z_scope.
Unset Implicit Arguments.

(** * C103: replacing every value [v] of the data by [g v] replaces every result [r] by [g r] and changes
    nothing else: neither which calls fail, nor how, nor which node is chosen. For every number type and
    every function [g], also when the arguments are not valid. *)

(** ** The nearest functions, filling an array or allocating it *)
Theorem C103_nearest : forall F (o : Ops F) c (g : F -> F),
  (forall dims starts steps vals obs out,
     nr_interpn o c dims starts steps (map g vals) obs (map g out) =
     relabel_array g (nr_interpn o c dims starts steps vals obs out)) /\
  (forall dims starts steps vals obs,
     nr_interpn_alloc o c dims starts steps (map g vals) obs = relabel (map g) (nr_interpn_alloc o c dims starts steps vals obs)) /\
  (forall grids vals obs out,
     nc_interpn o c grids (map g vals) obs (map g out) = relabel_array g (nc_interpn o c grids vals obs out)) /\
  (forall grids vals obs,
     nc_interpn_alloc o c grids (map g vals) obs = relabel (map g) (nc_interpn_alloc o c grids vals obs)).
Proof.
  intros F o c g. split; [exact (nr_interpn_relabel o c g)|]. split; [exact (nr_alloc_relabel o c g)|].
  split; [exact (nc_interpn_relabel o c g)|exact (nc_alloc_relabel o c g)].
Qed.
Print Assumptions C103_nearest.

(** ** One point at a time: building the interpolator and asking it for a value *)
Theorem C103_one_point : forall F (o : Ops F) c (g : F -> F),
  (forall dims starts steps vals x,
     (do s <- nr_new o c dims starts steps (map g vals) ; nr_interp_one o c s x) =
     relabel g (do s <- nr_new o c dims starts steps vals ; nr_interp_one o c s x)) /\
  (forall grids vals x,
     (do s <- nc_new o c grids (map g vals) ; nc_interp_one o c s x) =
     relabel g (do s <- nc_new o c grids vals ; nc_interp_one o c s x)).
Proof.
  intros F o c g. split; intros.
  - rewrite nr_new_relabel. destruct (nr_new o c dims starts steps vals); simpl; auto. apply nr_one_relabel.
  - rewrite nc_new_relabel. destruct (nc_new o c grids vals); simpl; auto. apply nc_one_relabel.
Qed.
Print Assumptions C103_one_point.

(** ** The 1-D interpolators that return a value of the data: left, right and nearest *)
Theorem C103_one_dim : forall F (o : Ops F) c (g : F -> F) (pick : (F -> outcome (grid_sample F)) -> F -> outcome F),
  pick = left1 \/ pick = right1 \/ pick = nearest1 o ->
  (forall start step vals locs out,
     and_then (r1_new o c start step (map g vals)) (map g out) (fun s => eval1 (pick (r1_at o c s)) locs (map g out)) =
     relabel_array g (and_then (r1_new o c start step vals) out (fun s => eval1 (pick (r1_at o c s)) locs out))) /\
  (forall start step vals locs,
     (do s <- r1_new o c start step (map g vals) ; eval1_alloc o (pick (r1_at o c s)) locs) =
     relabel (map g) (do s <- r1_new o c start step vals ; eval1_alloc o (pick (r1_at o c s)) locs)) /\
  (forall grid vals locs out,
     and_then (c1_new grid (map g vals)) (map g out) (fun s => eval1 (pick (c1_at o c s)) locs (map g out)) =
     relabel_array g (and_then (c1_new grid vals) out (fun s => eval1 (pick (c1_at o c s)) locs out))) /\
  (forall grid vals locs,
     (do s <- c1_new grid (map g vals) ; eval1_alloc o (pick (c1_at o c s)) locs) =
     relabel (map g) (do s <- c1_new grid vals ; eval1_alloc o (pick (c1_at o c s)) locs)).
Proof.
  intros F o c g pick Hp.
  assert (P : forall at_ at', (forall loc, at' loc = relabel (relabel_sample g) (at_ loc)) ->
    forall loc, pick at' loc = relabel g (pick at_ loc)).
  { destruct Hp as [-> | [-> | ->]]; intros at_ at' H; [apply left1_relabel|apply right1_relabel|apply nearest1_relabel]; exact H. }
  repeat split; intros.
  - rewrite r1_new_relabel. destruct (r1_new o c start step vals); simpl; auto. apply eval1_relabel, P. apply r1_at_relabel.
  - rewrite r1_new_relabel. destruct (r1_new o c start step vals); simpl; auto. apply eval1_alloc_relabel, P. apply r1_at_relabel.
  - rewrite c1_new_relabel. destruct (c1_new grid vals); simpl; auto. apply eval1_relabel, P. apply c1_at_relabel.
  - rewrite c1_new_relabel. destruct (c1_new grid vals); simpl; auto. apply eval1_alloc_relabel, P. apply c1_at_relabel.
Qed.
Print Assumptions C103_one_dim.

(** ** The Python classes NearestRegular and NearestRectilinear, and the function interpn *)
Theorem C103_python : forall F (o : Ops F) c (g : F -> F),
  (forall dims starts steps vals obs out,
     class_eval o (raw_nearest_regular o c dims starts steps (map g vals)) obs out =
     relabel_py (map g) (class_eval o (raw_nearest_regular o c dims starts steps vals) obs out)) /\
  (forall grids vals obs out,
     class_eval o (raw_nearest_rectilinear o c grids (map g vals)) obs out =
     relabel_py (map g) (class_eval o (raw_nearest_rectilinear o c grids vals) obs out)) /\
  (forall obs grids vals out lin assume cb atol,
     fst (py_interpn o c obs grids (relabel_nd g vals) "nearest" out lin assume cb atol) =
     relabel_py (relabel_nd g) (fst (py_interpn o c obs grids vals "nearest" out lin assume cb atol))).
Proof.
  intros F o c g. split; [|split].
  - intros. apply class_relabel. intros. apply raw_nr_relabel.
  - intros. apply class_relabel. intros. apply raw_nc_relabel.
  - exact (py_nearest_relabel o c g).
Qed.
Print Assumptions C103_python.

(** ** Instances in double precision *)
(** Any labels: here 5 becomes not-a-number and every other value its negation. *)
Definition odd_label (v : f64) : f64 := if Beqb v (z64 5) then B754_nan else Bopp v.
Definition rl_obs : list (list f64) := [[z64 0; z64 9; z64 1]; [z64 0; z64 1; z64 1]].
Definition rl_data : list f64 := [z64 3; z64 4; z64 8; z64 5].
Definition same_bits (x y : f64) : bool :=
  match x, y with B754_nan, B754_nan => true | B754_nan, _ => false | _, B754_nan => false | _, _ => Beqb x y end.
Definition all_bits (r : outcome (list f64)) (l : list f64) : bool :=
  match r with Ok l' => (length l' =? length l)%nat && forallb (fun p => same_bits (fst p) (snd p)) (combine l' l) | _ => false end.
Example C103_nearest_ex :
  all_bits (nr_interpn_alloc F64Ops plain [2; 2] [z64 0; z64 0] [z64 2; z64 2] rl_data rl_obs) [z64 3; z64 8; z64 3] = true /\
  all_bits (nr_interpn_alloc F64Ops plain [2; 2] [z64 0; z64 0] [z64 2; z64 2] (map odd_label rl_data) rl_obs)
    [z64 (-3); z64 (-8); z64 (-3)] = true /\
  all_bits (nc_interpn_alloc F64Ops plain [[z64 0; z64 2]; [z64 (-3); z64 1]] rl_data rl_obs) [z64 4; z64 5; z64 4] = true /\
  all_bits (relabel (map odd_label) (nc_interpn_alloc F64Ops plain [[z64 0; z64 2]; [z64 (-3); z64 1]] rl_data rl_obs))
    [z64 (-4); B754_nan; z64 (-4)] = true /\
  nc_interpn_alloc F64Ops plain [[z64 0; z64 2]; [z64 (-3); z64 1]] (map odd_label rl_data) rl_obs =
    relabel (map odd_label) (nc_interpn_alloc F64Ops plain [[z64 0; z64 2]; [z64 (-3); z64 1]] rl_data rl_obs).
Proof.
  split; [vm_compute; reflexivity|]. split; [vm_compute; reflexivity|]. split; [vm_compute; reflexivity|]. split; [vm_compute; reflexivity|].
  apply (C103_nearest f64 F64Ops plain odd_label).
Qed.
(** Without the labels the call fails, and with them it fails the same way. *)
Example C103_failing_ex :
  fst (nc_interpn F64Ops plain [[z64 0; z64 2]; [z64 1; z64 1]] (map odd_label rl_data) rl_obs (map odd_label [z64 7; z64 5; z64 7])) = Err msg_mono /\
  snd (nc_interpn F64Ops plain [[z64 0; z64 2]; [z64 1; z64 1]] (map odd_label rl_data) rl_obs (map odd_label [z64 7; z64 5; z64 7])) =
    map odd_label (snd (nc_interpn F64Ops plain [[z64 0; z64 2]; [z64 1; z64 1]] rl_data rl_obs [z64 7; z64 5; z64 7])).
Proof.
  destruct (C103_nearest f64 F64Ops plain odd_label) as (_ & _ & H & _). rewrite H. split; [|reflexivity].
  vm_compute. reflexivity.
Qed.
Example C103_one_dim_ex :
  all_bits (do s <- c1_new [z64 0; z64 2; z64 5] [z64 3; z64 5; z64 8] ; eval1_alloc F64Ops (left1 (c1_at F64Ops plain s)) [z64 1; z64 3; z64 9])
    [z64 3; z64 5; z64 8] = true /\
  all_bits (do s <- c1_new [z64 0; z64 2; z64 5] (map odd_label [z64 3; z64 5; z64 8]) ; eval1_alloc F64Ops (left1 (c1_at F64Ops plain s)) [z64 1; z64 3; z64 9])
    [z64 (-3); B754_nan; z64 (-8)] = true /\
  (do s <- r1_new F64Ops plain (z64 0) (z64 2) (map odd_label [z64 3; z64 5; z64 8]) ; eval1_alloc F64Ops (nearest1 F64Ops (r1_at F64Ops plain s)) [z64 1; z64 3]) =
  relabel (map odd_label) (do s <- r1_new F64Ops plain (z64 0) (z64 2) [z64 3; z64 5; z64 8] ; eval1_alloc F64Ops (nearest1 F64Ops (r1_at F64Ops plain s)) [z64 1; z64 3]).
Proof.
  split; [vm_compute; reflexivity|]. split; [vm_compute; reflexivity|].
  apply (C103_one_dim f64 F64Ops plain odd_label (nearest1 F64Ops)). right. right. reflexivity.
Qed.
Definition py_bits (r : py (ndarray f64)) (l : list f64) : bool := match r with Ret a => all_bits (Ok (nd_data a)) l | _ => false end.
Definition rl_nd (l : list f64) : ndarray f64 := mkNd [length l] l.
Example C103_python_ex :
  let call vals := fst (py_interpn F64Ops plain (map rl_nd rl_obs) (map rl_nd [[z64 0; z64 2]; [z64 (-3); z64 1]]) vals "nearest" None true false false (z64 0)) in
  py_bits (call (rl_nd rl_data)) [z64 4; z64 5; z64 4] = true /\
  py_bits (call (relabel_nd odd_label (rl_nd rl_data))) [z64 (-4); B754_nan; z64 (-4)] = true /\
  call (relabel_nd odd_label (rl_nd rl_data)) = relabel_py (relabel_nd odd_label) (call (rl_nd rl_data)).
Proof.
  intros call. split; [vm_compute; reflexivity|]. split; [vm_compute; reflexivity|].
  apply (C103_python f64 F64Ops plain odd_label).
Qed.
