(** Choosing and joining observation points; the batch functions of the library. *)
From Coq Require Import List ZArith Bool.
From Verif Require Import Base Ops ModelCore ModelLinear ModelNearest ModelCubic.
Import ListNotations.
Unset Implicit Arguments.
Open Scope list_scope.

(** The elements of [xs] at the positions [js], in the order of [js]. *)
Definition select {A} (d : A) (js : list nat) (xs : list A) : list A := map (fun j => nth j xs d) js.
(** Arrays joined one by one: the points of the first batch, then those of the second. *)
Definition joined {A} (a b : list (list A)) : list (list A) := map (fun p => fst p ++ snd p) (combine a b).

(** The library's functions and methods that evaluate a batch of points, from the observation arrays
    and the output array to the outcome and the final contents of the output array: ten methods
    `interp` and ten functions `interpn`. *)
Inductive batch_function {F} (o : Ops F) (c : cfg) : (list (list F) -> list F -> outcome unit * list F) -> Prop :=
| b_linear_regular s : batch_function o c (mlr_interp o c s)
| b_linear_regular_recursive m s : batch_function o c (mlrr_interp o c m s)
| b_linear_rectilinear s : batch_function o c (mlc_interp o c s)
| b_linear_rectilinear_recursive m s : batch_function o c (mlcr_interp o c m s)
| b_nearest_regular s : batch_function o c (nr_interp o c s)
| b_nearest_rectilinear s : batch_function o c (nc_interp o c s)
| b_cubic_regular s : batch_function o c (mcr_interp o c s)
| b_cubic_regular_recursive m s : batch_function o c (mcrr_interp o c m s)
| b_cubic_rectilinear s : batch_function o c (mcc_interp o c s)
| b_cubic_rectilinear_recursive m s : batch_function o c (mccr_interp o c m s)
| b_interpn_linear_regular dims starts steps vals : batch_function o c (mlr_interpn o c dims starts steps vals)
| b_interpn_linear_regular_recursive dims starts steps vals : batch_function o c (mlrr_interpn o c dims starts steps vals)
| b_interpn_linear_rectilinear grids vals : batch_function o c (mlc_interpn o c grids vals)
| b_interpn_linear_rectilinear_recursive grids vals : batch_function o c (mlcr_interpn o c grids vals)
| b_interpn_nearest_regular dims starts steps vals : batch_function o c (nr_interpn o c dims starts steps vals)
| b_interpn_nearest_rectilinear grids vals : batch_function o c (nc_interpn o c grids vals)
| b_interpn_cubic_regular dims starts steps vals lin : batch_function o c (mcr_interpn o c dims starts steps vals lin)
| b_interpn_cubic_regular_recursive dims starts steps vals lin : batch_function o c (mcrr_interpn o c dims starts steps vals lin)
| b_interpn_cubic_rectilinear grids vals lin : batch_function o c (mcc_interpn o c grids vals lin)
| b_interpn_cubic_rectilinear_recursive grids vals lin : batch_function o c (mccr_interpn o c grids vals lin).
