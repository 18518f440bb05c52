(** src/nearest: nearest-neighbour interpolators. *)
From Verif Require Import Base Ops ModelCore ModelLinear.
Open Scope string_scope.
Open Scope Z_scope.

Definition msg_max6 := "Dimension exceeds maximum (6).".

Section Nearest.
Context {F : Type} (o : Ops F) (c : cfg).

(** `half`: src/nearest/regular.rs:251-252, src/nearest/rectilinear.rs:203-204. *)
Definition half : F := let two := fadd o (fone o) (fone o) in fdiv o (fone o) two.

(** `if dt <= half { 0 } else { 1 }`: src/nearest/regular.rs:283-287,
    src/nearest/rectilinear.rs:229-233. *)
Definition nearest_offset (dt : F) : Z := if fle o dt half then 0 else 1.

(** src/nearest/regular.rs:163-197 new: same text as MultilinearRegular::new. *)
Definition nr_new (dims : list Z) (starts steps vals : list F) : outcome (regular F) :=
  mlr_new o c dims starts steps vals.

(** src/nearest/regular.rs:234-295 interp_one. *)
Definition nr_interp_one (s : regular F) (x : list F) : outcome F :=
  do (dimprod, loc) <- flat_setup c (r_dims s) (fun i =>
       do xi <- aget x i ;
       do origin <- reg_get_loc o s xi i ;
       do dt <- reg_dt o (use_fma c) s xi i origin ;
       usize_add c origin (nearest_offset dt)) ;
  index_arr c loc dimprod (r_vals s).

(** src/nearest/regular.rs:206-221 interp. *)
Definition nr_interp (s : regular F) := interp_batch (length (r_dims s)) (nr_interp_one s).

(** src/nearest/regular.rs:41-101 interpn. *)
Definition nr_interpn (dims : list Z) (starts steps vals : list F)
  (obs : list (list F)) (out : list F) : outcome unit * list F :=
  let ndims := length dims in
  if negb (length starts =? ndims)%nat || negb (length steps =? ndims)%nat
     || negb (length obs =? ndims)%nat then (Err msg_dim, out)
  else if (1 <=? ndims)%nat && (ndims <=? 6)%nat then
    and_then (do d <- try_into_unwrap ndims dims ;
              do st <- try_into_unwrap ndims starts ;
              do sp <- try_into_unwrap ndims steps ;
              nr_new d st sp vals) out
      (fun s => and_then (try_into_unwrap ndims obs) out (fun ob => nr_interp s ob out))
  else (Err msg_max6, out).

(** src/nearest/regular.rs:108-118 interpn_alloc. *)
Definition nr_interpn_alloc dims starts steps vals obs : outcome (list F) :=
  do out <- alloc_zeros o obs ; alloc_result (nr_interpn dims starts steps vals obs out).

(** src/nearest/rectilinear.rs:124-150 new: same text as MultilinearRectilinear::new. *)
Definition nc_new (grids : list (list F)) (vals : list F) : outcome (rectilinear F) :=
  mlc_new o c grids vals.

(** src/nearest/rectilinear.rs:193-241 interp_one. *)
Definition nc_interp_one (s : rectilinear F) (x : list F) : outcome F :=
  do (dimprod, loc) <- flat_setup c (g_dims s) (fun i =>
       do xi <- aget x i ;
       do origin <- rect_get_loc o c s xi i ;
       do dt <- rect_dt o c s xi i origin ;
       usize_add c origin (nearest_offset dt)) ;
  index_arr c loc dimprod (g_vals s).

(** src/nearest/rectilinear.rs:159-180 interp. *)
Definition nc_interp (s : rectilinear F) := interp_batch (length (g_dims s)) (nc_interp_one s).

(** src/nearest/rectilinear.rs:39-66 interpn. *)
Definition nc_interpn (grids : list (list F)) (vals : list F)
  (obs : list (list F)) (out : list F) : outcome unit * list F :=
  let ndims := length grids in
  if negb (length obs =? ndims)%nat then (Err msg_dim, out)
  else if (1 <=? ndims)%nat && (ndims <=? 6)%nat then
    and_then (do g <- try_into_unwrap ndims grids ; nc_new g vals) out
      (fun s => and_then (try_into_unwrap ndims obs) out (fun ob => nc_interp s ob out))
  else (Err msg_max6, out).

(** src/nearest/rectilinear.rs:73-81 interpn_alloc. *)
Definition nc_interpn_alloc grids vals obs : outcome (list F) :=
  do out <- alloc_zeros o obs ; alloc_result (nc_interpn grids vals obs out).

End Nearest.
