(** The Python package: src/python.rs (bindings) and src/interpn/*.py.

    Here all arrays of a call have the same element type, f32 or f64, one instance of [Ops]
    each; ModelSerial.v adds element types and JSON. Not modelled: aliasing of output and
    inputs (refused by PyO3's borrow check). Arrays are contiguous here; ModelLayout.v adds
    other layouts. *)
From Verif Require Import Base Ops ModelCore ModelLinear ModelNearest ModelCubic.
Open Scope string_scope.
Open Scope Z_scope.

(** A raised exception. A Rust panic reaches Python as PanicException. *)
Inductive py_exc :=
| AssertionError (msg : string) | ValueError | IndexError | OverflowError | PanicException
| TypeError | ValidationError.

Inductive py (A : Type) := Ret (a : A) | Raise (e : py_exc).
Arguments Ret {A} a. Arguments Raise {A} e.

Definition py_bind {A B} (m : py A) (f : A -> py B) : py B :=
  match m with Ret a => f a | Raise e => Raise e end.
Notation "'py_do' x <- m ; f" := (py_bind m (fun x => f))
  (at level 200, x pattern, m at level 100, f at level 200, right associativity) : out_scope.

(** A numpy array: shape and elements in C order. *)
Record ndarray (F : Type) := mkNd { nd_shape : list nat; nd_data : list F }.
Arguments mkNd {F}. Arguments nd_shape {F}. Arguments nd_data {F}.

Section Python.
Context {F : Type} (o : Ops F) (c : cfg).

(** `match interpn(..) { Ok(()) => Ok(()), Err(msg) => Err(PyAssertionError) }`, e.g.
    src/python.rs:69-79. *)
Definition raw_result {A} (r : outcome unit * list A) : py unit * list A :=
  match r with
  | (Ok _, out) => (Ret tt, out)
  | (Err msg, out) => (Raise (AssertionError msg), out)
  | (Panic, out) => (Raise PanicException, out)
  end.

(** src/python.rs:41-53 unpack_vec_of_arr: writing `_arr[i]` panics for i >= 8. *)
Definition unpack_ok {A} (l : list A) : bool := (length l <=? 8)%nat.

(** `dims: Vec<usize>`: a negative Python int is an OverflowError. *)
Definition dims_ok (dims : list Z) : bool := forallb (fun d => 0 <=? d) dims.

(** src/python.rs:55-82. *)
Definition raw_linear_regular dims starts steps vals obs out : py unit * list F :=
  if negb (dims_ok dims) then (Raise OverflowError, out)
  else if negb (unpack_ok obs) then (Raise PanicException, out)
  else raw_result (mlr_interpn o c dims starts steps vals obs out).
(** src/python.rs:87-114. *)
Definition raw_check_bounds_regular dims starts steps obs atol out : py unit * list bool :=
  if negb (dims_ok dims) then (Raise OverflowError, out)
  else if negb (unpack_ok obs) then (Raise PanicException, out)
  else raw_result (mlr_check_bounds o c dims starts steps obs atol out).
(** src/python.rs:119-144. *)
Definition raw_linear_rectilinear (grids : list (list F)) vals (obs : list (list F)) out : py unit * list F :=
  if negb (unpack_ok grids && unpack_ok obs) then (Raise PanicException, out)
  else raw_result (mlc_interpn o c grids vals obs out).
(** src/python.rs:149-175. *)
Definition raw_nearest_regular dims starts steps vals obs out : py unit * list F :=
  if negb (dims_ok dims) then (Raise OverflowError, out)
  else if negb (unpack_ok obs) then (Raise PanicException, out)
  else raw_result (nr_interpn o c dims starts steps vals obs out).
(** src/python.rs:180-198. *)
Definition raw_nearest_rectilinear (grids : list (list F)) vals (obs : list (list F)) out : py unit * list F :=
  if negb (unpack_ok grids && unpack_ok obs) then (Raise PanicException, out)
  else raw_result (nc_interpn o c grids vals obs out).
(** src/python.rs:203-223. *)
Definition raw_check_bounds_rectilinear (grids obs : list (list F)) atol out : py unit * list bool :=
  if negb (unpack_ok grids && unpack_ok obs) then (Raise PanicException, out)
  else raw_result (mlc_check_bounds o grids obs atol out).
(** src/python.rs:228-257. *)
Definition raw_cubic_regular dims starts steps vals lin obs out : py unit * list F :=
  if negb (dims_ok dims) then (Raise OverflowError, out)
  else if negb (unpack_ok obs) then (Raise PanicException, out)
  else raw_result (mcr_interpn o c dims starts steps vals lin obs out).
(** src/python.rs:262-289. *)
Definition raw_cubic_rectilinear (grids : list (list F)) vals lin (obs : list (list F)) out : py unit * list F :=
  if negb (unpack_ok grids && unpack_ok obs) then (Raise PanicException, out)
  else raw_result (mcc_interpn o c grids vals lin obs out).

(** `l[k]` on a numpy array. *)
Definition py_get {A} (l : list A) (k : nat) : py A :=
  match nth_error l k with Some a => Ret a | None => Raise IndexError end.

Fixpoint py_map {A B} (f : A -> py B) (l : list A) : py (list B) :=
  match l with
  | [] => Ret []
  | a :: t => py_do b <- f a ; py_do bs <- py_map f t ; Ret (b :: bs)
  end.

(** np.diff *)
Definition np_diff (g : list F) : list F := map (fun p => fsub o (snd p) (fst p)) (combine g (tl g)).

(** `==` on floats (false for NaN). *)
Definition feq (a b : F) : bool := fle o a b && fle o b a.

(** src/interpn/__init__.py:197-203 _check_regular; `dgrid[0]` raises on a grid with fewer than
    two points, unless an earlier grid was irregular (`and` is lazy). *)
Fixpoint check_regular_from (acc : bool) (grids : list (list F)) : py bool :=
  match grids with
  | [] => Ret acc
  | g :: gs =>
      let dgrid := np_diff g in
      py_do acc' <- (if acc then py_do d0 <- py_get dgrid 0 ; Ret (forallb (fun d => feq d d0) dgrid)
                     else Ret false) ;
      check_regular_from acc' gs
  end.
Definition check_regular : list (list F) -> py bool := check_regular_from true.

(** `out or np.zeros_like(obs[0])`, src/interpn/__init__.py:86. The truth value of an array with
    one element is that of the element (NaN is true); it raises ValueError for more elements.
    For no elements it is False, as in NumPy before 2.2. The boolean says whether the caller's
    buffer is the one used. *)
Definition choose_out (out : option (ndarray F)) (obs : list (ndarray F)) : py (ndarray F * bool) :=
  let fresh := py_do o0 <- py_get obs 0 ;
               Ret (mkNd (nd_shape o0) (repeat (fzero o) (length (nd_data o0))), false) in
  match out with
  | None => fresh
  | Some b => match nd_data b with
              | [] => fresh
              | [v] => if feq v (fzero o) then fresh else Ret (b, true)
              | _ => Raise ValueError
              end
  end.

(** The `match (dtype, is_regular, method)`, src/interpn/__init__.py:135-192; one column (f32 or
    f64) of it per instance of [Ops]. *)
Definition py_dispatch (is_regular : bool) (method : string) (dims : list Z) (starts steps : list F)
  (grids : list (list F)) (vals : list F) (lin : bool) (obs : list (list F)) (out : list F)
  : py unit * list F :=
  if String.eqb method "linear" then
    if is_regular then raw_linear_regular dims starts steps vals obs out
    else raw_linear_rectilinear grids vals obs out
  else if String.eqb method "nearest" then
    if is_regular then raw_nearest_regular dims starts steps vals obs out
    else raw_nearest_rectilinear grids vals obs out
  else if String.eqb method "cubic" then
    if is_regular then raw_cubic_regular dims starts steps vals lin obs out
    else raw_cubic_rectilinear grids vals lin obs out
  else (Raise ValueError, out).

(** The bounds check, src/interpn/__init__.py:115-133. `np.zeros_like(out.shape, dtype=bool)` is an
    array like the tuple `out.shape`, which has one entry because `out` was flattened. *)
Definition py_check_bounds (is_regular : bool) dims starts steps (grids obs : list (list F)) atol : py unit :=
  let outb := [false] in
  let (r, outb') := if is_regular then raw_check_bounds_regular dims starts steps obs atol outb
                    else raw_check_bounds_rectilinear grids obs atol outb in
  py_do _ <- r ;
  if existsb (fun b => b) outb' then Raise ValueError else Ret tt.

(** src/interpn/__init__.py:48-194 interpn, for arrays of element type f32 or f64. Second
    component: the final contents of the caller's buffer. *)
Definition py_interpn (obs grids : list (ndarray F)) (vals : ndarray F) (method : string)
  (out : option (ndarray F)) (lin assume_regular check_bounds : bool) (atol : F)
  : py (ndarray F) * option (list F) :=
  let buffer := option_map nd_data out in
  let prepared :=
    py_do (out1, own) <- choose_out out obs ;
    let obs' := map nd_data obs in
    let grids' := map nd_data grids in
    py_do is_regular <- (if assume_regular then Ret true else check_regular grids') ;
    py_do (dims, starts, steps) <-
      (if is_regular then
         py_do starts <- py_map (fun g => py_get g 0) grids' ;
         py_do steps <- py_map (fun g => py_do g1 <- py_get g 1 ; py_do g0 <- py_get g 0 ;
                                          Ret (fsub o g1 g0)) grids' ;
         Ret (map zlen grids', starts, steps)
       else Ret ([], [], [])) ;
    py_do _ <- (if check_bounds then py_check_bounds is_regular dims starts steps grids' obs' atol
                else Ret tt) ;
    Ret (out1, own, py_dispatch is_regular method dims starts steps grids' (nd_data vals) lin obs' (nd_data out1)) in
  match prepared with
  | Raise e => (Raise e, buffer)
  | Ret (out1, own, (r, data)) =>
      (py_do _ <- r ; Ret (mkNd (nd_shape out1) data), if own then Some data else buffer)
  end.

(** ** The wrapper classes *)

Definition py_prod (dims : list Z) : Z := fold_right Z.mul 1 dims.

(** `_validate_model` of MultilinearRegular (src/interpn/multilinear_regular.py:74-96),
    MulticubicRegular (multicubic_regular.py:94-116) with [maxd] = 8, NearestRegular
    (nearest_regular.py:73-98) with [maxd] = 6. Python integers do not overflow. *)
Definition class_regular_ok (maxd : nat) (dims : list Z) (starts steps vals : list F) : bool :=
  let ndims := length dims in
  ((ndims <=? maxd)%nat && (1 <=? ndims)%nat) && (length starts =? ndims)%nat && (length steps =? ndims)%nat
  && (zlen vals =? py_prod dims) && forallb (fun h => flt o (fzero o) h) steps.

(** The same for the rectilinear classes: multilinear_rectilinear.py:67-89,
    multicubic_rectilinear.py:84-106 ([maxd] = 8), nearest_rectilinear.py:66-88 ([maxd] = 6). *)
Definition class_rectilinear_ok (maxd : nat) (grids : list (list F)) (vals : list F) : bool :=
  let ndims := length grids in
  ((ndims <=? maxd)%nat && (1 <=? ndims)%nat) && (zlen vals =? py_prod (map zlen grids))
  && forallb (fun g => forallb (fun d => flt o (fzero o) d) (np_diff g)) grids.

(** `eval` of the classes: `out_inner = out if out is not None else np.zeros_like(obs[0])`, then
    the binding. e.g. src/interpn/multilinear_regular.py:101-168. [raw] is the binding applied to
    the stored data. *)
Definition class_eval (raw : list (list F) -> list F -> py unit * list F)
  (obs : list (list F)) (out : option (list F)) : py (list F) :=
  py_do out_inner <- match out with
                     | Some b => Ret b
                     | None => py_do o0 <- py_get obs 0 ; Ret (repeat (fzero o) (length o0))
                     end ;
  let (r, data) := raw obs out_inner in
  py_do _ <- r ; Ret data.

(** `check_bounds` of the classes: one flag per dimension.
    e.g. src/interpn/multilinear_regular.py:170-212. *)
Definition class_check_bounds (ndims : nat) (raw : list (list F) -> F -> list bool -> py unit * list bool)
  (obs : list (list F)) (atol : F) : py (list bool) :=
  let (r, flags) := raw obs atol (repeat false ndims) in
  py_do _ <- r ; Ret flags.
End Python.
