(** Element types of the Python package and its JSON serialisation:
    src/interpn/serialization.py and the typed parts of src/interpn/*.py and src/python.rs.

    Arrays are one-dimensional and contiguous. A JSON document is modelled as a value, not as
    text: that json.dumps / json.loads and pydantic write and read back every integer and every
    float (also NaN and infinities) unchanged is trusted. *)
From Flocq Require Import IEEE754.BinarySingleNaN.
From Verif Require Import Base Ops FInst ModelCore ModelPython.
Unset Implicit Arguments.
Open Scope string_scope.
Open Scope Z_scope.

(** ** Element types *)

(** C conversion between floating-point formats, round to nearest even (numpy `astype`). *)
Definition convert (p e p' e' : Z) (Hp : FLX.Prec_gt_0 p') (He : Prec_lt_emax p' e')
  (x : binary_float p e) : binary_float p' e' :=
  match x with
  | B754_nan => B754_nan
  | B754_infinity s => B754_infinity s
  | B754_zero s => B754_zero s
  | B754_finite s m ex _ => binary_normalize p' e' Hp He mode_NE (SpecFloat.cond_Zopp s (Zpos m)) ex s
  end.
Definition widen : f32 -> f64 := convert 24 128 53 1024 Hp64 He64.
Definition narrow : f64 -> f32 := convert 53 1024 24 128 Hp32 He32.
Definition int_to_f64 (z : Z) : f64 := f64_lit z 0.
Definition int_to_f32 (z : Z) : f32 := f32_lit z 0.

Inductive dtype := Float32 | Float64.

(** src/interpn/serialization.py:18-77: ArrayF32 / ArrayF64, an array of one of two types. *)
Inductive array := F32Array (l : list f32) | F64Array (l : list f64).

(** A numpy array as a caller may pass it; integer arrays stand for all other element types. *)
Inductive nparray := NpFloat (a : array) | NpInt (l : list Z).

Definition dtype_of (a : array) : dtype := match a with F32Array _ => Float32 | F64Array _ => Float64 end.
Definition asize (a : array) : nat :=
  match a with F32Array l => length l | F64Array l => length l end.
Definition dtype_eqb (a b : dtype) : bool :=
  match a, b with Float32, Float32 | Float64, Float64 => true | _, _ => false end.

(** What the code does for one element type: the operations, and PyO3's typed view of an array
    (None is a TypeError). One instance per `$T` of src/python.rs. *)
Record format := mkFormat {
  elt : Type; fmt_ops : Ops elt;
  view : array -> option (list elt);
  wrap : list elt -> array;
  from_f32 : f32 -> elt; from_f64 : f64 -> elt; from_int : Z -> elt }.
Definition format32 : format :=
  mkFormat f32 F32Ops (fun a => match a with F32Array l => Some l | F64Array _ => None end) F32Array
    (fun x => x) narrow int_to_f32.
Definition format64 : format :=
  mkFormat f64 F64Ops (fun a => match a with F64Array l => Some l | F32Array _ => None end) F64Array
    widen (fun x => x) int_to_f64.
Definition format_of (d : dtype) : format := match d with Float32 => format32 | Float64 => format64 end.

Definition np_view (f : format) (x : nparray) : option (list (elt f)) :=
  match x with NpFloat a => view f a | NpInt _ => None end.

(** `x.astype(dtype)`: src/interpn/serialization.py:33, 64. *)
Definition astype (f : format) (x : nparray) : list (elt f) :=
  match x with
  | NpFloat (F32Array l) => map (from_f32 f) l
  | NpFloat (F64Array l) => map (from_f64 f) l
  | NpInt l => map (from_int f) l
  end.
(** `ArrayF32(data=x)`, `ArrayF64(data=x)`. *)
Definition store (d : dtype) (x : nparray) : array := wrap (format_of d) (astype (format_of d) x).
(** `arrtype = ArrayF64 if vals.dtype == np.float64 else ArrayF32`, e.g.
    src/interpn/multilinear_regular.py:63. *)
Definition arrtype (vals : nparray) : dtype :=
  match vals with NpFloat (F64Array _) => Float64 | _ => Float32 end.

(** ** JSON *)

(** [JText j] is a string holding the JSON text of [j]; [JString] any other string. *)
Inductive json :=
| JNull | JBool (b : bool) | JInt (z : Z) | JFloat (x : f64) | JString (s : string)
| JText (j : json) | JList (l : list json) | JObj (l : list (string * json)).

(** `.tolist()`: a list of Python floats. *)
Definition tolist (a : array) : list f64 :=
  match a with F32Array l => map widen l | F64Array l => l end.
Definition dtype_name (d : dtype) : string := match d with Float32 => "float32" | Float64 => "float64" end.

(** src/interpn/serialization.py:41-43, 72-74: `_serialize_x`. *)
Definition dump_array (a : array) : json :=
  JObj [("data", JText (JList (map JFloat (tolist a)))); ("dtype", JString (dtype_name (dtype_of a)))].

(** One element of the list given to `np.array(.., dtype=..)`. Nested lists (data with several
    dimensions) and numbers written as strings are not modelled: they are refused here. *)
Definition number (j : json) : py f64 :=
  match j with
  | JFloat x => Ret x
  | JInt z => let x := int_to_f64 z in if is_finite x then Ret x else Raise OverflowError
  | JBool b => Ret (int_to_f64 (if b then 1 else 0))
  | JNull => Ret B754_nan
  | _ => Raise ValueError
  end.

(** Members of an object (`extra="forbid"`: no others). Which of two members with the same key
    pydantic uses is not modelled: here it is the first, and the theorems about documents exclude
    them. *)
Definition member (k : string) (l : list (string * json)) : option json :=
  option_map snd (find (fun p => String.eqb (fst p) k) l).
Definition only (keys : list string) (l : list (string * json)) : bool :=
  forallb (fun p => existsb (String.eqb (fst p)) keys) l.

(** src/interpn/serialization.py:28-39, 59-70 (`_validate_x`) and :77 (discriminator "dtype"). *)
Definition load_array (j : json) : py array :=
  match j with
  | JObj l =>
      if only ["data"; "dtype"] l then
        match member "dtype" l, member "data" l with
        | Some (JString s), Some data =>
            py_do d <- (if String.eqb s "float32" then Ret Float32
                        else if String.eqb s "float64" then Ret Float64 else Raise ValidationError) ;
            py_do items <- match data with
                           | JText (JList items) | JList items => Ret items
                           | JText _ => Raise ValueError
                           | _ => Raise TypeError
                           end ;
            py_do xs <- py_map number items ;
            Ret (match d with Float32 => F32Array (map narrow xs) | Float64 => F64Array xs end)
        | _, _ => Raise ValidationError
        end
      else Raise ValidationError
  | _ => Raise ValidationError
  end.

(** ** The classes *)

Inductive family := Multilinear | Nearest | Multicubic.

(** Fields of MultilinearRegular, NearestRegular, MulticubicRegular; `linearize_extrapolation`
    only in the last. *)
Record regular_model := RegModel {
  rm_dims : list Z; rm_starts : array; rm_steps : array; rm_vals : array; rm_lin : option bool }.
(** Fields of MultilinearRectilinear, NearestRectilinear, MulticubicRectilinear. *)
Record rectilinear_model := RectModel { cm_grids : list array; cm_vals : array; cm_lin : option bool }.

Definition has_fields (fam : family) (lin : option bool) : bool :=
  match fam, lin with Multicubic, Some _ => true | Multilinear, None | Nearest, None => true | _, _ => false end.
Definition maxdims (fam : family) : nat := match fam with Nearest => 6%nat | _ => 8%nat end.

Definition all_positive (a : array) : bool :=
  match a with
  | F32Array l => forallb (fun h => flt F32Ops (fzero F32Ops) h) l
  | F64Array l => forallb (fun h => flt F64Ops (fzero F64Ops) h) l
  end.
Definition ascending (a : array) : bool :=
  match a with
  | F32Array l => forallb (fun d => flt F32Ops (fzero F32Ops) d) (np_diff F32Ops l)
  | F64Array l => forallb (fun d => flt F64Ops (fzero F64Ops) d) (np_diff F64Ops l)
  end.

(** `_validate_model`: src/interpn/multilinear_regular.py:74-96, multicubic_regular.py:94-116,
    nearest_regular.py:73-98. Only the last one compares the element type of `starts`. *)
Definition regular_valid (fam : family) (m : regular_model) : bool :=
  let ndims := length (rm_dims m) in
  let same a := dtype_eqb (dtype_of a) (dtype_of (rm_vals m)) in
  (ndims <=? maxdims fam)%nat && (1 <=? ndims)%nat
  && (asize (rm_starts m) =? ndims)%nat && (asize (rm_steps m) =? ndims)%nat
  && (Z.of_nat (asize (rm_vals m)) =? py_prod (rm_dims m))
  && all_positive (rm_steps m)
  && (match fam with Nearest => same (rm_starts m) | _ => true end) && same (rm_steps m).

(** multilinear_rectilinear.py:67-89, multicubic_rectilinear.py:84-106,
    nearest_rectilinear.py:66-88. *)
Definition rectilinear_valid (fam : family) (m : rectilinear_model) : bool :=
  let ndims := length (cm_grids m) in
  (ndims <=? maxdims fam)%nat && (1 <=? ndims)%nat
  && (Z.of_nat (asize (cm_vals m)) =? py_prod (map (fun g => Z.of_nat (asize g)) (cm_grids m)))
  && forallb ascending (cm_grids m)
  && forallb (fun g => dtype_eqb (dtype_of g) (dtype_of (cm_vals m))) (cm_grids m).

(** The constructor call `MultilinearRegular(dims=.., ..)`: fields, then the validator. *)
Definition make_regular (fam : family) (m : regular_model) : py regular_model :=
  if has_fields fam (rm_lin m) && regular_valid fam m then Ret m else Raise ValidationError.
Definition make_rectilinear (fam : family) (m : rectilinear_model) : py rectilinear_model :=
  if has_fields fam (cm_lin m) && rectilinear_valid fam m then Ret m else Raise ValidationError.

(** `new`: src/interpn/multilinear_regular.py:40-71, multicubic_regular.py:52-91,
    nearest_regular.py:39-70. [lin]: the extra argument of the multicubic class. *)
Definition regular_new (fam : family) (dims : list Z) (starts steps vals : nparray) (lin : option bool)
  : py regular_model :=
  let d := arrtype vals in
  make_regular fam (RegModel dims (store d starts) (store d steps) (store d vals) lin).
(** multilinear_rectilinear.py:38-64, multicubic_rectilinear.py:50-81,
    nearest_rectilinear.py:37-63. *)
Definition rectilinear_new (fam : family) (grids : list nparray) (vals : nparray) (lin : option bool)
  : py rectilinear_model :=
  let d := arrtype vals in
  make_rectilinear fam (RectModel (map (store d) grids) (store d vals) lin).

(** `model_dump_json` (pydantic, fields in the order of declaration). *)
Definition dump_lin (lin : option bool) : list (string * json) :=
  match lin with Some b => [("linearize_extrapolation", JBool b)] | None => [] end.
Definition dump_regular (m : regular_model) : json :=
  JObj ([("dims", JList (map JInt (rm_dims m))); ("starts", dump_array (rm_starts m));
         ("steps", dump_array (rm_steps m)); ("vals", dump_array (rm_vals m))] ++ dump_lin (rm_lin m)).
Definition dump_rectilinear (m : rectilinear_model) : json :=
  JObj ([("grids", JList (map dump_array (cm_grids m))); ("vals", dump_array (cm_vals m))] ++ dump_lin (cm_lin m)).

(** `model_validate_json`. Pydantic's conversions of other JSON values to int, list or bool are
    not modelled: they are refused here. *)
Definition load_int (j : json) : py Z := match j with JInt z => Ret z | _ => Raise ValidationError end.
Definition load_list (j : json) : py (list json) := match j with JList l => Ret l | _ => Raise ValidationError end.
Definition need (k : string) (l : list (string * json)) : py json :=
  match member k l with Some j => Ret j | None => Raise ValidationError end.
Definition lin_key (fam : family) : list string :=
  match fam with Multicubic => ["linearize_extrapolation"] | _ => [] end.
Definition load_lin (fam : family) (l : list (string * json)) : py (option bool) :=
  match fam with
  | Multicubic => py_do j <- need "linearize_extrapolation" l ;
                  match j with JBool b => Ret (Some b) | _ => Raise ValidationError end
  | _ => Ret None
  end.
Definition load_regular (fam : family) (j : json) : py regular_model :=
  match j with
  | JObj l =>
      if only (["dims"; "starts"; "steps"; "vals"] ++ lin_key fam) l then
        py_do dims <- (py_do d <- need "dims" l ; py_do d <- load_list d ; py_map load_int d) ;
        py_do starts <- (py_do a <- need "starts" l ; load_array a) ;
        py_do steps <- (py_do a <- need "steps" l ; load_array a) ;
        py_do vals <- (py_do a <- need "vals" l ; load_array a) ;
        py_do lin <- load_lin fam l ;
        make_regular fam (RegModel dims starts steps vals lin)
      else Raise ValidationError
  | _ => Raise ValidationError
  end.
Definition load_rectilinear (fam : family) (j : json) : py rectilinear_model :=
  match j with
  | JObj l =>
      if only (["grids"; "vals"] ++ lin_key fam) l then
        py_do grids <- (py_do g <- need "grids" l ; py_do g <- load_list g ; py_map load_array g) ;
        py_do vals <- (py_do a <- need "vals" l ; load_array a) ;
        py_do lin <- load_lin fam l ;
        make_rectilinear fam (RectModel grids vals lin)
      else Raise ValidationError
  | _ => Raise ValidationError
  end.

(** ** Evaluation with element types *)
Section Typed.
Context (c : cfg).

Fixpoint views {A B} (f : A -> option B) (l : list A) : option (list B) :=
  match l with
  | [] => Some []
  | a :: t => match f a, views f t with Some b, Some bs => Some (b :: bs) | _, _ => None end
  end.

(** `np.zeros_like(x)`: same element type. *)
Definition zeros_like (x : nparray) : nparray :=
  match x with
  | NpFloat (F32Array l) => NpFloat (F32Array (repeat (fzero F32Ops) (length l)))
  | NpFloat (F64Array l) => NpFloat (F64Array (repeat (fzero F64Ops) (length l)))
  | NpInt l => NpInt (repeat 0 (length l))
  end.
Definition out_or_zeros (out : option nparray) (obs : list nparray) : py nparray :=
  match out with
  | Some b => Ret b
  | None => py_do o0 <- py_get obs 0 ; Ret (zeros_like o0)
  end.

(** The bindings of one element type for the regular and the rectilinear grids. *)
Definition regular_raw (f : format) (fam : family) (lin : bool) dims starts steps vals oo b
  : py unit * list (elt f) :=
  match fam with
  | Multilinear => raw_linear_regular (fmt_ops f) c dims starts steps vals oo b
  | Nearest => raw_nearest_regular (fmt_ops f) c dims starts steps vals oo b
  | Multicubic => raw_cubic_regular (fmt_ops f) c dims starts steps vals lin oo b
  end.
Definition rectilinear_raw (f : format) (fam : family) (lin : bool) grids vals oo b
  : py unit * list (elt f) :=
  match fam with
  | Multilinear => raw_linear_rectilinear (fmt_ops f) c grids vals oo b
  | Nearest => raw_nearest_rectilinear (fmt_ops f) c grids vals oo b
  | Multicubic => raw_cubic_rectilinear (fmt_ops f) c grids vals lin oo b
  end.

(** A call of a binding: PyO3 converts the arguments in order (`dims` first) before the body
    runs. Second component: the final contents of the output array. *)
Definition regular_call (f : format) (fam : family) (lin : bool) (dims : list Z) (starts steps vals : nparray)
  (obs : list nparray) (out : nparray) : py unit * nparray :=
  if negb (dims_ok dims) then (Raise OverflowError, out)
  else match np_view f starts, np_view f steps, np_view f vals, views (np_view f) obs, np_view f out with
       | Some st, Some hs, Some vs, Some oo, Some b =>
           let (r, data) := regular_raw f fam lin dims st hs vs oo b in (r, NpFloat (wrap f data))
       | _, _, _, _, _ => (Raise TypeError, out)
       end.
Definition rectilinear_call (f : format) (fam : family) (lin : bool) (grids : list nparray) (vals : nparray)
  (obs : list nparray) (out : nparray) : py unit * nparray :=
  match views (np_view f) grids, np_view f vals, views (np_view f) obs, np_view f out with
  | Some gs, Some vs, Some oo, Some b =>
      let (r, data) := rectilinear_raw f fam lin gs vs oo b in (r, NpFloat (wrap f data))
  | _, _, _, _ => (Raise TypeError, out)
  end.

(** `eval`, e.g. src/interpn/multilinear_regular.py:101-168. Second component: the final contents
    of the array the caller supplied. [lin_flag]: only the multicubic classes have the field, and
    only their bindings read it. *)
Definition finish (out : option nparray) (r : py unit * nparray) : py nparray * option nparray :=
  (py_do _ <- fst r ; Ret (snd r), match out with Some _ => Some (snd r) | None => None end).
Definition lin_flag (lin : option bool) : bool := match lin with Some v => v | None => false end.

Definition regular_eval (fam : family) (m : regular_model) (obs : list nparray) (out : option nparray)
  : py nparray * option nparray :=
  match out_or_zeros out obs with
  | Raise e => (Raise e, out)
  | Ret b =>
      finish out (regular_call (format_of (dtype_of (rm_vals m))) fam (lin_flag (rm_lin m)) (rm_dims m)
                    (NpFloat (rm_starts m)) (NpFloat (rm_steps m)) (NpFloat (rm_vals m)) obs b)
  end.
Definition rectilinear_eval (fam : family) (m : rectilinear_model) (obs : list nparray) (out : option nparray)
  : py nparray * option nparray :=
  match out_or_zeros out obs with
  | Raise e => (Raise e, out)
  | Ret b =>
      finish out (rectilinear_call (format_of (dtype_of (cm_vals m))) fam (lin_flag (cm_lin m))
                    (map NpFloat (cm_grids m)) (NpFloat (cm_vals m)) obs b)
  end.

(** `check_bounds`, e.g. src/interpn/multilinear_regular.py:170-212; `atol` is a Python float. *)
Definition regular_check_bounds (m : regular_model) (obs : list nparray) (atol : f64) : py (list bool) :=
  let f := format_of (dtype_of (rm_vals m)) in
  if negb (dims_ok (rm_dims m)) then Raise OverflowError
  else match view f (rm_starts m), view f (rm_steps m), views (np_view f) obs with
       | Some starts, Some steps, Some oo =>
           class_check_bounds (length (rm_dims m))
             (fun oo a outb => raw_check_bounds_regular (fmt_ops f) c (rm_dims m) starts steps oo a outb)
             oo (from_f64 f atol)
       | _, _, _ => Raise TypeError
       end.
Definition rectilinear_check_bounds (m : rectilinear_model) (obs : list nparray) (atol : f64) : py (list bool) :=
  let f := format_of (dtype_of (cm_vals m)) in
  match views (view f) (cm_grids m), views (np_view f) obs with
  | Some grids, Some oo =>
      class_check_bounds (length grids)
        (fun oo a outb => raw_check_bounds_rectilinear (fmt_ops f) grids oo a outb) oo (from_f64 f atol)
  | _, _ => Raise TypeError
  end.

(** ** The function `interpn` with element types *)

Record tarray := mkT { t_shape : list nat; t_data : nparray }.

(** `out or np.zeros_like(obs[0])` as [choose_out], src/interpn/__init__.py:86. *)
Definition typed_choose_out (out : option tarray) (obs : list tarray) : py (tarray * bool) :=
  let fresh := py_do o0 <- py_get obs 0 ; Ret (mkT (t_shape o0) (zeros_like (t_data o0)), false) in
  let pick (b : tarray) (size : nat) (zero : bool) :=
    match size with
    | O => fresh
    | S O => if zero then fresh else Ret (b, true)
    | _ => Raise ValueError
    end in
  match out with
  | None => fresh
  | Some b => match t_data b with
              | NpFloat (F32Array l) => pick b (length l) (forallb (fun v => feq F32Ops v (fzero F32Ops)) l)
              | NpFloat (F64Array l) => pick b (length l) (forallb (fun v => feq F64Ops v (fzero F64Ops)) l)
              | NpInt l => pick b (length l) (forallb (Z.eqb 0) l)
              end
  end.

(** np.diff on integers; wrap-around of int64 is not modelled. *)
Definition int_diff (g : list Z) : list Z := map (fun p => snd p - fst p) (combine g (tl g)).

(** One step of `_check_regular`, src/interpn/__init__.py:197-203, in the element type of the
    grid. *)
Definition grid_regular (g : nparray) : py bool :=
  match g with
  | NpFloat (F32Array l) => let dg := np_diff F32Ops l in
      py_do d0 <- py_get dg 0 ; Ret (forallb (fun d => feq F32Ops d d0) dg)
  | NpFloat (F64Array l) => let dg := np_diff F64Ops l in
      py_do d0 <- py_get dg 0 ; Ret (forallb (fun d => feq F64Ops d d0) dg)
  | NpInt l => let dg := int_diff l in
      py_do d0 <- py_get dg 0 ; Ret (forallb (fun d => Z.eqb d d0) dg)
  end.
Fixpoint grids_regular_from (acc : bool) (grids : list nparray) : py bool :=
  match grids with
  | [] => Ret acc
  | g :: gs => py_do acc' <- (if acc then grid_regular g else Ret false) ; grids_regular_from acc' gs
  end.

(** `np.array([grid[0] ..], dtype=dtype)`, `np.array([grid[1] - grid[0] ..], dtype=dtype)`,
    src/interpn/__init__.py:106-107: computed in the type of the grid, then converted. *)
Definition grid_start (f : format) (g : nparray) : py (elt f) :=
  match g with
  | NpFloat (F32Array l) => py_do x <- py_get l 0 ; Ret (from_f32 f x)
  | NpFloat (F64Array l) => py_do x <- py_get l 0 ; Ret (from_f64 f x)
  | NpInt l => py_do x <- py_get l 0 ; Ret (from_int f x)
  end.
Definition grid_step (f : format) (g : nparray) : py (elt f) :=
  match g with
  | NpFloat (F32Array l) => py_do b <- py_get l 1 ; py_do a <- py_get l 0 ; Ret (from_f32 f (fsub F32Ops b a))
  | NpFloat (F64Array l) => py_do b <- py_get l 1 ; py_do a <- py_get l 0 ; Ret (from_f64 f (fsub F64Ops b a))
  | NpInt l => py_do b <- py_get l 1 ; py_do a <- py_get l 0 ; Ret (from_int f (b - a))
  end.
Definition np_size (g : nparray) : nat := match g with NpFloat a => asize a | NpInt l => length l end.

(** The `match (dtype, is_regular, method)`, src/interpn/__init__.py:135-192. *)
Definition method_family (method : string) : py family :=
  if String.eqb method "linear" then Ret Multilinear
  else if String.eqb method "nearest" then Ret Nearest
  else if String.eqb method "cubic" then Ret Multicubic
  else Raise ValueError.

(** The bounds check, src/interpn/__init__.py:115-133. *)
Definition typed_check_bounds (f : format) (is_regular : bool) dims (starts steps : list (elt f))
  (grids obs : list nparray) (atol : f64) : py unit :=
  let outb := [false] in
  py_do (r, outb') <-
    (if is_regular then
       match views (np_view f) obs with
       | Some oo => Ret (raw_check_bounds_regular (fmt_ops f) c dims starts steps oo (from_f64 f atol) outb)
       | None => Raise TypeError
       end
     else match views (np_view f) grids, views (np_view f) obs with
          | Some gs, Some oo => Ret (raw_check_bounds_rectilinear (fmt_ops f) gs oo (from_f64 f atol) outb)
          | _, _ => Raise TypeError
          end) ;
  py_do _ <- r ;
  if existsb (fun b => b) outb' then Raise ValueError else Ret tt.

(** src/interpn/__init__.py:48-194 interpn. Second component: the final contents of the array the
    caller supplied. *)
Definition typed_interpn (obs grids : list tarray) (vals : tarray) (method : string)
  (out : option tarray) (lin assume_regular check_bounds : bool) (atol : f64)
  : py tarray * option nparray :=
  let buffer := option_map t_data out in
  let prepared :=
    py_do (out1, own) <- typed_choose_out out obs ;
    let obs' := map t_data obs in
    let grids' := map t_data grids in
    py_do d <- match t_data vals with
               | NpFloat a => Ret (dtype_of a)
               | NpInt _ => Raise (AssertionError "`interpn` defined only for float32 and float64 data")
               end ;
    let f := format_of d in
    py_do is_regular <- (if assume_regular then Ret true else grids_regular_from true grids') ;
    py_do (dims, starts, steps) <-
      (if is_regular then
         py_do starts <- py_map (grid_start f) grids' ;
         py_do steps <- py_map (grid_step f) grids' ;
         Ret (map (fun g => Z.of_nat (np_size g)) grids', starts, steps)
       else Ret ([], [], [])) ;
    py_do _ <- (if check_bounds then typed_check_bounds f is_regular dims starts steps grids' obs' atol
                else Ret tt) ;
    py_do fam <- method_family method ;
    Ret (out1, own,
         if is_regular then
           regular_call f fam lin dims (NpFloat (wrap f starts)) (NpFloat (wrap f steps)) (t_data vals) obs' (t_data out1)
         else rectilinear_call f fam lin grids' (t_data vals) obs' (t_data out1)) in
  match prepared with
  | Raise e => (Raise e, buffer)
  | Ret (out1, own, (r, data)) =>
      (py_do _ <- r ; Ret (mkT (t_shape out1) data), if own then Some data else buffer)
  end.
End Typed.
