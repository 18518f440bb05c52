(** Small specifications for element types and JSON serialisation of the Python package. *)
From Flocq Require Import Core.Core IEEE754.BinarySingleNaN.
From Verif Require Import Base Ops FInst ModelPython ModelSerial.
Unset Implicit Arguments.

(** The numbers of element type [d] and their operations. *)
Definition num (d : dtype) : Type := elt (format_of d).
Definition ops (d : dtype) : Ops (num d) := fmt_ops (format_of d).
(** A stored array, and an array passed by a caller, of element type [d]. *)
Definition stored (d : dtype) (l : list (num d)) : array := wrap (format_of d) l.
Definition typed (d : dtype) (l : list (num d)) : nparray := NpFloat (stored d l).
Definition has_type (d : dtype) (x : nparray) : Prop := exists l, x = typed d l.

(** Conversion of a number of type [d] to type [d']. *)
Definition conv (d d' : dtype) : num d -> num d' :=
  match d return num d -> num d' with
  | Float32 => from_f32 (format_of d')
  | Float64 => from_f64 (format_of d')
  end.

(** What Python sees of a call of the Rust library on arrays of type [d] that ended with [r]. *)
Definition seen {d : dtype} (r : outcome unit * list (num d)) : py nparray :=
  match r with
  | (Ok _, data) => Ret (typed d data)
  | (Err msg, _) => Raise (AssertionError msg)
  | (Panic, _) => Raise PanicException
  end.

(** The ways to get an interpolator object: the constructor, `new`, and loading JSON. *)
Inductive regular_object (fam : family) : regular_model -> Prop :=
| reg_made m0 m : make_regular fam m0 = Ret m -> regular_object fam m
| reg_new dims starts steps vals lin m :
    regular_new fam dims starts steps vals lin = Ret m -> regular_object fam m
| reg_loaded j m : load_regular fam j = Ret m -> regular_object fam m.
Inductive rectilinear_object (fam : family) : rectilinear_model -> Prop :=
| rect_made m0 m : make_rectilinear fam m0 = Ret m -> rectilinear_object fam m
| rect_new grids vals lin m : rectilinear_new fam grids vals lin = Ret m -> rectilinear_object fam m
| rect_loaded j m : load_rectilinear fam j = Ret m -> rectilinear_object fam m.

(** A shaped array of element type [d]. *)
Definition tnd (d : dtype) (a : ndarray (num d)) : tarray := mkT (nd_shape a) (typed d (nd_data a)).
Definition tnd_result {d : dtype} (r : py (ndarray (num d)) * option (list (num d)))
  : py tarray * option nparray :=
  (match fst r with Ret a => Ret (tnd d a) | Raise e => Raise e end, option_map (typed d) (snd r)).
