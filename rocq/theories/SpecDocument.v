(** Small specification of the JSON documents of the Python classes: what a document says. *)
From Coq Require Import Reals.
From Flocq Require Import Core.Core IEEE754.BinarySingleNaN.
From Verif Require Import Base Ops FInst ModelPython ModelSerial SpecSerial.
Unset Implicit Arguments.
Open Scope string_scope.
Open Scope Z_scope.
Open Scope list_scope.

(** No object in the document repeats a key. *)
Inductive distinct_keys : json -> Prop :=
| distinct_obj l : NoDup (map fst l) -> Forall (fun p => distinct_keys (snd p)) l -> distinct_keys (JObj l)
| distinct_list l : Forall distinct_keys l -> distinct_keys (JList l)
| distinct_other j : (forall l, j <> JObj l) -> (forall l, j <> JList l) -> distinct_keys j.

(** A JSON value that stands for a number: a float, an integer that is not too large, a boolean,
    or null (NaN). *)
Inductive means_number : json -> f64 -> Prop :=
| means_float x : means_number (JFloat x) x
| means_int z : is_finite (int_to_f64 z) = true -> means_number (JInt z) (int_to_f64 z)
| means_bool (b : bool) : means_number (JBool b) (int_to_f64 (if b then 1 else 0))
| means_null : means_number JNull B754_nan.

(** The object has these keys and no others. *)
Definition exactly_keys (keys : list string) (l : list (string * json)) : Prop :=
  forall k, In k (map fst l) <-> In k keys.

(** An array: its element type, and its numbers as a list or as a string that holds a list. *)
Definition means_array (j : json) (a : array) : Prop :=
  exists l items xs, j = JObj l /\ exactly_keys ["data"; "dtype"] l /\
  (In ("data", JList items) l \/ In ("data", JText (JList items)) l) /\ Forall2 means_number items xs /\
  ((In ("dtype", JString "float32") l /\ a = F32Array (map narrow xs)) \/
   (In ("dtype", JString "float64") l /\ a = F64Array xs)).

Definition flag_keys (fam : family) : list string :=
  match fam with Multicubic => ["linearize_extrapolation"] | _ => [] end.
Definition means_flag (fam : family) (l : list (string * json)) (lin : option bool) : Prop :=
  match fam with
  | Multicubic => exists b, In ("linearize_extrapolation", JBool b) l /\ lin = Some b
  | _ => lin = None
  end.
Definition means_regular (fam : family) (l : list (string * json)) (m : regular_model) : Prop :=
  exactly_keys (["dims"; "starts"; "steps"; "vals"] ++ flag_keys fam) l /\
  In ("dims", JList (map JInt (rm_dims m))) l /\
  (exists j, In ("starts", j) l /\ means_array j (rm_starts m)) /\
  (exists j, In ("steps", j) l /\ means_array j (rm_steps m)) /\
  (exists j, In ("vals", j) l /\ means_array j (rm_vals m)) /\ means_flag fam l (rm_lin m).
Definition means_rectilinear (fam : family) (l : list (string * json)) (m : rectilinear_model) : Prop :=
  exactly_keys (["grids"; "vals"] ++ flag_keys fam) l /\
  (exists js, In ("grids", JList js) l /\ Forall2 means_array js (cm_grids m)) /\
  (exists j, In ("vals", j) l /\ means_array j (cm_vals m)) /\ means_flag fam l (cm_lin m).

(** The number that a float of element type [d] stands for, and whether it is one. *)
Definition real_of (d : dtype) : num d -> R :=
  match d return num d -> R with Float32 => @B2R 24 128 | Float64 => @B2R 53 1024 end.
Definition finite_of (d : dtype) : num d -> bool :=
  match d return num d -> bool with Float32 => @is_finite 24 128 | Float64 => @is_finite 53 1024 end.
