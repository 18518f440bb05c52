(** Memory layout of the NumPy arrays passed to the Python package: what `ravel`,
    `np.ascontiguousarray` and PyO3's `as_slice` make of arrays that are transposed, sliced,
    reversed or in Fortran order. The layout rules are NumPy's and rust-numpy's, not in /repo. *)
From Verif Require Import Base Ops ModelCore ModelPython.
Open Scope Z_scope.

(** An array in memory. Element [i1; ...; in] is at position offset + i1 * stride1 + ... of the
    buffer; strides are counted in elements and may be zero or negative. *)
Record strided (A : Type) := mkStrided { shape : list nat; strides : list Z; offset : Z; buffer : list A }.
Arguments mkStrided {A}. Arguments shape {A}. Arguments strides {A}. Arguments offset {A}. Arguments buffer {A}.

Section Layout.
Context {A : Type}.

(** Buffer access by position. *)
Definition item (buf : list A) (p : Z) : option A :=
  if p <? 0 then None else nth_error buf (Z.to_nat p).

(** Several accesses; None if one of them is outside the buffer. *)
Fixpoint items (buf : list A) (ps : list Z) : option (list A) :=
  match ps with
  | [] => Some []
  | p :: t => match item buf p, items buf t with Some a, Some l => Some (a :: l) | _, _ => None end
  end.

(** The positions of all elements in C order, the last index varying fastest. *)
Fixpoint positions (shape : list nat) (strides : list Z) (start : Z) : list Z :=
  match shape, strides with
  | n :: shape', s :: strides' => flat_map (fun i => positions shape' strides' (start + Z.of_nat i * s)) (seq 0 n)
  | _, _ => [start]
  end.

Fixpoint nprod (shape : list nat) : nat := match shape with [] => 1%nat | n :: t => (n * nprod t)%nat end.

(** NumPy's flag C_CONTIGUOUS: strides of axes of length 1 do not matter, and an array without
    elements is contiguous. *)
Fixpoint dense (shape : list nat) (strides : list Z) : bool :=
  match shape, strides with
  | n :: shape', s :: strides' => ((n =? 1)%nat || (s =? Z.of_nat (nprod shape'))) && dense shape' strides'
  | _, _ => true
  end.
Definition c_contiguous (a : strided A) : bool := (nprod (shape a) =? 0)%nat || dense (shape a) (strides a).

(** `n` elements of the memory from position `p` on. *)
Definition memory (buf : list A) (p : Z) (n : nat) : option (list A) :=
  items buf (map (fun i => p + Z.of_nat i) (seq 0 n)).

(** A fresh contiguous one-dimensional array. *)
Definition array1 (l : list A) : strided A := mkStrided [length l] [1] 0 l.

(** `x.ravel()`: the same memory as a one-dimensional array if the array is contiguous, otherwise
    a copy of its elements in C order. *)
Definition ravel (a : strided A) : option (strided A) :=
  if c_contiguous a then Some (mkStrided [nprod (shape a)] [1] (offset a) (buffer a))
  else match items (buffer a) (positions (shape a) (strides a) (offset a)) with
       | Some l => Some (array1 l) | None => None end.

(** `PyReadonlyArray1` and `as_slice()`: TypeError unless the array is one-dimensional and
    contiguous; otherwise its memory. None stands for an access outside the buffer. *)
Definition as_slice (a : strided A) : option (py (list A)) :=
  match shape a with
  | [n] => if c_contiguous a then match memory (buffer a) (offset a) n with Some l => Some (Ret l) | None => None end
           else Some (Raise TypeError)
  | _ => Some (Raise TypeError)
  end.
End Layout.

Section Calls.
Context {F : Type} (o : Ops F) (c : cfg).

(** `np.ascontiguousarray(x.ravel())` (src/interpn/__init__.py:91-93), then `as_slice` in the
    binding (src/python.rs:50, 73-75); the shape is kept for the result. *)
Definition flat (a : strided F) : option (ndarray F) :=
  match ravel a with
  | Some r => match as_slice r with Some (Ret l) => Some (mkNd (shape a) l) | _ => None end
  | None => None
  end.
Fixpoint flats (l : list (strided F)) : option (list (ndarray F)) :=
  match l with
  | [] => Some []
  | a :: t => match flat a, flats t with Some x, Some y => Some (x :: y) | _, _ => None end
  end.

(** src/interpn/__init__.py:48-194 interpn for arrays of any layout; the result is contiguous.
    `zeros_like` may choose a layout similar to that of obs[0]; as the fresh array is only used
    through `ravel`, it is modelled as contiguous. [out] has at most one element where it is not
    refused, and such an array is contiguous. *)
Definition layout_interpn (obs grids : list (strided F)) (vals : strided F) (method : string)
  (out : option (ndarray F)) (lin assume_regular check_bounds : bool) (atol : F) : option (py (ndarray F) * option (list F)) :=
  match flats obs, flats grids, flat vals with
  | Some obs', Some grids', Some vals' => Some (py_interpn o c obs' grids' vals' method out lin assume_regular check_bounds atol)
  | _, _, _ => None
  end.

(** src/python.rs:41-53 unpack_vec_of_arr: `_arr[i] = x[i].as_slice()?` for i = 0, 1, ...; the
    assignment panics at i = 8, after as_slice. *)
Fixpoint slices (l : list (strided F)) : option (py (list (list F))) :=
  match l with
  | [] => Some (Ret [])
  | a :: t => match as_slice a with
              | None => None
              | Some (Raise e) => Some (Raise e)
              | Some (Ret x) => match slices t with
                                | None => None
                                | Some (Raise e) => Some (Raise e)
                                | Some (Ret xs) => Some (Ret (x :: xs))
                                end
              end
  end.

(** `eval` of the classes for arrays of any layout, e.g. src/interpn/multilinear_rectilinear.py:98-160,
    without an output array. [raw] is the binding applied to the stored data. PyO3 first asks
    that all arrays are one-dimensional. *)
Definition one_dim (a : strided F) : bool := match shape a with [_] => true | _ => false end.
Definition layout_eval (raw : list (list F) -> list F -> py unit * list F) (obs : list (strided F)) : option (py (list F)) :=
  match obs with
  | [] => Some (Raise IndexError)
  | a0 :: _ =>
      if negb (forallb one_dim obs) then Some (Raise TypeError)
      else match slices (firstn 9 obs) with
           | None => None
           | Some (Raise e) => Some (Raise e)
           | Some (Ret xs) => let (r, data) := raw xs (repeat (fzero o) (nprod (shape a0))) in
                              Some (py_do _ <- r ; Ret data)
           end
  end.

(** `check_bounds` of the classes flattens its arguments, `x.flatten()` (always a copy), e.g.
    src/interpn/multilinear_rectilinear.py:170-198. *)
Definition flatten (a : strided F) : option (list F) := items (buffer a) (positions (shape a) (strides a) (offset a)).
Fixpoint flattens (l : list (strided F)) : option (list (list F)) :=
  match l with
  | [] => Some []
  | a :: t => match flatten a, flattens t with Some x, Some y => Some (x :: y) | _, _ => None end
  end.
Definition layout_check_bounds (ndims : nat) (raw : list (list F) -> F -> list bool -> py unit * list bool)
  (obs : list (strided F)) (atol : F) : option (py (list bool)) :=
  match flattens obs with
  | Some xs => Some (class_check_bounds ndims raw xs atol)
  | None => None
  end.
End Calls.
