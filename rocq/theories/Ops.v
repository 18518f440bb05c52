(** The operations of `T: num_traits::Float` that the code uses.  All model
    functions are generic in this record; see RInst.v and FInst.v for instances. *)
From Verif Require Import Base.

Record Ops (F : Type) := mkOps {
  fzero : F;                       (** T::zero() *)
  fone : F;                        (** T::one() *)
  fadd : F -> F -> F;
  fsub : F -> F -> F;
  fmul : F -> F -> F;
  fdiv : F -> F -> F;
  fneg : F -> F;
  fabs : F -> F;                   (** x.abs() *)
  ffloor : F -> F;                 (** x.floor() *)
  fmuladd : F -> F -> F -> F;      (** a.mul_add(b, c) = a*b + c, fused *)
  flt : F -> F -> bool;            (** a < b *)
  fle : F -> F -> bool;            (** a <= b *)
  fmin : F -> F -> F;              (** a.min(b) *)
  fmax : F -> F -> F;
  of_usize : Z -> option F;        (** <T as NumCast>::from(n : usize) *)
  to_isize : F -> option Z         (** <isize as NumCast>::from(x) *)
}.

Arguments fzero {F} o. Arguments fone {F} o. Arguments fadd {F} o a b : rename.
Arguments fsub {F} o a b : rename. Arguments fmul {F} o a b : rename.
Arguments fdiv {F} o a b : rename. Arguments fneg {F} o a : rename.
Arguments fabs {F} o a : rename.
Arguments ffloor {F} o a : rename. Arguments fmuladd {F} o a b c : rename.
Arguments flt {F} o a b : rename. Arguments fle {F} o a b : rename.
Arguments fmin {F} o a b : rename. Arguments fmax {F} o a b : rename.
Arguments of_usize {F} o n : rename. Arguments to_isize {F} o a : rename.
