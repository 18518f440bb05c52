(** src/utils.rs *)
From Verif Require Import Base Ops.

(** src/utils.rs:8-14 linspace. `n - 1` underflows for n = 0. *)
Definition linspace {F} (o : Ops F) (c : cfg) (start stop : F) (n : nat) : outcome (list F) :=
  do m <- usize_sub c (Z.of_nat n) 1 ;
  do mf <- unwrap (of_usize o m) ;
  let dx := fdiv o (fsub o stop start) mf in
  mapM (fun i => do fi <- unwrap (of_usize o (Z.of_nat i)) ;
                 Ok (fadd o start (fmul o fi dx))) (seq 0 n).

(** src/utils.rs:17-25 meshgrid, with itertools' multi_cartesian_product: the last
    list varies fastest; the product of no lists is one empty tuple. *)
Fixpoint meshgrid {F} (x : list (list F)) : list (list F) :=
  match x with
  | [] => [[]]
  | g :: gs => flat_map (fun v => map (cons v) (meshgrid gs)) g
  end.
