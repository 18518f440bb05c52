(** Code shared by all interpolators: array indexing, bisection, the flattened
    evaluation loop, the recursive evaluation, and batch evaluation. *)
From Verif Require Import Base Ops.

(** src/lib.rs:117-126 [index_arr] and src/lib.rs:128-144 [index_arr_fixed_dims]:
    the two bodies are the same loop (the second one unrolled at compile time;
    there dimprod.len() = N). *)
Definition index_arr {A} (c : cfg) (loc dimprod : list Z) (data : list A) : outcome A :=
  do i <- foldM (fun i j =>
            do l <- aget loc j ;
            do d <- aget dimprod j ;
            do p <- usize_mul c l d ;
            usize_add c i p) 0 (seq 0 (length dimprod)) ;
  idx data i.

(** `[usize]::iter().product()`, used by all constructors, e.g.
    src/multilinear/regular.rs:238.  std folds with `*` and inherits the crate's
    overflow checks. *)
Definition product (c : cfg) (dims : list Z) : outcome Z :=
  foldM (fun a d => usize_mul c a d) 1 dims.

(** Slice [partition_point] of the Rust standard library (not in /repo; used at
    src/multilinear/rectilinear.rs:363, src/multilinear/rectilinear_recursive.rs:282,
    src/multicubic/rectilinear.rs:377, src/multicubic/rectilinear_recursive.rs:305,
    src/nearest/rectilinear.rs:258, src/one_dim/mod.rs:158).
    This is core's `binary_search_by` loop (1.82+): the window [base, base+size)
    shrinks by half each time.  [cnt] counts evaluations of the predicate (an
    instrument of the model, not in the code). Fuel exhaustion is [Panic];
    [partition_point_spec] shows it does not happen. *)
Fixpoint pp_loop {A} (fuel : nat) (pred : A -> bool) (l : list A) (size base cnt : nat)
  : outcome (nat * nat) :=
  if (size <=? 1)%nat then Ok (base, cnt)
  else match fuel with
       | O => Panic
       | S fuel' =>
           let half := Nat.div size 2 in
           let mid := (base + half)%nat in
           do v <- aget l mid ;
           pp_loop fuel' pred l (size - half)%nat (if pred v then mid else base) (S cnt)
       end.

Definition partition_point_cnt {A} (pred : A -> bool) (l : list A) : outcome (nat * nat) :=
  match l with
  | [] => Ok (O, O)
  | _ => do (base, cnt) <- pp_loop (length l) pred l (length l) O O ;
         do v <- aget l base ;
         Ok ((if pred v then S base else base), S cnt)
  end.

Definition partition_point {A} (pred : A -> bool) (l : list A) : outcome Z :=
  do (p, _) <- partition_point_cnt pred l ; Ok (Z.of_nat p).

(** Set-up loop of the flattened evaluators: strides and per-axis data are
    filled by one loop over the axes.
    src/multilinear/regular.rs:315-341, src/multilinear/rectilinear.rs:257-273,
    src/multicubic/regular.rs:337-362, src/multicubic/rectilinear.rs:276-292,
    src/nearest/regular.rs:254-291, src/nearest/rectilinear.rs:206-237.
    [act i] is what the loop does for axis i apart from the strides.
    Simplification: `dimprod[N-i-1] = acc` fills the array from the back, so it
    is a cons here; the per-axis arrays are filled from the front (snoc) and are
    kept as one list of tuples. *)
Definition flat_setup {A} (c : cfg) (dims : list Z) (act : nat -> outcome A)
  : outcome (list Z * list A) :=
  let n := length dims in
  do (_, dp, axes) <- foldM (fun '(acc, dp, axes) i =>
       do acc' <- (if (0 <? i)%nat
                   then do d <- aget dims (n - i)%nat ; usize_mul c acc d
                   else Ok acc) ;
       do a <- act i ;
       Ok (acc', acc' :: dp, axes ++ [a])) (1, [], []) (seq 0 n) ;
  Ok (dp, axes).

(** Stride loop of the recursive evaluators (it also computes the full product).
    src/multilinear/regular_recursive.rs:297-301,
    src/multilinear/rectilinear_recursive.rs:246-250,
    src/multicubic/regular_recursive.rs:346-350,
    src/multicubic/rectilinear_recursive.rs:265-269. *)
Definition rec_dimprod (c : cfg) (dims : list Z) : outcome (list Z) :=
  let n := length dims in
  do (_, dp) <- foldM (fun '(acc, dp) i =>
       do d <- aget dims (n - i - 1)%nat ;
       do acc' <- usize_mul c acc d ;
       Ok (acc', acc :: dp)) (1, []) (seq 0 n) ;
  Ok dp.

(** `store[r][p] = v` *)
Definition store_set {F} (st : list (list F)) (r p : nat) (v : F) : outcome (list (list F)) :=
  do row <- aget st r ;
  do row' <- aset row p v ;
  aset st r row'.

(** One leaf of the flattened tree: `loc[k] = origin[k] + OFFSET` for every axis,
    then index.  src/multilinear/regular.rs:356-367, src/multilinear/rectilinear.rs:289-299,
    src/multicubic/regular.rs:378-388, src/multicubic/rectilinear.rs:308-318. *)
Definition flat_leaf {F} (c : cfg) (offset : nat -> nat -> Z) (origin dimprod : list Z)
  (vals : list F) (i : nat) : outcome F :=
  do loc <- mapM (fun k => do o <- aget origin k ; usize_add c o (offset i k))
                 (seq 0 (length origin)) ;
  index_arr c loc dimprod vals.

(** Body of the vertex loop, for vertex [i]: at level 0 read the leaf; at level
    j > 0, if (i+1) is a multiple of FP^j, combine row j-1 of the store.
    src/multilinear/regular.rs:348-392, src/multilinear/rectilinear.rs:280-328,
    src/multicubic/regular.rs:369-411, src/multicubic/rectilinear.rs:299-343. *)
Definition flat_vertex {F} (FP n : nat) (leaf : nat -> outcome F)
  (node : nat -> list F -> outcome F) (store : list (list F)) (i : nat)
  : outcome (list (list F)) :=
  foldM (fun st j =>
    if (j =? 0)%nat then
      do v <- leaf i ; store_set st 0%nat (i mod FP)%nat v
    else
      let q := (FP ^ j)%nat in
      if ((i + 1) mod q =? 0)%nat then
        let p := (((i + 1) / q - 1) mod FP)%nat in
        let ind := (j - 1)%nat in
        do ys <- aget st ind ;
        do v <- node ind ys ;
        store_set st j p v
      else Ok st) store (seq 0 n).

(** The whole flattened evaluation after set-up: FP^N vertices, then the last
    combination from row N-1. [z] is T::zero(), the initial contents of `store`.
    src/multilinear/regular.rs:313, 343-403 and siblings. `N - 1` on N = 0 cannot
    be reached (compile-time N > 0); it would be a panic. *)
Definition flat_eval {F} (FP n : nat) (z : F) (leaf : nat -> outcome F)
  (node : nat -> list F -> outcome F) : outcome F :=
  match n with
  | O => Panic
  | S n' =>
      do store <- foldM (flat_vertex FP n leaf node) (repeat (repeat z FP) n)
                        (seq 0 (FP ^ n)) ;
      do ys <- aget store n' ;
      node n' ys
  end.

(** Recursive evaluation. src/multilinear/regular_recursive.rs:348-389,
    src/multilinear/rectilinear_recursive.rs:293-336,
    src/multicubic/regular_recursive.rs:427-465,
    src/multicubic/rectilinear_recursive.rs:340-380: the four bodies differ only
    in FP and in the combination [node].  `loc` is `&mut`, hence threaded. *)
Fixpoint populate {F} (c : cfg) (FP : nat) (origin dimprod : list Z) (vals : list F)
  (node : nat -> list F -> outcome F) (dim : nat) (loc : list Z)
  : outcome (F * list Z) :=
  match dim with
  | O => do v <- index_arr c loc dimprod vals ; Ok (v, loc)
  | S next =>
      do (vs, loc1) <- foldM (fun '(vs, loc0) i =>
           do o <- aget origin next ;
           do oi <- usize_add c o (Z.of_nat i) ;
           do loc0' <- aset loc0 next oi ;
           do (v, loc0'') <- populate c FP origin dimprod vals node next loc0' ;
           Ok (vs ++ [v], loc0'')) ([], loc) (seq 0 FP) ;
      do o <- aget origin next ;
      do loc2 <- aset loc1 next o ;
      do v <- node next vs ;
      Ok (v, loc2)
  end.

(** `for i in is { out[i] = point(i)?; }`: on an error or panic the loop stops and
    [out] keeps what was written so far. *)
Fixpoint batch_loop {A} (point : nat -> outcome A) (is : list nat) (out : list A)
  : outcome unit * list A :=
  match is with
  | [] => (Ok tt, out)
  | i :: t => match point i with
              | Ok v => batch_loop point t (upd out i v)
              | Err e => (Err e, out)
              | Panic => (Panic, out)
              end
  end.

(** `tmp[j] = x[j][i]` for all j. src/multilinear/regular.rs:277-278. *)
Definition gather {F} (ndims : nat) (x : list (list F)) (i : nat) : outcome (list F) :=
  mapM (fun j => do xj <- aget x j ; aget xj i) (seq 0 ndims).

(** Methods `interp` of all N-dimensional interpolators:
    src/multilinear/regular.rs:268-283, src/multilinear/regular_recursive.rs:242-262,
    src/multilinear/rectilinear.rs:210-231, src/multilinear/rectilinear_recursive.rs:190-212,
    src/nearest/regular.rs:206-221, src/nearest/rectilinear.rs:159-180,
    src/multicubic/regular.rs:297-313, src/multicubic/rectilinear.rs:237-253,
    src/multicubic/regular_recursive.rs:290-310, src/multicubic/rectilinear_recursive.rs:208-230.
    The explicit test x.len() != ndims is there in the recursive and rectilinear
    versions; in the other ones the array type `&[&[T]; N]` enforces it, and the
    callers in the model only pass lists of that length. *)
Definition interp_batch {F} (ndims : nat) (one : list F -> outcome F)
  (x : list (list F)) (out : list F) : outcome unit * list F :=
  if negb (length x =? ndims)%nat then (Err "Dimension mismatch"%string, out)
  else if negb (forallb (fun xx => (length xx =? length out)%nat) x)
  then (Err "Dimension mismatch"%string, out)
  else batch_loop (fun i => do tmp <- gather ndims x i ; one tmp)
                  (seq 0 (length out)) out.

(** `all` with a fallible predicate (indexing inside the closure); short-circuits. *)
Fixpoint allM {A} (f : A -> outcome bool) (l : list A) : outcome bool :=
  match l with
  | [] => Ok true
  | a :: t => do b <- f a ; if b then allM f t else Ok false
  end.

(** A constructor followed by `?` and `.interp(..)`: errors of the constructor
    leave [out] unchanged. *)
Definition and_then {A F} (m : outcome A) (out : list F)
  (k : A -> outcome unit * list F) : outcome unit * list F :=
  match m with
  | Ok a => k a
  | Err e => (Err e, out)
  | Panic => (Panic, out)
  end.

(** Result of `interpn_alloc`: `interpn(.., &mut out)?; Ok(out)`. *)
Definition alloc_result {F} (r : outcome unit * list F) : outcome (list F) :=
  match fst r with Ok _ => Ok (snd r) | Err e => Err e | Panic => Panic end.

(** Clip a signed cell number to the lower-corner range, width FP.
    src/multilinear/regular.rs:420-422 (FP=2), src/multicubic/regular.rs get_loc (FP=4). *)
Definition clip_loc (FP : Z) (dim iloc : Z) : Z :=
  let n := as_isize dim in
  let dimmax := Z.max (isize_sat_sub n FP) 0 in
  as_usize (Z.min (Z.max iloc 0) dimmax).
