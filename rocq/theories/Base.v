(** Base vocabulary of the model: outcomes, machine integers, checked array
    access and monadic loops.  Nothing here is specific to one file of /repo. *)
From Coq Require Export String ZArith Bool Lia List.
Export ListNotations.
#[global] Set Implicit Arguments.
#[global] Set Asymmetric Patterns.
Open Scope Z_scope.

(** The result of running a piece of Rust code: a value, [Result::Err] with its
    message (data that the caller can inspect), or a panic. *)
Inductive outcome (A : Type) : Type :=
| Ok (a : A)
| Err (msg : string)
| Panic.
Arguments Ok {A} a.
Arguments Err {A} msg.
Arguments Panic {A}.

Definition bind {A B} (m : outcome A) (f : A -> outcome B) : outcome B :=
  match m with Ok a => f a | Err e => Err e | Panic => Panic end.

Declare Scope out_scope.
Delimit Scope out_scope with out.
Notation "'do' x <- m ; f" := (bind m (fun x => f))
  (at level 200, x pattern, m at level 100, f at level 200, right associativity) : out_scope.
Open Scope out_scope.

(** Build configuration (Cargo.toml): [use_fma] is the cargo feature `fma`;
    [ovf_checks] is rustc's overflow-checks ([profile.release] in Cargo.toml sets it to true
    for the crate's own release profile; as a dependency the user decides). *)
Record cfg := mkCfg { use_fma : bool; ovf_checks : bool }.

(** ** Machine integers: 64-bit usize and isize, carried as Z. *)
Definition two64 : Z := 18446744073709551616.
Definition isize_max : Z := 9223372036854775807.
Definition isize_min : Z := -9223372036854775808.

(** Arithmetic result of a usize operation: in range, or panic / wrap. *)
Definition usize_res (c : cfg) (r : Z) : outcome Z :=
  if (0 <=? r) && (r <? two64) then Ok r
  else if ovf_checks c then Panic else Ok (r mod two64).
Definition usize_add c a b := usize_res c (a + b).
Definition usize_sub c a b := usize_res c (a - b).
Definition usize_mul c a b := usize_res c (a * b).

(** Two's complement reinterpretation: `u as isize`, `i as usize`. *)
Definition as_isize (u : Z) : Z := if u <=? isize_max then u else u - two64.
Definition as_usize (i : Z) : Z := i mod two64.

Definition isize_res (c : cfg) (r : Z) : outcome Z :=
  if (isize_min <=? r) && (r <=? isize_max) then Ok r
  else if ovf_checks c then Panic else Ok (as_isize (r mod two64)).
Definition isize_sub c a b := isize_res c (a - b).

(** `isize::saturating_sub`. *)
Definition isize_sat_sub (a b : Z) : Z := Z.max isize_min (Z.min isize_max (a - b)).

(** ** Arrays and slices *)

(** Length of a slice as a usize. *)
Definition zlen {A} (l : list A) : Z := Z.of_nat (length l).

(** `l[k]` where the index is a compile-time or loop index; panics out of range. *)
Definition aget {A} (l : list A) (k : nat) : outcome A :=
  match nth_error l k with Some a => Ok a | None => Panic end.

(** `l[i]` where the index is a computed usize; panics out of range. *)
Definition idx {A} (l : list A) (i : Z) : outcome A :=
  if (0 <=? i) && (i <? zlen l) then aget l (Z.to_nat i) else Panic.

(** `&l[i..j]`; panics if i > j or j > len. *)
Definition slice {A} (l : list A) (i j : Z) : outcome (list A) :=
  if (0 <=? i) && (i <=? j) && (j <=? zlen l)
  then Ok (firstn (Z.to_nat (j - i)) (skipn (Z.to_nat i) l)) else Panic.

(** Pure update of entry [k]; used only after a range check. *)
Fixpoint upd {A} (l : list A) (k : nat) (a : A) : list A :=
  match l, k with
  | [], _ => []
  | _ :: t, O => a :: t
  | h :: t, S k' => h :: upd t k' a
  end.

(** `l[k] = a`; panics out of range. *)
Definition aset {A} (l : list A) (k : nat) (a : A) : outcome (list A) :=
  if (k <? length l)%nat then Ok (upd l k a) else Panic.

(** A `for` loop over a list of loop indices with a mutable state and early exit. *)
Fixpoint foldM {S A} (f : S -> A -> outcome S) (s : S) (l : list A) : outcome S :=
  match l with
  | [] => Ok s
  | a :: t => do s' <- f s a ; foldM f s' t
  end.

(** Fill an array, entry by entry, in order, with early exit. *)
Fixpoint mapM {A B} (f : A -> outcome B) (l : list A) : outcome (list B) :=
  match l with
  | [] => Ok []
  | a :: t => do b <- f a ; do bs <- mapM f t ; Ok (b :: bs)
  end.

(** `opt.ok_or(msg)?` *)
Definition ok_or {A} (o : option A) (msg : string) : outcome A :=
  match o with Some a => Ok a | None => Err msg end.

(** `opt.unwrap()` *)
Definition unwrap {A} (o : option A) : outcome A :=
  match o with Some a => Ok a | None => Panic end.

(** `slice.try_into().unwrap()` into an array of length n. *)
Definition try_into_unwrap {A} (n : nat) (l : list A) : outcome (list A) :=
  if (length l =? n)%nat then Ok l else Panic.
