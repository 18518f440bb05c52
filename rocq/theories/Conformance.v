(** The tests of the repository, replayed in the model with binary64 numbers. These are checks of the
    model against the code's own test suite, not theorems: where a test asserts a bit-exact result or
    a tolerance, so does the replay. Tests with pseudo-random inputs (rand::StdRng) use other fixed
    noise here. The N-dimensional tests stop at a dimension that evaluates in reasonable time. *)
From Flocq Require Import IEEE754.BinarySingleNaN.
From Verif Require Import Base Ops FInst ModelCore ModelUtils ModelLinear ModelNearest ModelCubic ModelOneDim ModelPython ExampleData.
Unset Implicit Arguments.

Definition o := F64Ops.
Definition ten_to (n : nat) : f64 := z64 (10 ^ Z.of_nat n).
(** 1e-12 and 1e-10, rounded to nearest. *)
Definition tol12 : f64 := fdiv o (z64 1) (ten_to 12).
Definition tol10 : f64 := fdiv o (z64 1) (ten_to 10).
Definition close (tol a b : f64) : bool := flt o (fabs o (fsub o a b)) tol.
Definition same (a b : f64) : bool := fle o a b && fle o b a.
Definition all2 (p : f64 -> f64 -> bool) (a b : list f64) : bool :=
  (length a =? length b)%nat && forallb (fun q => p (fst q) (snd q)) (combine a b).
Definition got (r : outcome (list f64)) : list f64 := match r with Ok l => l | _ => [] end.
(** linspace of the tests, never empty. *)
Definition lspace (a b : f64) (n : nat) : list f64 := got (linspace o plain a b n).
Definition fi (i : nat) : f64 := z64 (Z.of_nat i).
Definition sum (x : list f64) : f64 := fold_left (fadd o) x (z64 0).
Definition sum_sq (x : list f64) : f64 := fold_left (fun v a => fadd o v (fmul o a a)) x (z64 0).
(** `(0..n).map(|i| linspace(-s * i, s * (i + 1), m))` *)
Definition box (s : Z) (n m : nat) : list (list f64) :=
  map (fun i => lspace (fmul o (z64 (-s)) (fi i)) (fmul o (z64 s) (fi (i + 1))) m) (seq 0 n).
Definition nth0 (l : list f64) (i : nat) : f64 := nth i l (z64 0).
Definition transpose (n : nat) (pts : list (list f64)) : list (list f64) :=
  map (fun i => map (fun x => nth0 x i) pts) (seq 0 n).
Definition starts_of (xs : list (list f64)) := map (fun x => nth0 x 0) xs.
Definition steps_of (xs : list (list f64)) := map (fun x => fsub o (nth0 x 1) (nth0 x 0)) xs.
(** An interpn call with a zeroed output array returns Ok and an output satisfying [p]. *)
Definition returns_all (r : outcome unit * list f64) (p : list f64 -> bool) : bool :=
  match fst r with Ok _ => p (snd r) | _ => false end.
(** Noise in place of `(randn() - 0.5) / 10.0`, the same for every axis. *)
Definition noise (i : nat) : f64 := fdiv o (z64 (Z.of_nat ((37 * i + 11) mod 97) - 48)) (z64 1000).
Definition noisy (xs : list (list f64)) : list (list f64) :=
  map (fun k => let x := nth k xs [] in map (fun i => fadd o (nth0 x i) (noise (i + 5 * k))) (seq 0 (length x))) (seq 0 (length xs)).
Definition run (f : list (list f64) -> list f64 -> outcome unit * list f64) (n : nat) (pts : list (list f64)) :=
  f (transpose n pts) (repeat (z64 0) (length pts)).
Definition up_to (n : nat) (p : nat -> bool) : bool := forallb p (seq 1 n).

(** ** src/multilinear/regular.rs:412-495 *)
Definition t_mlr_box (c : cfg) (n : nat) : bool :=
  let xs := box 5 n 2 in let pts := meshgrid (box 7 n 3) in
  returns_all (run (mlr_interpn o c (repeat 2 n) (starts_of xs) (steps_of xs) (map sum (meshgrid xs))) n pts)
    (fun out => all2 (close tol12) out (map sum pts)).
Definition hat (x : f64) : f64 := if fle o x (z64 1) then x else fsub o (z64 2) x.
Definition hat_y : list f64 := map (fun i => hat (fi i)) (seq 0 3).
Definition hat_obs : list f64 := lspace (z64 (-2)) (z64 4) 100.
Definition t_mlr_hat (c : cfg) : bool :=
  match mlr_new o c [3] [z64 0] [z64 1] hat_y with
  | Ok s => forallb (fun x => match mlr_interp_one o c s [x] with Ok y => same (hat x) y | _ => false end) hat_obs
  | _ => false end.
(** ** src/multilinear/regular_recursive.rs: the same box, and the hat function. *)
Definition t_mlrr_box (c : cfg) (n : nat) : bool :=
  let xs := box 5 n 2 in let pts := meshgrid (box 7 n 3) in
  returns_all (run (mlrr_interpn o c (repeat 2 n) (starts_of xs) (steps_of xs) (map sum (meshgrid xs))) n pts)
    (fun out => all2 (close tol12) out (map sum pts)).

(** ** src/multilinear/rectilinear.rs:373-476 *)
Definition small_x := lspace (z64 (-1)) (z64 1) 3.
Definition small_y := [f64_lit 1 (-1); fdiv o (z64 6) (z64 10)].
Definition small_pts := let g := lspace (z64 (-10)) (z64 10) 5 in meshgrid [g; g].
Definition t_mlc_small (c : cfg) : bool :=
  match mlc_new o c [small_x; small_y] (map sum (meshgrid [small_x; small_y])) with
  | Ok s => forallb (fun x => match mlc_interp_one o c s x with Ok y => close tol12 (sum x) y | _ => false end) small_pts
  | _ => false end.
Definition t_mlc_box (c : cfg) (n : nat) : bool :=
  let xs := noisy (box 5 n 2) in let pts := meshgrid (box 7 n 3) in
  returns_all (run (mlc_interpn o c xs (map sum (meshgrid xs))) n pts) (fun out => all2 (close tol12) out (map sum pts)).
Definition t_mlcr_box (c : cfg) (n : nat) : bool :=
  let xs := noisy (box 5 n 2) in let pts := meshgrid (box 7 n 3) in
  returns_all (run (mlcr_interpn o c xs (map sum (meshgrid xs))) n pts) (fun out => all2 (close tol12) out (map sum pts)).
Definition t_mlc_hat (c : cfg) : bool :=
  match mlc_new o c [map fi (seq 0 3)] hat_y with
  | Ok s => forallb (fun x => match mlc_interp_one o c s [x] with Ok y => same (hat x) y | _ => false end) hat_obs
  | _ => false end.

(** ** src/nearest/regular.rs:304-417 and src/nearest/rectilinear.rs:274-391, with the tests' own
    search for the nearest index. *)
Definition near_reg (value start step : f64) (dim : Z) : Z :=
  match to_isize o (ffloor o (fdiv o (fsub o value start) step)) with
  | Some floc =>
      let origin := Z.min (Z.max floc 0) (Z.max (dim - 2) 0) in
      let dt := fdiv o (fsub o value (fadd o start (fmul o step (z64 origin)))) step in
      if fle o dt (f64_lit 1 (-1)) then origin else Z.min (origin + 1) (dim - 1)
  | None => -1
  end.
Definition near_rect (value : f64) (g : list f64) : nat :=
  let iloc := Z.of_nat (length (filter (fun x => flt o x value) g)) - 1 in
  let origin := Z.to_nat (Z.min (Z.max iloc 0) (Z.max (Z.of_nat (length g) - 2) 0)) in
  let dt := fdiv o (fsub o value (nth0 g origin)) (fsub o (nth0 g (origin + 1)) (nth0 g origin)) in
  if fle o dt (f64_lit 1 (-1)) then origin else (origin + 1)%nat.
Definition t_nr_box (c : cfg) (n : nat) : bool :=
  let xs := box 5 n 2 in let pts := meshgrid (box 7 n 3) in
  let expect := map (fun p => sum (map (fun d => let s := nth0 (starts_of xs) d in let h := nth0 (steps_of xs) d in
                                  fadd o s (fmul o h (z64 (near_reg (nth0 p d) s h 2)))) (seq 0 n))) pts in
  returns_all (run (nr_interpn o c (repeat 2 n) (starts_of xs) (steps_of xs) (map sum (meshgrid xs))) n pts)
    (fun out => all2 (close tol12) out expect).
Definition t_nr_hat (c : cfg) : bool :=
  match nr_new o c [3] [z64 0] [z64 1] hat_y with
  | Ok s => forallb (fun x => match nr_interp_one o c s [x] with
              | Ok y => same (nth0 hat_y (Z.to_nat (near_reg x (z64 0) (z64 1) 3))) y | _ => false end) hat_obs
  | _ => false end.
Definition t_nc_small (c : cfg) : bool :=
  match nc_new o c [small_x; small_y] (map sum (meshgrid [small_x; small_y])) with
  | Ok s => forallb (fun p => match nc_interp_one o c s p with
              | Ok y => close tol12 (fadd o (nth0 small_x (near_rect (nth0 p 0) small_x)) (nth0 small_y (near_rect (nth0 p 1) small_y))) y
              | _ => false end) small_pts
  | _ => false end.
Definition t_nc_box (c : cfg) (n : nat) : bool :=
  let xs := noisy (box 5 n 2) in let pts := meshgrid (box 7 n 3) in
  let expect := map (fun p => sum (map (fun d => let g := nth d xs [] in nth0 g (near_rect (nth0 p d) g)) (seq 0 n))) pts in
  returns_all (run (nc_interpn o c xs (map sum (meshgrid xs))) n pts) (fun out => all2 (close tol12) out expect).
Definition t_nc_hat (c : cfg) : bool :=
  let x := map fi (seq 0 3) in
  match nc_new o c [x] hat_y with
  | Ok s => forallb (fun v => match nc_interp_one o c s [v] with Ok y => same (nth0 hat_y (near_rect v x)) y | _ => false end) hat_obs
  | _ => false end.

(** ** src/multicubic/regular.rs:607-792, regular_recursive.rs, rectilinear.rs, rectilinear_recursive.rs:
    linear and quadratic data. *)
Definition t_cubic_reg (f : list Z -> list f64 -> list f64 -> list f64 -> bool -> list (list f64) -> list f64 -> outcome unit * list f64)
  (tol : f64) (value : list f64 -> f64) (lin : bool) (n : nat) : bool :=
  let xs := box 5 n 4 in let pts := meshgrid (box 7 n 6) in
  returns_all (run (f (repeat 4 n) (starts_of xs) (steps_of xs) (map value (meshgrid xs)) lin) n pts)
    (fun out => all2 (close tol) out (map value pts)).
Definition t_cubic_rect (f : list (list f64) -> list f64 -> bool -> list (list f64) -> list f64 -> outcome unit * list f64)
  (tol : f64) (value : list f64 -> f64) (lin : bool) (n : nat) : bool :=
  let xs := noisy (box 5 n 4) in let pts := meshgrid (box 7 n 6) in
  returns_all (run (f xs (map value (meshgrid xs)) lin) n pts) (fun out => all2 (close tol) out (map value pts)).

(** The sine test: `sin(x * 6.28 / 10.0)` at the grid and observation points, tabulated. *)
Definition sine0_grid : list f64 := [f64_lit 0 0;
  f64_lit (6158291459711407) (-54);
  f64_lit (5787273677630069) (-53);
  f64_lit (7798071381060125) (-53);
  f64_lit (8869250306379129) (-53);
  f64_lit (8871740099679943) (-53);
  f64_lit (7805240756458281) (-53);
  f64_lit (724782346284645) (-50);
  f64_lit (3092622904864835) (-53);
  f64_lit (1836203796792477) (-60)].
Definition sine0_obs : list f64 := [f64_lit 0 0;
  f64_lit (5072739905971117) (-54);
  f64_lit (2433732584250093) (-52);
  f64_lit (3402312152420623) (-52);
  f64_lit (8191068248345235) (-53);
  f64_lit (2228647159384089) (-51);
  f64_lit (2229157291322755) (-51);
  f64_lit (8197024686615827) (-53);
  f64_lit (6814014584243205) (-53);
  f64_lit (4879529310333735) (-53);
  f64_lit (159383223512795) (-49);
  f64_lit (1836203796792477) (-60)].


Definition t_sine1 (c : cfg) : bool :=
  let xs := box 5 1 10 in
  returns_all (run (mcr_interpn o c (repeat 10 1) (starts_of xs) (steps_of xs) sine0_grid false) 1 (meshgrid (box 5 1 12)))
    (fun out => all2 (close (fdiv o (z64 2) (z64 100))) out sine0_obs).
(** ** src/one_dim/linear.rs:96-179 and hold.rs:118-179, with other noise: [n] points, linspace(-3.14, 314). *)
Definition d_n : nat := 77.
Definition d_start : f64 := fdiv o (z64 (-314)) (z64 100).
Definition d_stop : f64 := z64 314.
Definition frac (i : nat) : f64 := fdiv o (z64 (Z.of_nat ((503 * i + 172) mod 997))) (z64 997).
Definition d_vals : list f64 := map frac (seq 0 d_n).
Definition d_xreg : list f64 := lspace d_start d_stop d_n.
(** an increasing, unevenly spaced grid of n points *)
Definition d_xrect : list f64 :=
  map (fun i => fadd o (fmul o (fdiv o (fadd o (fi i) (frac i)) (fi 78)) (fsub o d_stop d_start)) d_start) (seq 0 d_n).
Definition d_locs : list f64 :=
  map (fun i => fadd o (fmul o (fmul o (frac (i + 100)) (z64 2)) (fsub o d_stop d_start)) (fmul o (z64 2) d_start)) (seq 0 60).
Definition cell_of (xs : list f64) (loc : f64) : nat :=
  Nat.min (Z.to_nat (Z.max (Z.of_nat (length (filter (fun v => flt o v loc) xs)) - 1) 0)) (length xs - 2).
Definition rel_ok (y e : f64) : bool := flt o (fabs o (fdiv o (fsub o y e) e)) tol12.
Definition check_linear (hold : bool) (xs : list f64) (loc y : f64) : bool :=
  let j := cell_of xs loc in
  let xl := nth0 xs j in let xr := nth0 xs (j + 1) in let yl := nth0 d_vals j in let yr := nth0 d_vals (j + 1) in
  let first := nth0 xs 0 in let last := nth0 xs (d_n - 1) in
  let line := rel_ok y (fadd o yl (fmul o (fdiv o (fsub o yr yl) (fsub o xr xl)) (fsub o loc xl))) in
  if fle o first loc && fle o loc last then
    fle o y (fmax o yl yr) && fle o (fmin o yl yr) y && fle o xl loc && fle o loc xr && line
  else if flt o last loc && hold then rel_ok y (nth0 d_vals (d_n - 1))
  else if flt o loc first && hold then rel_ok y (nth0 d_vals 0)
  else line.
Definition t_one_dim_linear (c : cfg) : bool :=
  match r1_new o c d_start (fsub o (nth0 d_xreg 1) (nth0 d_xreg 0)) d_vals, c1_new d_xrect d_vals with
  | Ok gr, Ok gc =>
      all2 (check_linear false d_xreg) d_locs (got (eval1_alloc o (linear1 o c (r1_at o c gr)) d_locs)) &&
      all2 (check_linear true d_xreg) d_locs (got (eval1_alloc o (hold_last1 o c (r1_at o c gr)) d_locs)) &&
      all2 (check_linear false d_xrect) d_locs (got (eval1_alloc o (linear1 o c (c1_at o c gc)) d_locs)) &&
      all2 (check_linear true d_xrect) d_locs (got (eval1_alloc o (hold_last1 o c (c1_at o c gc)) d_locs))
  | _, _ => false
  end.
Definition check_hold (loc : f64) (ys : f64 * (f64 * f64)) : bool :=
  let '(yleft, (yright, ynear)) := ys in
  let xs := d_xreg in let j := cell_of xs loc in
  let xl := nth0 xs j in let xr := nth0 xs (j + 1) in let yl := nth0 d_vals j in let yr := nth0 d_vals (j + 1) in
  (if fle o (nth0 xs 0) loc && fle o loc (nth0 xs (d_n - 1)) then
     fle o xl loc && fle o loc xr && same yleft yl && same yright yr
   else if flt o (nth0 xs (d_n - 1)) loc then same yleft yr && same yright yr
   else if flt o loc (nth0 xs 0) then same yleft yl && same yright yl
   else true)
  && same ynear (if fle o (fsub o loc xl) (fsub o xr loc) then yl else yr).
Definition t_hold (c : cfg) : bool :=
  match r1_new o c d_start (fsub o (nth0 d_xreg 1) (nth0 d_xreg 0)) d_vals with
  | Ok g =>
      let l := got (eval1_alloc o (left1 (r1_at o c g)) d_locs) in
      let r := got (eval1_alloc o (right1 (r1_at o c g)) d_locs) in
      let m := got (eval1_alloc o (nearest1 o (r1_at o c g)) d_locs) in
      (length l =? 60)%nat && (length r =? 60)%nat && (length m =? 60)%nat &&
      forallb (fun q => check_hold (fst q) (snd q)) (combine d_locs (combine l (combine r m)))
  | _ => false
  end.

(** ** test/test_interpn.py *)
Definition arr1 (l : list f64) : ndarray f64 := mkNd [length l] l.
Definition half64 := f64_lit 1 (-1).
Definition py_regular_grid := [z64 (-1); fneg o half64; z64 0; half64; z64 1].
Definition py_rect_grid := [z64 (-1); f64_lit (-1) (-2); half64; z64 2].
Definition default_atol : f64 := fdiv o (z64 1) (ten_to 8).
Definition py_call (c : cfg) (obs grid vals : list f64) :=
  fst (py_interpn o c [arr1 obs] [arr1 grid] (arr1 vals) "linear" None true false true default_atol).
Definition shape_is (r : py (ndarray f64)) (s : list nat) : bool :=
  match r with Ret a => if list_eq_dec Nat.eq_dec (nd_shape a) s then true else false | _ => false end.
Definition value_error (r : py (ndarray f64)) : bool := match r with Raise ValueError => true | _ => false end.
Definition py_vals (n : nat) := lspace (z64 0) (z64 10) n.
Definition t_py (c : cfg) : bool :=
  shape_is (py_call c [fneg o half64; half64] py_regular_grid (py_vals 5)) [2]%nat &&
  value_error (py_call c [fneg o half64; f64_lit 3 (-1)] py_regular_grid (py_vals 5)) &&
  shape_is (py_call c [fneg o half64; z64 1] py_rect_grid (py_vals 4)) [2]%nat &&
  value_error (py_call c [f64_lit (-3) (-1); f64_lit 1 (-2)] py_rect_grid (py_vals 4)).

(** Every test, without and with the fma feature. *)
Example linear_tests : forallb (fun c => up_to 3 (t_mlr_box c) && up_to 3 (t_mlrr_box c) && t_mlr_hat c &&
  t_mlc_small c && up_to 3 (t_mlc_box c) && up_to 3 (t_mlcr_box c) && t_mlc_hat c) [plain; fused] = true.
Proof. vm_cast_no_check (eq_refl true). Qed.
Example nearest_tests : forallb (fun c => up_to 3 (t_nr_box c) && t_nr_hat c && t_nc_small c && up_to 3 (t_nc_box c) && t_nc_hat c)
  [plain; fused] = true.
Proof. vm_cast_no_check (eq_refl true). Qed.
Definition cubic_tests (n : nat) (c : cfg) : bool :=
  up_to n (t_cubic_reg (mcr_interpn o c) tol12 sum false) && up_to n (t_cubic_reg (mcr_interpn o c) tol12 sum true) &&
  up_to n (t_cubic_reg (mcrr_interpn o c) tol12 sum false) && up_to n (t_cubic_reg (mcrr_interpn o c) tol12 sum true) &&
  up_to n (t_cubic_reg (mcr_interpn o c) tol10 sum_sq false) && up_to n (t_cubic_reg (mcrr_interpn o c) tol10 sum_sq false) &&
  up_to n (t_cubic_rect (mcc_interpn o c) tol10 sum true) && up_to n (t_cubic_rect (mcc_interpn o c) tol10 sum false) &&
  up_to n (t_cubic_rect (mccr_interpn o c) tol10 sum true) && up_to n (t_cubic_rect (mccr_interpn o c) tol10 sum false) &&
  up_to n (t_cubic_rect (mcc_interpn o c) tol10 sum_sq false) && up_to n (t_cubic_rect (mccr_interpn o c) tol10 sum_sq false) &&
  t_sine1 c.
Example cubic_tests_pass : cubic_tests 2 plain && cubic_tests 1 fused = true.
Proof. vm_cast_no_check (eq_refl true). Qed.
Example one_dim_tests : forallb (fun c => t_one_dim_linear c && t_hold c) [plain; fused] = true.
Proof. vm_cast_no_check (eq_refl true). Qed.
Example python_tests : t_py plain = true.
Proof. vm_cast_no_check (eq_refl true). Qed.
