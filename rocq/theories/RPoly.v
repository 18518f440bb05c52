(** Derivatives of the polynomials of degree at most 3. *)
From Coq Require Import Reals.
From Coquelicot Require Import Coquelicot.
Open Scope R_scope.

Lemma cubic_derivable (c0 c1 c2 c3 u t : R) : derivable_pt_lim
  (fun x => c0 + (x - u) * (c1 + (x - u) * (c2 + (x - u) * c3))) t
  (c1 + (t - u) * (2 * c2 + (t - u) * (3 * c3))).
Proof. apply is_derive_Reals. auto_derive; [exact I|ring]. Qed.

Lemma affine_derivable (c0 c1 u t : R) : derivable_pt_lim (fun x => c0 + c1 * (x - u)) t c1.
Proof. apply is_derive_Reals. auto_derive; [exact I|ring]. Qed.
