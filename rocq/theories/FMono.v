(** Within one cell the floating-point result does not turn back along the last axis. *)
From Coq Require Import Reals Lra Lia List Bool ZifyBool ZifyNat PeanoNat String.
From Flocq Require Import Core.Core Relative Plus_error Mult_error IEEE754.BinarySingleNaN.
From Verif Require Import Base Ops FInst ModelCore ModelLinear ModelOneDim ModelPython Spec SpecOrder SpecIEEE SpecPython SpecDetect SpecPixel SpecMonotone.
From Verif Require Import CoreLemmas TensorLemmas MethodLemmas SearchLemmas MethodChar GenLemmas GenProofs OrderLemmas OrderProofs FLemmas UtilProofs FProofs FProofs2 FError F1D FPython FSign.
Import ListNotations.
Unset Implicit Arguments.
Open Scope string_scope.
Open Scope list_scope.
Open Scope R_scope.

Section B.
Variables prec emax : Z.
Context (Hp : Prec_gt_0 prec) (He : Prec_lt_emax prec emax).
Notation fl := (binary_float prec emax).
Notation o := (BOps Hp He).
Notation fin x := (is_finite x = true).
Notation rnd := (rnd prec emax).

(** A finite result has finite operands and is the rounded exact result. *)
Lemma sub_fin (x y : fl) : fin (fsub o x y) -> fin x /\ fin y /\ B2R (fsub o x y) = rnd (B2R x - B2R y).
Proof using.
  intros F. assert (Q : fin x /\ fin y).
  { destruct x as [sx|sx| |sx mx ex Bx]; destruct y as [sy|sy| |sy my ey By]; try (split; reflexivity); try discriminate F.
    destruct sx, sy; discriminate F. }
  destruct Q as (Fx & Fy). split; [exact Fx|]. split; [exact Fy|].
  destruct (sub_spec Hp He x y Fx Fy) as [(_ & V)|(E & _)]; [exact V|]. rewrite E in F. discriminate F.
Qed.
Lemma add_fin (x y : fl) : fin (fadd o x y) -> fin x /\ fin y /\ B2R (fadd o x y) = rnd (B2R x + B2R y).
Proof using.
  intros F. assert (Q : fin x /\ fin y).
  { destruct x as [sx|sx| |sx mx ex Bx]; destruct y as [sy|sy| |sy my ey By]; try (split; reflexivity); try discriminate F.
    destruct sx, sy; discriminate F. }
  destruct Q as (Fx & Fy). split; [exact Fx|]. split; [exact Fy|].
  destruct (add_spec Hp He x y Fx Fy) as [(_ & V)|(E & _)]; [exact V|]. rewrite E in F. discriminate F.
Qed.
Lemma mul_fin (x y : fl) : fin (fmul o x y) -> fin x /\ fin y /\ B2R (fmul o x y) = rnd (B2R x * B2R y).
Proof using.
  intros F. assert (Q : fin x /\ fin y).
  { destruct x as [sx|sx| |sx mx ex Bx]; destruct y as [sy|sy| |sy my ey By]; try (split; reflexivity); discriminate F. }
  destruct Q as (Fx & Fy). split; [exact Fx|]. split; [exact Fy|].
  destruct (mul_spec Hp He x y Fx Fy) as [(_ & V)|(E & _)]; [exact V|]. rewrite E in F. discriminate F.
Qed.
Lemma fma_fin (x y z : fl) : fin (fmuladd o x y z) ->
  fin x /\ fin y /\ fin z /\ B2R (fmuladd o x y z) = rnd (B2R x * B2R y + B2R z).
Proof using.
  intros F. assert (Q : fin x /\ fin y /\ fin z).
  { destruct x as [sx|sx| |sx mx ex Bx]; destruct y as [sy|sy| |sy my ey By]; destruct z as [sz|sz| |sz mz ez Bz];
      try (split; [|split]; reflexivity); try discriminate F.
    all: destruct sx, sy, sz; discriminate F. }
  destruct Q as (Fx & Fy & Fz). split; [exact Fx|]. split; [exact Fy|]. split; [exact Fz|].
  assert (C := Bfma_correct prec emax Hp He mode_NE x y z Fx Fy Fz). cbv zeta in C.
  change (round radix2 (SpecFloat.fexp prec emax) (round_mode mode_NE) (B2R x * B2R y + B2R z)) with (rnd (B2R x * B2R y + B2R z)) in C.
  destruct (Rlt_bool _ _); [apply C|]. exfalso.
  change (B2SF (fmuladd o x y z) = SpecFloat.S754_infinity (Rlt_bool (B2R x * B2R y + B2R z) 0)) in C.
  destruct (fmuladd o x y z); simpl in C; try discriminate C. discriminate F.
Qed.
(** The reciprocal, 0 for 0 and for infinities. *)
Definition inv (y : fl) : R := if Req_bool (B2R y) 0 then 0 else / B2R y.
Lemma div_fin (x y : fl) : fin (fdiv o x y) -> fin x /\ B2R (fdiv o x y) = rnd (B2R x * inv y).
Proof using.
  intros F. assert (Fx : fin x).
  { destruct x as [sx|sx| |sx mx ex Bx]; try reflexivity; destruct y as [sy|sy| |sy my ey By]; discriminate F. }
  split; [exact Fx|]. unfold inv. destruct (Req_bool_spec (B2R y) 0) as [E|N].
  - rewrite Rmult_0_r, rnd_0 by auto. destruct y as [sy|sy| |sy my ey By].
    + destruct x as [sx|sx| |sx mx ex Bx]; discriminate F.
    + destruct x as [sx|sx| |sx mx ex Bx]; try discriminate F; reflexivity.
    + destruct x as [sx|sx| |sx mx ex Bx]; discriminate F.
    + exfalso. simpl in E. apply Float_prop.eq_0_F2R in E. destruct sy; discriminate E.
  - destruct (div_spec Hp He x y Fx N) as [(_ & V)|(Ei & _)]; [exact V|]. rewrite Ei in F. discriminate F.
Qed.
Lemma inv_nonneg y : 0 <= B2R y -> 0 <= inv y.
Proof using. intros H. unfold inv. destruct (Req_bool_spec (B2R y) 0); [lra|]. left. apply Rinv_0_lt_compat. lra. Qed.

(** The last step. *)
Lemma lerp_mono c (ta tb f0 f1 : fl) : B2R ta <= B2R tb ->
  let va := lin_nd o c ta [f0; f1] in let vb := lin_nd o c tb [f0; f1] in fin va -> fin vb ->
  fin ta /\ fin tb /\ fin f0 /\ fin f1 /\ (B2R f0 <= B2R f1 -> B2R va <= B2R vb) /\ (B2R f1 <= B2R f0 -> B2R vb <= B2R va).
Proof using.
  intros H va vb Fa Fb. unfold va, vb, lin_nd in *. cbv zeta in *. set (d := fsub o f1 f0) in *.
  assert (S : fin d -> fin f1 /\ fin f0 /\ (B2R f0 <= B2R f1 -> 0 <= B2R d) /\ (B2R f1 <= B2R f0 -> B2R d <= 0)).
  { intros Fd. destruct (sub_fin f1 f0 Fd) as (F1 & F0 & V). fold d in V. repeat (split; auto).
    - intros. rewrite V. apply rnd_nonneg; auto. lra.
    - intros. rewrite V. apply rnd_nonpos; auto. lra. }
  assert (P1 : 0 <= B2R d -> B2R ta * B2R d <= B2R tb * B2R d) by (intros; apply Rmult_le_compat_r; auto).
  assert (P2 : B2R d <= 0 -> B2R tb * B2R d <= B2R ta * B2R d).
  { intros. assert (B2R ta * - B2R d <= B2R tb * - B2R d) by (apply Rmult_le_compat_r; lra). lra. }
  destruct (use_fma c).
  - destruct (fma_fin _ _ _ Fa) as (F1 & Fd & F0 & Va). destruct (fma_fin _ _ _ Fb) as (F2 & _ & _ & Vb).
    destruct (S Fd) as (Ff1 & _ & S1 & S2). rewrite Va, Vb.
    do 4 (split; [assumption|]). split; intros C; apply rnd_le; auto; specialize (S1); specialize (S2).
    + specialize (P1 (S1 C)). lra.
    + specialize (P2 (S2 C)). lra.
  - destruct (add_fin _ _ Fa) as (F0 & Fm & Va). destruct (add_fin _ _ Fb) as (_ & Fn & Vb).
    destruct (mul_fin _ _ Fm) as (F1 & Fd & Ma). destruct (mul_fin _ _ Fn) as (F2 & _ & Mb).
    destruct (S Fd) as (Ff1 & _ & S1 & S2). rewrite Va, Vb, Ma, Mb.
    do 4 (split; [assumption|]). split; intros C; apply rnd_le; auto; apply Rplus_le_compat_l; apply rnd_le; auto.
Qed.
(** A finite result has a finite position. *)
Lemma lerp_fin c (t f0 f1 : fl) : fin (lin_nd o c t [f0; f1]) -> fin t.
Proof using. intros F. apply (lerp_mono c t t f0 f1 (Rle_refl _) F F). Qed.
(** The position in the cell. *)
Lemma position_mono (xa xb a h : fl) : 0 <= B2R h -> B2R xa <= B2R xb ->
  fin (fdiv o (fsub o xa a) h) -> fin (fdiv o (fsub o xb a) h) ->
  B2R (fdiv o (fsub o xa a) h) <= B2R (fdiv o (fsub o xb a) h).
Proof using.
  intros Hh H Fa Fb. destruct (div_fin _ _ Fa) as (Sa & ->). destruct (div_fin _ _ Fb) as (Sb & ->).
  destruct (sub_fin _ _ Sa) as (_ & _ & ->). destruct (sub_fin _ _ Sb) as (_ & _ & ->).
  apply rnd_le; auto. apply Rmult_le_compat_r; [apply inv_nonneg; auto|]. apply rnd_le; auto. lra.
Qed.
(** Three points in one cell. *)
Lemma three c (xa xb xc a h f0 f1 : fl) (v := fun x => lin_nd o c (fdiv o (fsub o x a) h) [f0; f1]) :
  0 <= B2R h -> B2R xa <= B2R xb <= B2R xc -> fin (v xa) -> fin (v xb) -> fin (v xc) ->
  (B2R f0 <= B2R f1 -> rising (v xa) (v xb) (v xc)) /\ (B2R f1 <= B2R f0 -> falling (v xa) (v xb) (v xc)).
Proof using.
  intros Hh (H1 & H2) Fa Fb Fc.
  assert (Ta := lerp_fin c _ f0 f1 Fa). assert (Tb := lerp_fin c _ f0 f1 Fb). assert (Tc := lerp_fin c _ f0 f1 Fc).
  destruct (lerp_mono c _ _ f0 f1 (position_mono _ _ a h Hh H1 Ta Tb) Fa Fb) as (_ & _ & _ & _ & A1 & A2).
  destruct (lerp_mono c _ _ f0 f1 (position_mono _ _ a h Hh H2 Tb Tc) Fb Fc) as (_ & _ & _ & _ & B1 & B2).
  split; intros C; split; auto.
Qed.

(** The partial results before the last axis. *)
Lemma tens_last (V : list Z -> fl) nd nd' os os' n : length os = S n -> length os' = S n ->
  (forall k, (k <= n)%nat -> nth k os 0%Z = nth k os' 0%Z) -> (forall k vs, (k < n)%nat -> nd k vs = nd' k vs) ->
  forall k suf, (k <= n)%nat -> tens 2 V nd os k suf = tens 2 V nd' os' k suf.
Proof using.
  intros L L' H Hn k. induction k as [|k IH]; intros suf Hk; [reflexivity|]. cbn [tens].
  rewrite Hn by lia. f_equal. apply map_ext. intros i. rewrite <- H by lia. apply IH. lia.
Qed.

(** Rectilinear grids. *)
Lemma bracketing_unique (g : list fl) x i j : increasing_grid o g -> bracketing_cell o x g i -> bracketing_cell o x g j -> i = j.
Proof using.
  intros I (Ri & A1 & A2) (Rj & B1 & B2).
  assert (ZL : Z.of_nat (length g) = zlen g) by reflexivity.
  assert (W : forall p q, (0 <= p <= zlen g - 2)%Z -> (0 <= q <= zlen g - 2)%Z ->
     (forall b, (p < zlen g - 2)%Z -> nth_error g (Z.to_nat (p + 1)) = Some b -> flt o b x = false) ->
     (forall a, (0 < q)%Z -> nth_error g (Z.to_nat q) = Some a -> flt o a x = true) -> (p < q)%Z -> False).
  { intros p q Hp' Hq P1 P2 C.
    assert (Ea : nth_error g (Z.to_nat (p + 1)) = Some (nth (Z.to_nat (p + 1)) g (fzero o))) by (apply nth_error_nth'; lia).
    assert (Eb : nth_error g (Z.to_nat q) = Some (nth (Z.to_nat q) g (fzero o))) by (apply nth_error_nth'; lia).
    specialize (P1 _ ltac:(lia) Ea). specialize (P2 _ ltac:(lia) Eb).
    destruct (Z.eq_dec (p + 1) q) as [<-|N]; [congruence|].
    assert (Q := I (Z.to_nat (p + 1)) (Z.to_nat q) _ _ ltac:(lia) Ea Eb).
    assert (T := @BOps_transitive _ _ Hp He _ _ _ Q P2). congruence. }
  destruct (Z_lt_le_dec i j) as [C|C]; [exfalso; eapply (W i j); eauto|].
  destruct (Z_lt_le_dec j i) as [D|D]; [exfalso; eapply (W j i); eauto|]. lia.
Qed.
Lemma nth_front A (p : list A) a b k d : (k < length p)%nat -> nth k (p ++ [a]) d = nth k (p ++ [b]) d.
Proof using. intros H. rewrite !app_nth1 by auto. reflexivity. Qed.
Lemma nth_end A (p : list A) a n d : n = length p -> nth n (p ++ [a]) d = a.
Proof using. intros ->. rewrite app_nth2, Nat.sub_diag by lia. reflexivity. Qed.

(** [mlc_value] with the last axis spelled out. *)
Lemma rect_last c grids vals p x (n := length p) (g := nth n grids []) i : length grids = S n ->
  rect_wf 2 (mkRect grids (map zlen grids) vals) -> rect_cell o g x = i ->
  exists f0 f1, forall y, rect_cell o g y = i ->
  mlc_value o c (mkRect grids (map zlen grids) vals) (p ++ [y]) = lin_nd o c (fdiv o (fsub o y (gz o g i)) (fsub o (gz o g (i + 1)) (gz o g i))) [f0; f1].
Proof using.
  intros Ln W Ex. set (s := mkRect grids (map zlen grids) vals) in *.
  set (V := entry (fzero o) (g_dims s) (g_vals s)).
  set (nd := fun y k => lin_nd o c (rect_dtp o (nth k (g_grids s) []) (nth k (p ++ [y]) (fzero o)) (rect_cell o (nth k (g_grids s) []) (nth k (p ++ [y]) (fzero o))))).
  exists (tens 2 V (nd x) (rect_cells o s (p ++ [x])) n [i]), (tens 2 V (nd x) (rect_cells o s (p ++ [x])) n [(i + 1)%Z]).
  intros y Ey. unfold mlc_value. change (length (g_grids s)) with (length grids). rewrite Ln.
  assert (Lx : forall z, length (rect_cells o s (p ++ [z])) = S n) by (intros; rewrite rect_cells_length; exact Ln).
  assert (Cn : forall z k, (k <= n)%nat -> nth k (rect_cells o s (p ++ [z])) 0%Z = rect_cell o (nth k grids []) (nth k (p ++ [z]) (fzero o))).
  { intros z k Hk. unfold rect_cells. rewrite nth_map_seq by (change (g_grids s) with grids; lia). reflexivity. }
  assert (Cl : forall z, nth n (p ++ [z]) (fzero o) = z) by (intros; apply nth_end; reflexivity).
  cbn [tens seq map]. rewrite (Cn y n) by lia. rewrite Cl. fold g. rewrite Ey.
  change (Z.of_nat 0) with 0%Z. change (Z.of_nat 1) with 1%Z. rewrite Z.add_0_r.
  change (nth n (g_grids s) []) with g. rewrite ?Cl, ?Ey. unfold rect_dtp at 1.
  fold V. f_equal. f_equal; [|f_equal].
  all: apply (tens_last V _ _ _ _ n); auto; try lia.
  all: try (intros k Hk; rewrite !Cn by lia; destruct (Nat.eq_dec k n) as [->|N];
     [rewrite !Cl; fold g; congruence|rewrite (nth_front _ p y x k) by lia; reflexivity]).
  all: intros k vs Hk; unfold nd; rewrite (nth_front _ p y x k) by lia; reflexivity.
Qed.

Theorem rectilinear_monotone c grids vals eval p g i xa xb xc ya yb yc :
  float_rectilinear Hp He c grids vals eval -> length grids = S (length p) -> nth_error grids (length p) = Some g ->
  increasing_grid o g -> Forall (fun x => bracketing_cell o x g i) [xa; xb; xc] -> B2R xa <= B2R xb <= B2R xc ->
  eval (p ++ [xa]) = Ok ya -> eval (p ++ [xb]) = Ok yb -> eval (p ++ [xc]) = Ok yc -> fin ya -> fin yb -> fin yc ->
  rising ya yb yc \/ falling ya yb yc.
Proof using.
  intros H Ln Eg I HC Hx Ea Eb Ec Fa Fb Fc. destruct (float_rectilinear_inv _ _ _ _ _ _ _ _ H) as (W & E).
  apply (nth_error_nth _ _ []) in Eg.
  assert (D : (2 <= zlen g)%Z) by (destruct W as (_ & _ & D & _); rewrite <- Eg; apply (Forall_nth_lt [] D); cbn [g_grids]; lia).
  assert (HR : forall x, bracketing_cell o x g i -> rect_cell o g x = i).
  { intros x B. eapply bracketing_unique; eauto. apply rect_cell_bracket; auto. }
  assert (HL : forall x, length (p ++ [x]) = length grids) by (intros; rewrite app_length; simpl; lia).
  rewrite E in Ea, Eb, Ec by apply HL.
  apply Forall_cons_iff in HC as (Ca & HC). apply Forall_cons_iff in HC as (Cb & HC). apply Forall_cons_iff in HC as (Cc & _).
  apply HR in Ca, Cb, Cc.
  destruct (rect_last c grids vals p xa i Ln W) as (f0 & f1 & Q); [rewrite Eg; exact Ca|]. rewrite Eg in Q.
  rewrite Q in Ea, Eb, Ec by auto. injection Ea as <-. injection Eb as <-. injection Ec as <-.
  assert (Ri := @rect_cell_range _ o g xa D). rewrite Ca in Ri.
  assert (ZL : Z.of_nat (length g) = zlen g) by reflexivity.
  set (a := gz o g i) in *. set (b := gz o g (i + 1)) in *.
  assert (Hh : 0 <= B2R (fsub o b a)).
  { destruct (is_finite (fsub o b a)) eqn:Fd.
    - destruct (sub_fin _ _ Fd) as (F1 & F0 & V). rewrite V. apply rnd_nonneg; auto.
      assert (L : flt o a b = true) by (apply (I (Z.to_nat i) (Z.to_nat (i + 1))); [lia|unfold a, gz; apply nth_error_nth'; lia|unfold b, gz; apply nth_error_nth'; lia]).
      apply (ltb_fin Hp He) in L; auto. lra.
    - destruct (fsub o b a); try discriminate Fd; simpl; lra. }
  destruct (three c xa xb xc a (fsub o b a) f0 f1 Hh Hx Fa Fb Fc) as (T1 & T2).
  destruct (Rle_or_lt (B2R f0) (B2R f1)); [left; auto|right; apply T2; lra].
Qed.

(** Regular grids. *)
Lemma reg_cell_floor start h d x i : reg_cell o start h d x = Ok i -> computed_cell Hp He start h x d i.
Proof using.
  unfold reg_cell, computed_cell. set (q := fdiv o (fsub o x start) h).
  assert (T : forall z, to_isize o (ffloor o q) = Some z -> z = Zfloor (B2R q)).
  { intros z. cbn [to_isize BOps]. unfold B_to_isize. destruct (is_finite (ffloor o q)) eqn:Fl; [|discriminate].
    assert (Vl := @floor_val _ _ Hp He q). set (f := ffloor o q) in *.
    assert (T : Btrunc f = Zfloor (B2R q)).
    { apply eq_IZR. rewrite Btrunc_correct by auto. rewrite Vl.
      unfold round, F2R, scaled_mantissa, cexp, FIX_exp. simpl. rewrite !Rmult_1_r. rewrite Ztrunc_IZR. reflexivity. }
    cbv zeta. rewrite T. destruct (_ && _); congruence. }
  destruct (to_isize o (ffloor o q)) as [z|]; cbn [ok_or bind]; [|discriminate].
  intros E. injection E as <-. rewrite (T z eq_refl). reflexivity.
Qed.
Lemma reg_last fma c dims starts steps vals p x osx i (n := length p) (s := mkRegular dims starts steps vals)
  (h := nth n steps (fzero o)) : length dims = S n -> reg_cells o s (p ++ [x]) = Ok osx -> nth n osx 0%Z = i ->
  exists f0 f1 a, forall y osy, reg_cells o s (p ++ [y]) = Ok osy -> nth n osy 0%Z = i ->
  mlr_value prec emax Hp He fma c s (p ++ [y]) osy = lin_nd o c (fdiv o (fsub o y a) h) [f0; f1].
Proof using.
  intros Ln Ex Hx. set (V := entry (fzero o) (r_dims s) (r_vals s)).
  set (nd := fun y os k => lin_nd o c (reg_dtp o fma (nth k (r_starts s) (fzero o)) (nth k (r_steps s) (fzero o)) (nth k (p ++ [y]) (fzero o)) (nth k os 0%Z))).
  exists (tens 2 V (nd x osx) osx n [i]), (tens 2 V (nd x osx) osx n [(i + 1)%Z]).
  exists (if fma then fmuladd o h (uf o i) (nth n starts (fzero o)) else fadd o (nth n starts (fzero o)) (fmul o h (uf o i))).
  intros y osy Ey Hy. unfold mlr_value. change (length (r_dims s)) with (length dims). rewrite Ln.
  assert (Lx := mapM_length _ _ Ex). assert (Ly := mapM_length _ _ Ey). rewrite seq_length in Lx, Ly.
  assert (Cl : forall z, nth n (p ++ [z]) (fzero o) = z) by (intros; apply nth_end; reflexivity).
  assert (Cn : forall k, (k <= n)%nat -> nth k osy 0%Z = nth k osx 0%Z).
  { intros k Hk. destruct (Nat.eq_dec k n) as [->|N]; [congruence|].
    assert (Ax := @mapM_snoc_nth _ 0%Z _ _ _ Ex k ltac:(change (r_dims s) with dims; lia)). assert (Ay := @mapM_snoc_nth _ 0%Z _ _ _ Ey k ltac:(change (r_dims s) with dims; lia)).
    cbv beta in Ax, Ay. rewrite (nth_front _ p y x k) in Ay by lia. rewrite Ax in Ay. injection Ay as Ay. auto. }
  cbn [tens seq map]. rewrite Cl, Hy. change (Z.of_nat 0) with 0%Z. change (Z.of_nat 1) with 1%Z. rewrite Z.add_0_r.
  change (nth n (r_starts s) (fzero o)) with (nth n starts (fzero o)). change (nth n (r_steps s) (fzero o)) with h. unfold reg_dtp at 1.
  fold V. f_equal. f_equal; [|f_equal].
  all: apply (tens_last V _ _ _ _ n); auto; try (change (r_dims s) with dims in *; lia).
  all: intros k vs Hk; unfold nd; rewrite Cn by lia; rewrite (nth_front _ p y x k) by lia; reflexivity.
Qed.
Theorem regular_monotone c dims starts steps vals eval p start h d i xa xb xc ya yb yc :
  float_regular Hp He c dims starts steps vals eval -> length dims = S (length p) ->
  nth_error starts (length p) = Some start -> nth_error steps (length p) = Some h -> nth_error dims (length p) = Some d ->
  Forall (fun x => computed_cell Hp He start h x d i) [xa; xb; xc] -> B2R xa <= B2R xb <= B2R xc ->
  eval (p ++ [xa]) = Ok ya -> eval (p ++ [xb]) = Ok yb -> eval (p ++ [xc]) = Ok yc -> fin ya -> fin yb -> fin yc ->
  rising ya yb yc \/ falling ya yb yc.
Proof using.
  intros H Ln Es Eh Ed HC Hx Ea Eb Ec Fa Fb Fc. destruct (float_regular_inv _ _ _ _ _ _ _ _ _ _ H) as (W & Ps & fma & E).
  assert (Ph : 0 <= B2R h).
  { assert (Q : flt o (fzero o) h = true) by (rewrite Forall_forall in Ps; apply Ps; eapply nth_error_In; eauto).
    destruct (is_finite h) eqn:Fh; [|destruct h; try discriminate Fh; simpl; lra]. apply (ltb_fin Hp He) in Q; auto. change (B2R (fzero o)) with 0 in Q. lra. }
  assert (HL : forall x, length (p ++ [x]) = length dims) by (intros; rewrite app_length; simpl; lia).
  rewrite E in Ea, Eb, Ec by apply HL.
  apply Forall_cons_iff in HC as (Ca & HC). apply Forall_cons_iff in HC as (Cb & HC). apply Forall_cons_iff in HC as (Cc & _).
  set (s := mkRegular dims starts steps vals) in *.
  assert (HI : forall x os, reg_cells o s (p ++ [x]) = Ok os -> computed_cell Hp He start h x d i -> nth (length p) os 0%Z = i).
  { intros x os Eo C. assert (Q := @mapM_snoc_nth _ 0%Z _ _ _ Eo (length p) ltac:(change (r_dims s) with dims; lia)). cbv beta in Q.
    rewrite nth_end in Q by auto. apply (nth_error_nth _ _ (fzero o)) in Es, Eh. apply (nth_error_nth _ _ 0%Z) in Ed.
    cbn [r_dims r_starts r_steps s] in Q. rewrite Es, Eh, Ed in Q. apply reg_cell_floor in Q. unfold computed_cell in *. congruence. }
  destruct (reg_cells o s (p ++ [xa])) as [osa| |] eqn:Oa; try discriminate Ea. destruct (reg_cells o s (p ++ [xb])) as [osb| |] eqn:Ob; try discriminate Eb.
  destruct (reg_cells o s (p ++ [xc])) as [osc| |] eqn:Oc; try discriminate Ec. cbn [bind] in Ea, Eb, Ec.
  assert (Ca' := HI _ _ Oa Ca). assert (Cb' := HI _ _ Ob Cb). assert (Cc' := HI _ _ Oc Cc). clear Ca Cb Cc. rename Ca' into Ca. rename Cb' into Cb. rename Cc' into Cc.
  destruct (reg_last fma c dims starts steps vals p xa osa i Ln Oa Ca) as (f0 & f1 & a & Q). fold s in Q.
  apply (nth_error_nth _ _ (fzero o)) in Eh. rewrite Eh in Q.
  rewrite (Q _ _ Oa Ca) in Ea. rewrite (Q _ _ Ob Cb) in Eb. rewrite (Q _ _ Oc Cc) in Ec.
  injection Ea as <-. injection Eb as <-. injection Ec as <-.
  destruct (three c xa xb xc a h f0 f1 Ph Hx Fa Fb Fc) as (T1 & T2).
  destruct (Rle_or_lt (B2R f0) (B2R f1)); [left; auto|right; apply T2; lra].
Qed.
(** Axes that start at 0 with a power of two as step: the computed cell is the true one. *)
Lemma pixel_cell start h x d i : (2 <= prec)%Z -> pixel_axis prec emax start h d -> fin x -> (0 <= i <= d - 2)%Z ->
  B2R h * IZR i <= B2R x < B2R h * IZR (i + 1) -> computed_cell Hp He start h x d i.
Proof using.
  intros P2 (Fs & Vs & Fh & (e & Vh & He') & Dp) Fx Hi Hx. rewrite Vh in Hx. unfold computed_cell.
  assert (B0 := bpow_gt_0 radix2 e). assert (I0 : 0 <= IZR i) by (apply IZR_le; lia).
  assert (X0 : 0 <= B2R x) by (assert (0 <= bpow radix2 e * IZR i) by (apply Rmult_le_pos; lra); lra).
  destruct (sub_ok prec emax Hp He x start Fx Fs) as (F1 & V1); [rewrite Vs, Rminus_0_r, rnd_id; auto; apply fl_lt|].
  rewrite Vs, Rminus_0_r, rnd_id in V1 by auto.
  destruct (scaled_floor prec emax Hp He x e P2 Fx X0) as (R0 & RF).
  assert (Zf : Zfloor (B2R x / bpow radix2 e) = i).
  { apply Zfloor_imp. split.
    - apply Rmult_le_reg_r with (bpow radix2 e); [lra|]. unfold Rdiv. rewrite Rmult_assoc, Rinv_l by lra. lra.
    - apply Rmult_lt_reg_r with (bpow radix2 e); [lra|]. unfold Rdiv. rewrite Rmult_assoc, Rinv_l by lra. lra. }
  destruct (div_ok prec emax Hp He (fsub o x start) h F1) as (F2 & V2); [lra| |].
  - rewrite V1, Vh. rewrite Rabs_pos_eq by auto.
    assert (Q := Zfloor_ub (rnd (B2R x / bpow radix2 e))). rewrite RF, Zf, <- plus_IZR in Q.
    eapply Rlt_le_trans; [exact Q|]. apply Rle_trans with (IZR (2 ^ prec)); [apply IZR_le; lia|].
    change (2 ^ prec)%Z with (radix2 ^ prec)%Z. rewrite IZR_Zpower by lia. apply bpow_le. unfold Prec_lt_emax in He. lia.
  - rewrite V2, V1, Vh, RF, Zf. lia.
Qed.

(** One dimension. *)
Lemma line_mono c (s : grid_sample fl) xa xb xc : (fin (sx1 s) -> fin (sx0 s) -> B2R (sx0 s) <= B2R (sx1 s)) ->
  let v := line_through o c s in B2R xa <= B2R xb <= B2R xc -> fin (v xa) -> fin (v xb) -> fin (v xc) ->
  (B2R (sy0 s) <= B2R (sy1 s) -> rising (v xa) (v xb) (v xc)) /\ (B2R (sy1 s) <= B2R (sy0 s) -> falling (v xa) (v xb) (v xc)).
Proof using.
  intros Hs v Hx Fa Fb Fc. unfold v, line_through in *. cbv zeta in *.
  set (m := fdiv o (fsub o (sy1 s) (sy0 s)) (fsub o (sx1 s) (sx0 s))) in *.
  assert (S : fin m -> (B2R (sy0 s) <= B2R (sy1 s) -> 0 <= B2R m) /\ (B2R (sy1 s) <= B2R (sy0 s) -> B2R m <= 0)).
  { intros Fm. destruct (div_fin _ _ Fm) as (Fn & V). fold m in V. destruct (sub_fin _ _ Fn) as (_ & _ & Vn).
    assert (Hh : 0 <= inv (fsub o (sx1 s) (sx0 s))).
    { apply inv_nonneg. destruct (is_finite (fsub o (sx1 s) (sx0 s))) eqn:Fd.
      - destruct (sub_fin _ _ Fd) as (F1 & F0 & ->). apply rnd_nonneg; auto. specialize (Hs F1 F0). lra.
      - destruct (fsub o (sx1 s) (sx0 s)); try discriminate Fd; simpl; lra. }
    rewrite V, Vn. split; intros C.
    - apply rnd_nonneg; auto. apply Rmult_le_pos; auto. apply rnd_nonneg; auto. lra.
    - apply rnd_nonpos; auto. assert (Q : rnd (B2R (sy1 s) - B2R (sy0 s)) <= 0) by (apply rnd_nonpos; auto; lra).
      assert (0 <= - rnd (B2R (sy1 s) - B2R (sy0 s)) * inv (fsub o (sx1 s) (sx0 s))) by (apply Rmult_le_pos; lra). lra. }
  assert (D : forall p q, fin (fsub o p (sx0 s)) -> fin (fsub o q (sx0 s)) -> B2R p <= B2R q -> B2R (fsub o p (sx0 s)) <= B2R (fsub o q (sx0 s))).
  { intros p q Fp Fq C. destruct (sub_fin _ _ Fp) as (_ & _ & ->). destruct (sub_fin _ _ Fq) as (_ & _ & ->). apply rnd_le; auto. lra. }
  assert (Two : forall p q (w := fun x => if use_fma c then fmuladd o m (fsub o x (sx0 s)) (sy0 s) else fadd o (sy0 s) (fmul o m (fsub o x (sx0 s)))),
    B2R p <= B2R q -> fin (w p) -> fin (w q) ->
    (B2R (sy0 s) <= B2R (sy1 s) -> B2R (w p) <= B2R (w q)) /\ (B2R (sy1 s) <= B2R (sy0 s) -> B2R (w q) <= B2R (w p))).
  { intros p q w C Fp Fq. unfold w in *. clear w. destruct (use_fma c).
    - destruct (fma_fin _ _ _ Fp) as (Fm & F1 & _ & ->). destruct (fma_fin _ _ _ Fq) as (_ & F2 & _ & ->).
      destruct (S Fm) as (S1 & S2). specialize (D p q F1 F2 C). split; intros K; apply rnd_le; auto; apply Rplus_le_compat_r.
      + apply Rmult_le_compat_l; auto.
      + specialize (S2 K). assert (- B2R m * B2R (fsub o p (sx0 s)) <= - B2R m * B2R (fsub o q (sx0 s))) by (apply Rmult_le_compat_l; lra). lra.
    - destruct (add_fin _ _ Fp) as (_ & Fm1 & ->). destruct (add_fin _ _ Fq) as (_ & Fm2 & ->).
      destruct (mul_fin _ _ Fm1) as (Fm & F1 & ->). destruct (mul_fin _ _ Fm2) as (_ & F2 & ->).
      destruct (S Fm) as (S1 & S2). specialize (D p q F1 F2 C). split; intros K; apply rnd_le; auto; apply Rplus_le_compat_l; apply rnd_le; auto.
      + apply Rmult_le_compat_l; auto.
      + specialize (S2 K). assert (- B2R m * B2R (fsub o p (sx0 s)) <= - B2R m * B2R (fsub o q (sx0 s))) by (apply Rmult_le_compat_l; lra). lra. }
  destruct Hx as (X1 & X2). destruct (Two xa xb X1 Fa Fb) as (A1 & A2). destruct (Two xb xc X2 Fb Fc) as (B1 & B2).
  split; intros C; split; auto.
Qed.
Theorem line_rect_monotone c grid vals g i y0 y1 xa xb xc ya yb yc : (zlen vals <= isize_max)%Z -> increasing_grid o grid ->
  c1_new grid vals = Ok g -> Forall (fun x => bracketing_cell o x grid i) [xa; xb; xc] -> B2R xa <= B2R xb <= B2R xc ->
  nth_error vals (Z.to_nat i) = Some y0 -> nth_error vals (Z.to_nat (i + 1)) = Some y1 ->
  linear1 o c (c1_at o c g) xa = Ok ya -> linear1 o c (c1_at o c g) xb = Ok yb -> linear1 o c (c1_at o c g) xc = Ok yc ->
  fin ya -> fin yb -> fin yc ->
  (B2R y0 <= B2R y1 -> rising ya yb yc) /\ (B2R y1 <= B2R y0 -> falling ya yb yc).
Proof using.
  intros Hn I Hg HC Hx E0 E1 Ea Eb Ec Fa Fb Fc.
  assert (HS : forall x, bracketing_cell o x grid i -> exists e, c1_at o c g x = Ok (mkSample (nth (Z.to_nat i) grid (fzero o)) y0 (nth (Z.to_nat (i + 1)) grid (fzero o)) y1 e)).
  { intros x B. destruct (c1_sample o c grid vals g x (fzero o) (@BOps_transitive _ _ Hp He) I Hn Hg) as (Ez & Hz & B' & e & Es & _).
    rewrite (bracketing_unique grid x _ _ I B' B) in Es. rewrite (nth_error_nth _ _ (fzero o) E0), (nth_error_nth _ _ (fzero o) E1) in Es. eauto. }
  assert (Ri : (0 <= i <= zlen grid - 2)%Z) by (apply Forall_cons_iff in HC as (Ca & _); apply Ca).
  assert (ZL : Z.of_nat (length grid) = zlen grid) by reflexivity.
  set (x0 := nth (Z.to_nat i) grid (fzero o)) in *. set (x1 := nth (Z.to_nat (i + 1)) grid (fzero o)) in *.
  assert (L : flt o x0 x1 = true) by (apply (I (Z.to_nat i) (Z.to_nat (i + 1))); [lia|apply nth_error_nth'; lia|apply nth_error_nth'; lia]).
  assert (HE : forall x y, bracketing_cell o x grid i -> linear1 o c (c1_at o c g) x = Ok y -> line_through o c (mkSample x0 y0 x1 y1 Inside) x = y).
  { intros x y B Ey. destruct (HS x B) as (e & Es). unfold linear1 in Ey. rewrite Es in Ey. cbn [bind] in Ey. injection Ey as <-. reflexivity. }
  apply Forall_cons_iff in HC as (Ca & HC). apply Forall_cons_iff in HC as (Cb & HC). apply Forall_cons_iff in HC as (Cc & _).
  apply (HE _ _ Ca) in Ea. apply (HE _ _ Cb) in Eb. apply (HE _ _ Cc) in Ec. subst ya yb yc.
  apply (line_mono c (mkSample x0 y0 x1 y1 Inside)); auto. cbn [sx0 sx1]. intros F1 F0. apply (ltb_fin Hp He) in L; auto. lra.
Qed.
Theorem line_reg_monotone c start h vals g i y0 y1 xa xb xc ya yb yc : (2 <= zlen vals <= isize_max)%Z -> flt o (fzero o) h = true ->
  r1_new o c start h vals = Ok g -> Forall (fun x => computed_cell Hp He start h x (zlen vals) i) [xa; xb; xc] -> B2R xa <= B2R xb <= B2R xc ->
  nth_error vals (Z.to_nat i) = Some y0 -> nth_error vals (Z.to_nat (i + 1)) = Some y1 ->
  linear1 o c (r1_at o c g) xa = Ok ya -> linear1 o c (r1_at o c g) xb = Ok yb -> linear1 o c (r1_at o c g) xc = Ok yc ->
  fin ya -> fin yb -> fin yc ->
  (B2R y0 <= B2R y1 -> rising ya yb yc) /\ (B2R y1 <= B2R y0 -> falling ya yb yc).
Proof using.
  intros Hn Ph Hg HC Hx E0 E1 Ea Eb Ec Fa Fb Fc.
  unfold r1_new in Hg. rewrite usize_sub_ok in Hg by (unfold isize_max, two64 in *; lia). cbn [bind] in Hg.
  destruct (of_usize_some Hp He (zlen vals - 1)) as (mf & Em). rewrite Em in Hg. cbn [ok_or bind] in Hg. injection Hg as <-.
  set (g := mkR1 start (fadd o start (fmul o h mf)) h vals) in *.
  destruct (of_usize_some Hp He i) as (fi & Ei).
  set (x0 := fadd o start (fmul o h fi)) in *. set (x1 := fadd o x0 h) in *.
  assert (Ri : (0 <= i <= zlen vals - 2)%Z) by (apply Forall_cons_iff in HC as (Ca & _); unfold computed_cell in Ca; lia).
  assert (HS : forall x y, computed_cell Hp He start h x (zlen vals) i -> linear1 o c (r1_at o c g) x = Ok y -> line_through o c (mkSample x0 y0 x1 y1 Inside) x = y).
  { intros x y C Ey. unfold linear1, r1_at, r1_index in Ey. cbn [r1_start r1_stop r1_step r1_vals g] in Ey.
    assert (Q := reg_cell_floor start h (zlen vals) x). unfold reg_cell in Q.
    destruct (to_isize o (ffloor o (fdiv o (fsub o x start) h))) as [z|]; cbn [ok_or bind] in *; [|discriminate Ey].
    specialize (Q _ eq_refl). unfold computed_cell in C, Q. rewrite <- C in Q. clear C.
    rewrite usize_sub_ok in Ey by (unfold isize_max, two64 in *; lia). cbn [bind] in Ey.
    replace (as_usize (Z.min (Z.max z 0) (as_isize (zlen vals - 2)))) with i in Ey.
    2:{ rewrite as_isize_small by (unfold isize_max in *; lia). rewrite Q. unfold as_usize. symmetry. apply Z.mod_small. unfold two64, isize_max in *. lia. }
    rewrite Ei in Ey. cbn [ok_or bind] in Ey.
    rewrite (@idx_nth _ vals i (fzero o)) in Ey by lia. cbn [bind] in Ey.
    rewrite usize_add_ok in Ey by (unfold two64, isize_max in *; lia). cbn [bind] in Ey.
    rewrite (@idx_nth _ vals (i + 1)%Z (fzero o)) in Ey by lia. cbn [bind] in Ey.
    rewrite (nth_error_nth _ _ (fzero o) E0), (nth_error_nth _ _ (fzero o) E1) in Ey. injection Ey as <-. reflexivity. }
  apply Forall_cons_iff in HC as (Ca & HC). apply Forall_cons_iff in HC as (Cb & HC). apply Forall_cons_iff in HC as (Cc & _).
  apply (HS _ _ Ca) in Ea. apply (HS _ _ Cb) in Eb. apply (HS _ _ Cc) in Ec. subst ya yb yc.
  apply (line_mono c (mkSample x0 y0 x1 y1 Inside)); auto. cbn [sx0 sx1]. intros F1 F0.
  unfold x1 in *. destruct (add_fin _ _ F1) as (_ & Fh & ->). apply (ltb_fin Hp He) in Ph; auto. change (B2R (fzero o)) with 0 in Ph.
  apply rnd_ge_fl; auto. lra.
Qed.

(** The Python function, grids not evenly spaced. *)
Theorem python_monotone c obs grids vals o0 lin assume atol :
  let gs := map nd_data grids in let xs := map nd_data obs in
  good_call 2 o0 obs grids vals -> (1 <= length grids <= 8)%nat -> Forall (increasing_grid o) gs ->
  assume = false -> ~ Forall (evenly_spaced o) gs ->
  exists r, fst (py_interpn o c obs grids vals "linear" None lin assume false atol) = Ret r /\
  nd_shape r = nd_shape o0 /\ length (nd_data r) = length (nd_data o0) /\
  forall ja jb jc p g i xa xb xc ya yb yc,
  point_of (fzero o) xs ja = p ++ [xa] -> point_of (fzero o) xs jb = p ++ [xb] -> point_of (fzero o) xs jc = p ++ [xc] ->
  nth_error gs (length p) = Some g -> Forall (fun x => bracketing_cell o x g i) [xa; xb; xc] -> B2R xa <= B2R xb <= B2R xc ->
  nth_error (nd_data r) ja = Some ya -> nth_error (nd_data r) jb = Some yb -> nth_error (nd_data r) jc = Some yc ->
  fin ya -> fin yb -> fin yc -> rising ya yb yc \/ falling ya yb yc.
Proof using Hp He.
  intros gs xs Hc Hn Hi Ha Hne.
  assert (FT : Forall (first_two_increase o) gs).
  { assert (G2 := proj1 (call_lens o obs grids vals o0 Hc Hn)). unfold gs in *. rewrite Forall_forall in *. intros g Hg. specialize (G2 g Hg). specialize (Hi g Hg).
    destruct g as [|a [|b g]]; simpl in G2; try lia. apply (Hi 0%nat 1%nat); auto. }
  assert (RI := call_rect o c obs grids vals o0 Hc Hn).
  destruct (call_uneven o c obs grids vals o0 lin assume atol Hc Hn FT Ha Hne) as (eval & Hs & Hr).
  assert (Hfl : float_rectilinear Hp He c gs (nd_data vals) eval).
  { destruct Hs as [(s & Es & ->)|(k & s & Es & ->)]; [apply float_rectilinear_flat|apply float_rectilinear_recursive]; auto. }
  assert (Lo : length xs = length gs) by (destruct Hc as (_ & Lo & _); unfold xs, gs; rewrite !map_length; exact Lo).
  assert (Lp : forall j, length (point_of (fzero o) xs j) = length gs) by (intros; unfold point_of; rewrite map_length; exact Lo).
  destruct Hr as (r & R1 & R2 & R3 & R4).
  - intros j Hj. destruct (float_rectilinear_inv _ _ _ _ _ _ _ _ Hfl) as (_ & E). rewrite E by apply Lp. eauto.
  - exists r. split; [exact R1|]. split; [exact R2|]. split; [exact R3|].
    intros ja jb jc p g i xa xb xc ya yb yc Pa Pb Pc Eg HC Hx Ya Yb Yc Fa Fb Fc.
    assert (HY : forall j y, nth_error (nd_data r) j = Some y -> eval (point_of (fzero o) xs j) = Ok y).
    { intros j y Ey. assert (Hj : (j < length (nd_data r))%nat) by (apply nth_error_Some; congruence). rewrite R3 in Hj.
      unfold xs. rewrite (R4 j Hj). f_equal. apply nth_error_nth. exact Ey. }
    apply HY in Ya, Yb, Yc. rewrite Pa in Ya. rewrite Pb in Yb. rewrite Pc in Yc.
    eapply (rectilinear_monotone c gs (nd_data vals) eval p g i xa xb xc); eauto.
    + rewrite <- (Lp ja), Pa, app_length. simpl. lia.
    + rewrite Forall_forall in Hi. apply Hi. eapply nth_error_In; eauto.
Qed.
End B.
