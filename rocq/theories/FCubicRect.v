(** Rounding errors of the cubic interpolators on rectilinear grids. *)
From Coq Require Import Reals Lra Lia List Bool ZifyBool ZifyNat PeanoNat.
From Flocq Require Import Core.Core IEEE754.BinarySingleNaN.
From Verif Require Import Base Ops FInst ModelCore ModelLinear ModelCubic Spec SpecOrder SpecIEEE SpecError.
From Verif Require Import CoreLemmas SearchLemmas TensorLemmas MethodLemmas MethodChar GenLemmas FLemmas UtilProofs FProofs FProofs2 FError.
From Verif Require Import RInst SpecReal RTensor R1D RChar Interpolators REval RProofs SpecApprox Approx1D FCubic SpecCubicError.
Import ListNotations.
Unset Implicit Arguments.
Open Scope list_scope.
Open Scope R_scope.

(** The bisection only looks at the answers of the predicate. *)
Lemma pp_loop_map A B (f : A -> B) (p : A -> bool) (q : B -> bool) l fuel size base cnt :
  (forall a, In a l -> q (f a) = p a) -> pp_loop fuel q (map f l) size base cnt = pp_loop fuel p l size base cnt.
Proof.
  intros H. revert size base cnt. induction fuel as [|fuel IH]; intros size base cnt; cbn [pp_loop]; destruct (size <=? 1)%nat; auto.
  unfold aget. rewrite nth_error_map. destruct (nth_error l (base + Nat.div size 2)) as [a|] eqn:E; cbn [option_map bind]; auto.
  rewrite (H a (nth_error_In _ _ E)). apply IH.
Qed.
Lemma partition_point_map A B (f : A -> B) (p : A -> bool) (q : B -> bool) l :
  (forall a, In a l -> q (f a) = p a) -> partition_point q (map f l) = partition_point p l.
Proof.
  intros H. unfold partition_point. f_equal. unfold partition_point_cnt.
  destruct l as [|a0 l0]; [reflexivity|]. set (l := a0 :: l0) in *.
  change (map f l) with (f a0 :: map f l0). cbv iota. change (f a0 :: map f l0) with (map f l). rewrite map_length.
  rewrite (pp_loop_map A B f p q l _ _ _ _ H). destruct (pp_loop _ p l _ _ _) as [(b & n)| |]; cbn [bind]; auto.
  unfold aget. rewrite nth_error_map. destruct (nth_error l b) as [a|] eqn:E; cbn [option_map bind]; auto.
  rewrite (H a (nth_error_In _ _ E)). reflexivity.
Qed.

Section B.
Variables prec emax : Z.
Context (Hp : Prec_gt_0 prec) (He : Prec_lt_emax prec emax).
Notation fl := (binary_float prec emax).
Notation o := (BOps Hp He).
Notation emin := (3 - emax - prec)%Z.
Notation fin x := (is_finite x = true).
Notation rnd := (rnd prec emax).
Notation u := (bpow radix2 (- prec)).
Notation eta := (/ 2 * bpow radix2 emin).
Notation small v := (@moderate prec emax v).

(** The weighted mean of two slopes, in exact arithmetic. *)
Definition cdiff (y0 y1 y2 p q : R) : R := p / (p + q) * ((y2 - y1) / q) + q / (q + p) * ((y1 - y0) / p).

Section Rho.
Variable rho : R.
Hypothesis R1 : 1 <= rho.
Hypothesis Hr : 14000 * (u * rho) <= 1.

Lemma rho_facts : 0 < u /\ 14000 * u <= 1 /\ u <= / 64 /\ 0 < eta /\ eta <= u * / 32 /\ 2 * rho <= bpow radix2 (emax - 1) /\
  eta <= u * / 1000 * / rho.
Proof using All.
  assert (U := u_pos prec). assert (N := eta_pos prec emax).
  assert (A : 14000 * u <= 1). { assert (u * 1 <= u * rho) by (apply Rmult_le_compat_l; lra). lra. }
  assert (U64 : u <= / 64) by lra. destruct (eta_small prec emax Hp He U64) as (N1 & _).
  assert (P := prec_6 _ _ Hp He U64).
  assert (EE : bpow radix2 prec * u = 1) by (rewrite <- bpow_plus; replace (prec + - prec)%Z with 0%Z by lia; reflexivity).
  assert (PP : bpow radix2 prec <= bpow radix2 (emax - 1)) by (apply bpow_le; unfold Prec_lt_emax in He; lia).
  assert (HH : 2 * rho <= bpow radix2 prec).
  { apply Rmult_le_reg_r with u; auto. rewrite EE. lra. }
  assert (EN : eta = u * (/ 2 * bpow radix2 (3 - emax))).
  { rewrite <- Rmult_assoc, (Rmult_comm u), Rmult_assoc, <- bpow_plus. do 2 f_equal. lia. }
  assert (E2 : bpow radix2 (3 - emax) <= 4 * u).
  { replace (4 * u) with (bpow radix2 2 * u) by reflexivity. rewrite <- bpow_plus. apply bpow_le. unfold Prec_lt_emax in He. lia. }
  repeat split; auto; try lra.
  rewrite EN, Rmult_assoc. apply Rmult_le_compat_l; [lra|].
  apply Rmult_le_reg_r with rho; [lra|]. replace (/ 1000 * / rho * rho) with (/ 1000) by (field; lra).
  assert (/ 2 * bpow radix2 (3 - emax) * rho <= 2 * u * rho) by (apply Rmult_le_compat_r; lra). lra.
Qed.

(** Quotients of positive quantities known up to a relative error. *)
Definition rel (x : fl) (v k : R) : Prop := fin x /\ 0 < v /\ Rabs (B2R x - v) <= k * u * v.

Lemma width (a b : fl) : small a -> small b -> B2R a < B2R b -> rel (fsub o b a) (B2R b - B2R a) 1.
Proof using All.
  intros Sa Sb H. destruct (small_sub prec emax Hp He b a Sb Sa) as (F & V). split; [exact F|]. split; [lra|]. rewrite V.
  eapply Rle_trans; [apply (rnd_rel prec emax Hp); apply on_grid_sub; apply on_grid_fl|]. rewrite Rabs_pos_eq by lra. lra.
Qed.

Lemma rel_bounds x v k : rel x v k -> 0 <= k <= 5 -> 999 / 1000 * v <= B2R x <= 1001 / 1000 * v.
Proof using All.
  intros (F & V & D) K. destruct rho_facts as (U & A & _). apply Rabs_le_inv in D.
  assert (k * u * v <= / 1000 * v). { apply Rmult_le_compat_r; [lra|]. assert (k * u <= 5 * u) by (apply Rmult_le_compat_r; lra). lra. }
  lra.
Qed.

(** n / d when n and d are known relatively. *)
Lemma quot_real (n d v w k l : R) : 0 < w -> 999 / 1000 * w <= d -> Rabs (n - v) <= k -> Rabs (d - w) <= l * w -> 0 <= l -> 
  Rabs (n / d - v / w) <= 1002 / 1000 * ((k + l * Rabs v) / w).
Proof using.
  intros W Hd Hn Hdw Hl. assert (D : 0 < d) by lra.
  replace (n / d - v / w) with (((n - v) - v / w * (d - w)) / d) by (field; lra).
  unfold Rdiv at 1. rewrite Rabs_mult, (Rabs_pos_eq (/ d)) by (left; apply Rinv_0_lt_compat; auto).
  assert (X : Rabs (v / w * (d - w)) <= l * Rabs v).
  { replace (v / w * (d - w)) with (v * ((d - w) / w)) by (field; lra). rewrite Rabs_mult, Rmult_comm.
    apply Rmult_le_compat_r; [apply Rabs_pos|]. unfold Rdiv. rewrite Rabs_mult, (Rabs_pos_eq (/ w)) by (left; apply Rinv_0_lt_compat; auto).
    apply Rmult_le_reg_r with w; auto. rewrite Rmult_assoc, Rinv_l by lra. lra. }
  assert (Y : Rabs (n - v - v / w * (d - w)) <= k + l * Rabs v).
  { unfold Rminus at 1. apply abs_add; [exact Hn|]. rewrite Rabs_Ropp. exact X. }
  set (S := k + l * Rabs v) in *. assert (S0 : 0 <= S) by (eapply Rle_trans; [apply Rabs_pos|exact Y]).
  apply Rle_trans with (S * / d); [apply Rmult_le_compat_r; [left; apply Rinv_0_lt_compat; auto|exact Y]|].
  replace (1002 / 1000 * (S / w)) with (S * (1002 / 1000 * / w)) by (field; lra).
  apply Rmult_le_compat_l; auto. apply Rmult_le_reg_r with (d * w); [apply Rmult_lt_0_compat; auto|].
  replace (/ d * (d * w)) with w by (field; lra). replace (1002 / 1000 * / w * (d * w)) with (1002 / 1000 * d) by (field; lra). lra.
Qed.

Lemma ratio h1 w1 h2 w2 : rel h1 w1 1 -> rel h2 w2 1 -> w1 <= rho * w2 -> w2 <= rho * w1 ->
  rel (fdiv o h1 h2) (w1 / w2) (16 / 5) /\ / rho <= w1 / w2 <= rho.
Proof using All.
  intros H1 H2 L1 L2. destruct rho_facts as (U & A & U64 & N & N1 & X & N2).
  assert (B1 := rel_bounds _ _ _ H1 ltac:(lra)). assert (B2 := rel_bounds _ _ _ H2 ltac:(lra)).
  destruct H1 as (F1 & P1 & D1), H2 as (F2 & P2 & D2).
  assert (Q1 : w1 / w2 <= rho).
  { apply Rmult_le_reg_r with w2; auto. unfold Rdiv. rewrite Rmult_assoc, Rinv_l by lra. lra. }
  assert (Q0 : / rho <= w1 / w2).
  { apply Rmult_le_reg_r with (rho * w2); [apply Rmult_lt_0_compat; lra|].
    replace (/ rho * (rho * w2)) with w2 by (field; lra). replace (w1 / w2 * (rho * w2)) with (rho * w1) by (field; lra). lra. }
  assert (QP : 0 < w1 / w2) by (apply Rdiv_lt_0_compat; auto).
  assert (E := quot_real (B2R h1) (B2R h2) w1 w2 (1 * u * w1) (1 * u) P2 ltac:(lra) D1 D2 ltac:(lra)).
  rewrite (Rabs_pos_eq w1) in E by lra.
  replace (1002 / 1000 * ((1 * u * w1 + 1 * u * w1) / w2)) with (501 / 250 * u * (w1 / w2)) in E by (field; lra).
  set (r := w1 / w2) in *. assert (UR : u * r <= / 14000 * r) by (apply Rmult_le_compat_r; lra).
  assert (Q : 0 <= B2R h1 / B2R h2 <= 1001 / 1000 * r) by (split; [apply Rmult_le_pos; [lra|left; apply Rinv_0_lt_compat; lra]|]; apply Rabs_le_inv in E; lra).
  assert (T := rnd_abs prec emax Hp (B2R h1 / B2R h2)). rewrite (Rabs_pos_eq (B2R h1 / B2R h2)) in T by lra.
  destruct (div_ok prec emax Hp He h1 h2 F1 ltac:(lra)) as (F & V).
  { apply (rnd_lt prec emax Hp He). rewrite Rabs_pos_eq by lra. lra. }
  split; [|split; auto]. split; [exact F|]. split; [auto|]. rewrite V.
  replace (rnd (B2R h1 / B2R h2) - r) with ((rnd (B2R h1 / B2R h2) - B2R h1 / B2R h2) + (B2R h1 / B2R h2 - r)) by ring.
  eapply Rle_trans; [apply abs_add; [exact T|exact E]|].
  assert (T1 : u * (B2R h1 / B2R h2) <= u * (1001 / 1000 * r)) by (apply Rmult_le_compat_l; lra).
  assert (T2 : eta <= u * / 1000 * r).
  { eapply Rle_trans; [exact N2|]. apply Rmult_le_compat_l; [lra|auto]. }
  lra.
Qed.

Lemma one_rel : rel (fone o) 1 (16 / 5).
Proof using All.
  destruct rho_facts as (U & _).
  split; [cbn [fone BOps]; apply is_finite_Bone|]. split; [lra|].
  assert (V1 : B2R (fone o) = 1) by (cbn [fone BOps]; apply Bone_correct). rewrite V1.
  replace (1 - 1) with 0 by ring. rewrite Rabs_R0. lra.
Qed.

(** A fraction of two quantities known up to one rounding, the first at most the second. *)
Lemma fraction (n d : fl) v w : fin n -> Rabs (B2R n - v) <= u * v -> 0 <= v <= w -> rel d w 1 ->
  fin (fdiv o n d) /\ Rabs (B2R (fdiv o n d) - v / w) <= 4 * u /\ 0 <= v / w <= 1.
Proof using All.
  intros Fn Dn Hv Hd. destruct rho_facts as (U & A & U64 & N & N1 & X & N2).
  assert (B2 := rel_bounds _ _ _ Hd ltac:(lra)). destruct Hd as (Fd & Pw & Dd).
  assert (T : 0 <= v / w <= 1).
  { split; [apply Rmult_le_pos; [lra|left; apply Rinv_0_lt_compat; auto]|].
    apply Rmult_le_reg_r with w; auto. unfold Rdiv. rewrite Rmult_assoc, Rinv_l by lra. lra. }
  assert (E := quot_real (B2R n) (B2R d) v w (u * v) (1 * u) Pw ltac:(lra) Dn Dd ltac:(lra)).
  rewrite (Rabs_pos_eq v) in E by lra.
  replace (1002 / 1000 * ((u * v + 1 * u * v) / w)) with (501 / 250 * u * (v / w)) in E by (field; lra).
  set (r := v / w) in *. assert (UR : u * r <= u * 1) by (apply Rmult_le_compat_l; lra).
  assert (Q : Rabs (B2R n / B2R d) <= 11 / 10) by (apply Rabs_le_inv in E; apply Rabs_le; lra).
  assert (T' := rnd_abs prec emax Hp (B2R n / B2R d)).
  destruct (div_ok prec emax Hp He n d Fn ltac:(lra)) as (F & V).
  { apply (rnd_lt prec emax Hp He). lra. }
  split; [exact F|]. split; [|exact T]. rewrite V.
  replace (rnd (B2R n / B2R d) - r) with ((rnd (B2R n / B2R d) - B2R n / B2R d) + (B2R n / B2R d - r)) by ring.
  eapply Rle_trans; [apply abs_add; [exact T'|exact E]|].
  assert (T1 : u * Rabs (B2R n / B2R d) <= u * (11 / 10)) by (apply Rmult_le_compat_l; lra). lra.
Qed.

Section Diff.
Variable B : R.
Hypothesis B0 : 0 <= B.
Hypothesis HB : rho * B <= bpow radix2 (emax - 8).
Notation near1 := (near prec emax (rho * B) (u / 2) eta).
Notation pos1 := (pos prec emax (u / 2)).

Lemma side1 : u <= 2 * (u / 2) /\ 2000 * (u / 2) <= 1 /\ 0 <= rho * B /\ rho * B <= bpow radix2 (emax - 8) /\ eta <= eta <= / 2000.
Proof using All.
  destruct rho_facts as (U & A & U64 & N & N1 & X & N2). repeat split; auto; try lra. apply Rmult_le_pos; lra.
Qed.

Lemma weight ph p qh q : rel ph p (16 / 5) -> rel qh q (16 / 5) -> p <= rho -> q <= rho ->
  pos1 (fdiv o ph (fadd o ph qh)) (p / (p + q)) 18.
Proof using All.
  intros H1 H2 L1 L2. destruct rho_facts as (U & A & U64 & N & N1 & X & N2).
  assert (B1 := rel_bounds _ _ _ H1 ltac:(lra)). assert (B2 := rel_bounds _ _ _ H2 ltac:(lra)).
  destruct H1 as (F1 & P1 & D1), H2 as (F2 & P2 & D2).
  assert (X8 : bpow radix2 (emax - 1) < bpow radix2 emax) by (apply bpow_lt; lia).
  assert (P6 := prec_6 _ _ Hp He U64).
  assert (X4 : 32 <= bpow radix2 (emax - 1)).
  { change 32 with (bpow radix2 5). apply bpow_le. unfold Prec_lt_emax in He. lia. }
  destruct (add_ok prec emax Hp He ph qh F1 F2) as (Fs & Vs).
  { apply (rnd_lt prec emax Hp He). rewrite Rabs_pos_eq by lra.
    assert (XX : 14000 * rho <= bpow radix2 prec).
    { apply Rmult_le_reg_r with u; auto. rewrite <- bpow_plus. replace (prec + - prec)%Z with 0%Z by lia. simpl (bpow radix2 0). lra. }
    assert (bpow radix2 prec <= bpow radix2 (emax - 1)) by (apply bpow_le; unfold Prec_lt_emax in He; lia). lra. }
  assert (T := rnd_rel prec emax Hp (B2R ph + B2R qh) ltac:(apply on_grid_add; apply on_grid_fl)). rewrite <- Vs in T.
  rewrite (Rabs_pos_eq (B2R ph + B2R qh)) in T by lra. set (s := fadd o ph qh) in *.
  assert (Ds : Rabs (B2R s - (p + q)) <= 43 / 10 * u * (p + q)).
  { replace (B2R s - (p + q)) with ((B2R s - (B2R ph + B2R qh)) + ((B2R ph - p) + (B2R qh - q))) by ring.
    eapply Rle_trans; [apply abs_add; [exact T|apply abs_add; [exact D1|exact D2]]|].
    assert (u * (B2R ph + B2R qh) <= u * (1001 / 1000 * (p + q))) by (apply Rmult_le_compat_l; lra).
    assert (0 <= u * (p + q)) by (apply Rmult_le_pos; lra). lra. }
  assert (Us : u * (p + q) <= / 14000 * (p + q)) by (apply Rmult_le_compat_r; lra).
  assert (Bs : 999 / 1000 * (p + q) <= B2R s) by (apply Rabs_le_inv in Ds; lra).
  assert (E := quot_real (B2R ph) (B2R s) p (p + q) (16 / 5 * u * p) (43 / 10 * u) ltac:(lra) Bs D1 Ds ltac:(lra)).
  rewrite (Rabs_pos_eq p) in E by lra.
  replace (1002 / 1000 * ((16 / 5 * u * p + 43 / 10 * u * p) / (p + q))) with (7515 / 1000 * u * (p / (p + q))) in E by (field; lra).
  assert (W : 0 <= p / (p + q) <= 1).
  { split; [apply Rmult_le_pos; [lra|left; apply Rinv_0_lt_compat; lra]|].
    apply Rmult_le_reg_r with (p + q); [lra|]. unfold Rdiv. rewrite Rmult_assoc, Rinv_l by lra. lra. }
  set (a := p / (p + q)) in *. assert (UA : u * a <= u * 1) by (apply Rmult_le_compat_l; lra).
  assert (Q : Rabs (B2R ph / B2R s) <= 11 / 10) by (apply Rabs_le_inv in E; apply Rabs_le; lra).
  assert (T' := rnd_abs prec emax Hp (B2R ph / B2R s)).
  destruct (div_ok prec emax Hp He ph s F1 ltac:(lra)) as (F & V).
  { apply (rnd_lt prec emax Hp He). lra. }
  split; [exact F|]. split; [rewrite Rabs_pos_eq; lra|]. split; [|lra]. rewrite V.
  replace (rnd (B2R ph / B2R s) - a) with ((rnd (B2R ph / B2R s) - B2R ph / B2R s) + (B2R ph / B2R s - a)) by ring.
  eapply Rle_trans; [apply abs_add; [exact T'|exact E]|].
  assert (T1 : u * Rabs (B2R ph / B2R s) <= u * (11 / 10)) by (apply Rmult_le_compat_l; lra). lra.
Qed.

Lemma quotient y y' qh q : rel qh q (16 / 5) -> / rho <= q -> fin y -> fin y' -> Rabs (B2R y) <= B -> Rabs (B2R y') <= B ->
  near1 (fdiv o (fsub o y y') qh) ((B2R y - B2R y') / q) 2 23.
Proof using All.
  intros Hq L Fy Fy' Hy Hy'. destruct rho_facts as (U & A & U64 & N & N1 & X & N2).
  assert (Bq := rel_bounds _ _ _ Hq ltac:(lra)). destruct Hq as (Fq & Pq & Dq).
  assert (D : Rabs (B2R y - B2R y') <= 2 * B) by (apply Rabs_le_inv in Hy, Hy'; apply Rabs_le; lra).
  assert (RB : 1 * B <= rho * B) by (apply Rmult_le_compat_r; lra).
  assert (X8 : bpow radix2 (emax - 1) = 128 * bpow radix2 (emax - 8)).
  { replace (emax - 1)%Z with (7 + (emax - 8))%Z by lia. rewrite bpow_plus. reflexivity. }
  destruct (sub_ok prec emax Hp He y y' Fy Fy') as (Fd & Vd).
  { apply (rnd_lt prec emax Hp He). assert (X0 := bpow_gt_0 radix2 (emax - 8)). lra. }
  assert (T := rnd_rel prec emax Hp (B2R y - B2R y') ltac:(apply on_grid_sub; apply on_grid_fl)). rewrite <- Vd in T.
  set (dh := fsub o y y') in *. set (d := B2R y - B2R y') in *.
  assert (E := quot_real (B2R dh) (B2R qh) d q (u * Rabs d) (16 / 5 * u) Pq ltac:(lra) T Dq ltac:(lra)).
  assert (DQ : Rabs d / q <= 2 * (rho * B)).
  { apply Rmult_le_reg_r with q; auto. unfold Rdiv. rewrite Rmult_assoc, Rinv_l, Rmult_1_r by lra.
    eapply Rle_trans; [exact D|]. replace (2 * B) with (2 * B * 1) by ring. replace (2 * (rho * B) * q) with (2 * B * (rho * q)) by ring.
    apply Rmult_le_compat_l; [lra|]. apply Rmult_le_reg_l with (/ rho); [apply Rinv_0_lt_compat; lra|].
    rewrite <- Rmult_assoc, Rinv_l by lra. lra. }
  assert (AQ : Rabs (d / q) = Rabs d / q).
  { unfold Rdiv. rewrite Rabs_mult, (Rabs_pos_eq (/ q)); auto. left. apply Rinv_0_lt_compat; auto. }
  replace (1002 / 1000 * ((u * Rabs d + 16 / 5 * u * Rabs d) / q)) with (42084 / 10000 * u * (Rabs d / q)) in E by (field; lra).
  destruct side1 as (S1 & S2 & S3 & S4 & S5).
  assert (E' : Rabs (B2R dh / B2R qh - d / q) <= 17 * (u / 2 * (rho * B) + eta)).
  { eapply Rle_trans; [exact E|]. assert (42084 / 10000 * u * (Rabs d / q) <= 42084 / 10000 * u * (2 * (rho * B))) by (apply Rmult_le_compat_l; lra).
    assert (0 <= u * (rho * B)) by (apply Rmult_le_pos; lra). lra. }
  destruct (near_round prec emax Hp He (rho * B) (u / 2) eta S1 S2 S3 S4 S5 (B2R dh / B2R qh) (d / q) 2 17) as (L' & R'); auto; try lra.
  destruct (div_ok prec emax Hp He dh qh Fd ltac:(lra) L') as (F & V).
  split; [exact F|]. split; [lra|]. rewrite V. eapply Rle_trans; [exact R'|]. apply Rmult_le_compat_r; [|lra].
  assert (0 <= u / 2 * (rho * B)) by (apply Rmult_le_pos; lra). lra.
Qed.

Lemma cdiff_real p q y0 y1 y2 : / rho <= p -> / rho <= q -> Rabs y0 <= B -> Rabs y1 <= B -> Rabs y2 <= B ->
  Rabs (cdiff y0 y1 y2 p q) <= 2 * (rho * B) /\
  (q = 1 -> Rabs (cdiff y0 y1 y2 p q - (y2 - y1)) <= 2 * (rho * B)) /\
  (p = 1 -> Rabs (cdiff y0 y1 y2 p q - (y1 - y0)) <= 2 * (rho * B)).
Proof using All.
  intros Lp Lq H0 H1 H2. assert (RI : 0 < / rho) by (apply Rinv_0_lt_compat; lra).
  assert (K : forall d z, / rho <= d -> Rabs z <= 2 * B -> Rabs (z / d) <= 2 * (rho * B)).
  { intros d z Hd Hz. unfold Rdiv. replace (2 * (rho * B)) with (2 * B * rho) by ring. apply abs_mul; auto.
    rewrite Rabs_pos_eq by (left; apply Rinv_0_lt_compat; lra). rewrite <- (Rinv_inv rho). apply Rinv_le_contravar; lra. }
  assert (D1 : Rabs (y2 - y1) <= 2 * B) by (apply Rabs_le_inv in H1, H2; apply Rabs_le; lra).
  assert (D0 : Rabs (y1 - y0) <= 2 * B) by (apply Rabs_le_inv in H1, H0; apply Rabs_le; lra).
  assert (M : forall a b w, 0 <= a -> 0 <= b -> Rabs w <= 2 * (rho * B) -> forall z, Rabs z <= 2 * (rho * B) -> a + b = 1 -> Rabs (a * w + b * z) <= 2 * (rho * B)).
  { intros a b w Ha Hb Hw z Hz S. apply Rabs_le_inv in Hw, Hz. apply Rabs_le. replace b with (1 - a) in * by lra. split; nra. }
  split; [|split].
  - unfold cdiff. apply M; auto.
    + apply Rmult_le_pos; [lra|left; apply Rinv_0_lt_compat; lra].
    + apply Rmult_le_pos; [lra|left; apply Rinv_0_lt_compat; lra].
    + field. lra.
  - intros ->. replace (cdiff y0 y1 y2 p 1 - (y2 - y1)) with (1 / (1 + p) * ((y1 - y0) / p) + p / (1 + p) * - ((y2 - y1) / p)) by (unfold cdiff; field; lra).
    apply M; auto; try (apply Rmult_le_pos; [lra|left; apply Rinv_0_lt_compat; lra]).
    + rewrite Rabs_Ropp. auto.
    + field. lra.
  - intros ->. replace (cdiff y0 y1 y2 1 q - (y1 - y0)) with (1 / (1 + q) * ((y2 - y1) / q) + q / (1 + q) * - ((y1 - y0) / q)) by (unfold cdiff; field; lra).
    apply M; auto; try (apply Rmult_le_pos; [lra|left; apply Rinv_0_lt_compat; lra]).
    + rewrite Rabs_Ropp. auto.
    + field. lra.
Qed.

Lemma cdiff_near c y0 y1 y2 ph p qh q : rel ph p (16 / 5) -> rel qh q (16 / 5) -> / rho <= p <= rho -> / rho <= q <= rho ->
  fin y0 -> fin y1 -> fin y2 -> Rabs (B2R y0) <= B -> Rabs (B2R y1) <= B -> Rabs (B2R y2) <= B ->
  near prec emax (rho * B) (7 * u) (13 * eta) (centered_diff o c y0 y1 y2 ph qh) (cdiff (B2R y0) (B2R y1) (B2R y2) p q) 2 11.
Proof using All.
  intros Rp Rq Lp Lq F0 F1 F2 H0 H1 H2. destruct rho_facts as (U & A & U64 & N & N1 & X & N2). destruct side1 as (S1 & S2 & S3 & S4 & S5).
  assert (NB := quotient y2 y1 qh q Rq (proj1 Lq) F2 F1 H2 H1). assert (ND := quotient y1 y0 ph p Rp (proj1 Lp) F1 F0 H1 H0).
  assert (PA := weight ph p qh q Rp Rq (proj2 Lp) (proj2 Lq)). assert (PC := weight qh q ph p Rq Rp (proj2 Lq) (proj2 Lp)).
  destruct (cdiff_real p q (B2R y0) (B2R y1) (B2R y2) (proj1 Lp) (proj1 Lq) H0 H1 H2) as (CB & _).
  assert (Unit : forall v w z, 0 < v -> 0 < w -> Rabs z <= 2 * (rho * B) -> Rabs (v / (v + w) * z) <= 2 * (rho * B)).
  { intros v w z Hv Hw Hz. rewrite <- (Rmult_1_l (2 * (rho * B))). apply abs_mul; auto. rewrite Rabs_pos_eq.
    - apply Rmult_le_reg_r with (v + w); [lra|]. unfold Rdiv. rewrite Rmult_assoc, Rinv_l by lra. lra.
    - apply Rmult_le_pos; [lra|left; apply Rinv_0_lt_compat; lra]. }
  assert (Pp := proj1 (proj2 Rp)). assert (Pq := proj1 (proj2 Rq)).
  assert (UAB := Unit p q _ Pp Pq (proj1 (proj2 NB))). assert (UCD := Unit q p _ Pq Pp (proj1 (proj2 ND))).
  assert (NCD := near_mul prec emax Hp He (rho * B) (u / 2) eta S1 S2 S3 S4 S5 _ _ _ _ _ _ _ 2 66 PC ND UCD ltac:(lra) ltac:(lra) ltac:(lra) ltac:(lra) ltac:(lra)).
  assert (G : near1 (centered_diff o c y0 y1 y2 ph qh) (cdiff (B2R y0) (B2R y1) (B2R y2) p q) 2 139).
  { unfold centered_diff. destruct (use_fma c).
    - destruct (near_round prec emax Hp He (rho * B) (u / 2) eta S1 S2 S3 S4 S5
        (B2R (fdiv o ph (fadd o ph qh)) * B2R (fdiv o (fsub o y2 y1) qh) + B2R (fmul o (fdiv o qh (fadd o qh ph)) (fdiv o (fsub o y1 y0) ph)))
        (cdiff (B2R y0) (B2R y1) (B2R y2) p q) 2 (26 / 25 * 23 + 18 * 2 + 66) CB) as (L & R); try lra.
      + unfold cdiff.
        match goal with |- Rabs (?P * ?Q + ?Z - (?a * ?b + ?z)) <= _ => replace (P * Q + Z - (a * b + z)) with ((P * Q - a * b) + (Z - z)) by ring end.
        rewrite Rmult_plus_distr_r. apply abs_add; [|apply NCD].
        apply (pos_prod prec emax Hp He (rho * B) (u / 2) eta S1 S2 S3 S4 S5); auto; try lra; apply NB.
      + destruct (fma_ok prec emax Hp He _ _ _ (proj1 PA) (proj1 NB) (proj1 NCD) L) as (F & V).
        split; [exact F|]. split; [exact CB|]. rewrite V. eapply Rle_trans; [exact R|]. apply Rmult_le_compat_r; [|lra].
        assert (0 <= u / 2 * (rho * B)) by (apply Rmult_le_pos; lra). lra.
    - assert (NAB := near_mul prec emax Hp He (rho * B) (u / 2) eta S1 S2 S3 S4 S5 _ _ _ _ _ _ _ 2 66 PA NB UAB ltac:(lra) ltac:(lra) ltac:(lra) ltac:(lra) ltac:(lra)).
      exact (near_add prec emax Hp He (rho * B) (u / 2) eta S1 S2 S3 S4 S5 _ _ _ _ _ _ _ _ 2 139 NAB NCD CB ltac:(lra) ltac:(lra) ltac:(lra)). }
  destruct G as (F & V & D). split; [exact F|]. split; [exact V|]. eapply Rle_trans; [exact D|].
  assert (0 <= u * (rho * B)) by (apply Rmult_le_pos; lra). lra.
Qed.
End Diff.

(** One axis, in a cell that contains the point. *)
Section Cell.
Variable B : R.
Hypothesis B0 : 0 <= B.
Hypothesis HB : rho * B <= bpow radix2 (emax - 8).
Notation near2 := (near prec emax (rho * B) (7 * u) (13 * eta)).
Notation pos2 := (pos prec emax (7 * u)).

Lemma side2 : u <= 2 * (7 * u) /\ 2000 * (7 * u) <= 1 /\ 0 <= rho * B /\ rho * B <= bpow radix2 (emax - 8) /\ eta <= 13 * eta <= / 2000 /\ B <= rho * B.
Proof using All.
  destruct rho_facts as (U & A & U64 & N & N1 & X & N2).
  assert (1 * B <= rho * B) by (apply Rmult_le_compat_r; lra). repeat split; auto; lra.
Qed.

Lemma natural2 fma dy d k m : near2 dy d 2 6 -> near2 k m 2 11 -> near2 (natural_k1 o fma dy k) (2 * d - m) 6 46.
Proof using All.
  intros Hd Hk. destruct side2 as (S1 & S2 & S3 & S4 & S5 & _).
  apply (near_natural prec emax Hp He (rho * B) (7 * u) (13 * eta) S1 S2 S3 S4 S5 fma dy d 2 6 k m 2 11 6 46 Hd Hk); try lra.
  destruct Hd as (_ & Hd & _), Hk as (_ & Hk & _). apply Rabs_le_inv in Hd, Hk. apply Rabs_le. lra.
Qed.

Lemma hermite2 c th t y0 dy d k0 m0 k1 m1 : pos2 th t 1 -> fin y0 -> Rabs (B2R y0) <= B -> near2 dy d 2 6 ->
  near2 k0 m0 2 11 -> near2 k1 m1 6 46 -> Rabs (m0 - d) <= 2 * (rho * B) -> Rabs (m1 - d) <= 2 * (rho * B) ->
  near2 (hermite o c th y0 dy k0 k1) (B2R y0 + t * (m0 + t * ((3 * d - 2 * m0 - m1) + t * (m0 + m1 - 2 * d)))) 20 1200.
Proof using All.
  intros Ht Fy Hy Hd H0 H1 D0 D1. destruct side2 as (S1 & S2 & S3 & S4 & S5 & S6).
  apply Rabs_le_inv in D0, D1.
  apply (hermite_near prec emax Hp He (rho * B) (7 * u) (13 * eta) S1 S2 S3 S4 S5 c th t 1); auto; try lra;
    try (apply Rabs_le; lra).
  apply near_val; auto. lra.
Qed.

Variables (g0 g1 g2 g3 x v0 v1 v2 v3 : fl).
Hypothesis Sg0 : small g0. Hypothesis Sg1 : small g1. Hypothesis Sg2 : small g2. Hypothesis Sg3 : small g3. Hypothesis Sx : small x.
Hypothesis I01 : B2R g0 < B2R g1. Hypothesis I12 : B2R g1 < B2R g2. Hypothesis I23 : B2R g2 < B2R g3.
Hypothesis R01 : B2R g1 - B2R g0 <= rho * (B2R g2 - B2R g1) /\ B2R g2 - B2R g1 <= rho * (B2R g1 - B2R g0).
Hypothesis R12 : B2R g2 - B2R g1 <= rho * (B2R g3 - B2R g2) /\ B2R g3 - B2R g2 <= rho * (B2R g2 - B2R g1).
Hypothesis F0 : fin v0. Hypothesis F1 : fin v1. Hypothesis F2 : fin v2. Hypothesis F3 : fin v3.
Hypothesis H0 : Rabs (B2R v0) <= B. Hypothesis H1 : Rabs (B2R v1) <= B. Hypothesis H2 : Rabs (B2R v2) <= B. Hypothesis H3 : Rabs (B2R v3) <= B.

Definition sat_in (sat : saturation) : Prop :=
  match sat with
  | SatNone => B2R g1 <= B2R x <= B2R g2
  | InsideLow | OutsideLow => B2R g0 <= B2R x <= B2R g1
  | InsideHigh | OutsideHigh => B2R g2 <= B2R x <= B2R g3
  end.

Lemma place_up (a b : fl) : small a -> small b -> B2R a < B2R b -> B2R a <= B2R x <= B2R b ->
  pos2 (fdiv o (fsub o x a) (fsub o b a)) ((B2R x - B2R a) / (B2R b - B2R a)) 1 /\ 0 <= (B2R x - B2R a) / (B2R b - B2R a) <= 1.
Proof using Hp He R1 Hr Sx.
  intros Sa Sb Hab Hx. destruct (small_sub prec emax Hp He x a Sx Sa) as (F & V).
  destruct (fraction (fsub o x a) (fsub o b a) (B2R x - B2R a) (B2R b - B2R a) F) as (G & D & T); auto.
  - rewrite V. eapply Rle_trans; [apply (rnd_rel prec emax Hp); apply on_grid_sub; apply on_grid_fl|]. rewrite Rabs_pos_eq by lra. lra.
  - lra.
  - apply width; auto.
  - destruct rho_facts as (U & _). split; [|exact T]. split; [exact G|]. split; [rewrite Rabs_pos_eq; lra|]. split; [lra|lra].
Qed.
Lemma place_down (a b : fl) : small a -> small b -> B2R a < B2R b -> B2R a <= B2R x <= B2R b ->
  pos2 (fdiv o (fneg o (fsub o x b)) (fsub o b a)) (- (B2R x - B2R b) / (B2R b - B2R a)) 1 /\ 0 <= - (B2R x - B2R b) / (B2R b - B2R a) <= 1.
Proof using Hp He R1 Hr Sx.
  intros Sa Sb Hab Hx. destruct (small_sub prec emax Hp He x b Sx Sb) as (F & V).
  destruct (fraction (fneg o (fsub o x b)) (fsub o b a) (- (B2R x - B2R b)) (B2R b - B2R a)) as (G & D & T).
  - cbn [fneg BOps]. rewrite is_finite_Bopp. exact F.
  - cbn [fneg BOps]. rewrite B2R_Bopp. change (Bminus mode_NE x b) with (fsub o x b). rewrite V.
    match goal with |- Rabs (- ?a - - ?b) <= _ => replace (- a - - b) with (- (a - b)) by ring end. rewrite Rabs_Ropp.
    eapply Rle_trans; [apply (rnd_rel prec emax Hp); apply on_grid_sub; apply on_grid_fl|]. rewrite Rabs_left1 by lra. lra.
  - lra.
  - apply width; auto.
  - destruct rho_facts as (U & _). split; [|exact T]. split; [exact G|]. split; [rewrite Rabs_pos_eq; lra|]. split; [lra|lra].
Qed.

Lemma diff2 y y' : fin y -> fin y' -> Rabs (B2R y) <= B -> Rabs (B2R y') <= B -> near2 (fsub o y y') (B2R y - B2R y') 2 6.
Proof using Hp He R1 Hr B0 HB.
  intros. destruct side2 as (S1 & S2 & S3 & S4 & S5 & S6).
  apply (diff_near prec emax Hp He (rho * B) (7 * u) (13 * eta) S1 S2 S3 S4 S5); auto; lra.
Qed.

Lemma rect_near c fma lin sat : sat_in sat ->
  near2 (rect_innerp o c fma lin sat x [g0; g1; g2; g3] [v0; v1; v2; v3])
        (rect_innerp ROps c fma lin sat (B2R x) [B2R g0; B2R g1; B2R g2; B2R g3] [B2R v0; B2R v1; B2R v2; B2R v3]) 20 1200.
Proof using All.
  intros Hs. destruct side2 as (S1 & S2 & S3 & S4 & S5 & S6). assert (U := proj1 rho_facts).
  assert (W0 := width g0 g1 Sg0 Sg1 I01). assert (W1 := width g1 g2 Sg1 Sg2 I12). assert (W2 := width g2 g3 Sg2 Sg3 I23).
  assert (O := one_rel).
  assert (O1 : / rho <= 1 <= rho). { split; [|lra]. rewrite <- Rinv_1. apply Rinv_le_contravar; lra. }
  destruct (ratio _ _ _ _ W0 W1 (proj1 R01) (proj2 R01)) as (Q01 & B01).
  destruct (ratio _ _ _ _ W1 W0 (proj2 R01) (proj1 R01)) as (Q10 & B10).
  destruct (ratio _ _ _ _ W1 W2 (proj1 R12) (proj2 R12)) as (Q12 & B12).
  destruct (ratio _ _ _ _ W2 W1 (proj2 R12) (proj1 R12)) as (Q21 & B21).
  destruct sat; cbn [sat_in] in Hs; unfold rect_innerp; cbn [rect_inner].
  - destruct (place_up g1 g2 Sg1 Sg2 I12 Hs) as (P & T).
    assert (K0 := cdiff_near B B0 HB c v0 v1 v2 _ _ _ _ Q01 O B01 O1 F0 F1 F2 H0 H1 H2).
    assert (K1 := cdiff_near B B0 HB c v1 v2 v3 _ _ _ _ O Q21 O1 B21 F1 F2 F3 H1 H2 H3).
    destruct (cdiff_real B B0 HB _ _ _ _ _ (proj1 B01) (proj1 O1) H0 H1 H2) as (_ & C0 & _).
    destruct (cdiff_real B B0 HB _ _ _ _ _ (proj1 O1) (proj1 B21) H1 H2 H3) as (_ & _ & C1).
    eapply near_eq.
    + eapply hermite2; [exact P|exact F1|exact H1|apply diff2; auto|exact K0| |apply C0; auto|apply C1; auto].
      apply (near_weaken prec emax Hp He (rho * B) (7 * u) (13 * eta) S1 S2 S3 S4 S5) with (m := 2) (e := 11); [exact K1|lra|lra].
    + unfold cdiff, hermite, centered_diff. cbn. destruct (use_fma c); field; lra.
  - destruct (place_down g0 g1 Sg0 Sg1 I01 Hs) as (P & T).
    assert (K0 := near_neg prec emax Hp He (rho * B) (7 * u) (13 * eta) _ _ _ _ (cdiff_near B B0 HB c v0 v1 v2 _ _ _ _ O Q10 O1 B10 F0 F1 F2 H0 H1 H2)).
    destruct (cdiff_real B B0 HB _ _ _ _ _ (proj1 O1) (proj1 B10) H0 H1 H2) as (_ & _ & C0). specialize (C0 eq_refl).
    apply Rabs_le_inv in C0.
    assert (D := diff2 v0 v1 F0 F1 H0 H1).
    eapply near_eq.
    + eapply hermite2; [exact P|exact F1|exact H1|exact D|exact K0|apply natural2; [exact D|exact K0]| |]; apply Rabs_le; lra.
    + unfold cdiff, hermite, centered_diff, natural_k1. cbn. destruct (use_fma c), fma; field; lra.
  - destruct (place_down g0 g1 Sg0 Sg1 I01 Hs) as (P & T).
    assert (K0 := near_neg prec emax Hp He (rho * B) (7 * u) (13 * eta) _ _ _ _ (cdiff_near B B0 HB c v0 v1 v2 _ _ _ _ O Q10 O1 B10 F0 F1 F2 H0 H1 H2)).
    destruct (cdiff_real B B0 HB _ _ _ _ _ (proj1 O1) (proj1 B10) H0 H1 H2) as (_ & _ & C0). specialize (C0 eq_refl).
    apply Rabs_le_inv in C0.
    assert (D := diff2 v0 v1 F0 F1 H0 H1). assert (K1 := natural2 false _ _ _ _ D K0).
    destruct lin.
    + eapply near_eq.
      * eapply (linear_near prec emax Hp He (rho * B) (7 * u) (13 * eta) S1 S2 S3 S4 S5) with (tau := 1);
          [apply P|apply P|lra| |apply near_val; auto; lra|exact K1]. apply Rabs_le. lra.
      * unfold cdiff, linear_ext, centered_diff, natural_k1. cbn. destruct (use_fma c), fma; field; lra.
    + eapply near_eq.
      * eapply hermite2; [exact P|exact F1|exact H1|exact D|exact K0|exact K1| |]; apply Rabs_le; lra.
      * unfold cdiff, hermite, centered_diff, natural_k1. cbn. destruct (use_fma c), fma; field; lra.
  - destruct (place_up g2 g3 Sg2 Sg3 I23 Hs) as (P & T).
    assert (K0 := cdiff_near B B0 HB c v1 v2 v3 _ _ _ _ Q12 O B12 O1 F1 F2 F3 H1 H2 H3).
    destruct (cdiff_real B B0 HB _ _ _ _ _ (proj1 B12) (proj1 O1) H1 H2 H3) as (_ & C0 & _). specialize (C0 eq_refl).
    apply Rabs_le_inv in C0.
    assert (D := diff2 v3 v2 F3 F2 H3 H2).
    eapply near_eq.
    + eapply hermite2; [exact P|exact F2|exact H2|exact D|exact K0|apply natural2; [exact D|exact K0]| |]; apply Rabs_le; lra.
    + unfold cdiff, hermite, centered_diff, natural_k1. cbn. destruct (use_fma c), fma; field; lra.
  - destruct (place_up g2 g3 Sg2 Sg3 I23 Hs) as (P & T).
    assert (K0 := cdiff_near B B0 HB c v1 v2 v3 _ _ _ _ Q12 O B12 O1 F1 F2 F3 H1 H2 H3).
    destruct (cdiff_real B B0 HB _ _ _ _ _ (proj1 B12) (proj1 O1) H1 H2 H3) as (_ & C0 & _). specialize (C0 eq_refl).
    apply Rabs_le_inv in C0.
    assert (D := diff2 v3 v2 F3 F2 H3 H2). assert (K1 := natural2 false _ _ _ _ D K0).
    destruct lin.
    + eapply near_eq.
      * eapply (linear_near prec emax Hp He (rho * B) (7 * u) (13 * eta) S1 S2 S3 S4 S5) with (tau := 1);
          [apply P|apply P|lra| |apply near_val; auto; lra|exact K1]. apply Rabs_le. lra.
      * unfold cdiff, linear_ext, centered_diff, natural_k1. cbn. destruct (use_fma c), fma; field; lra.
    + eapply near_eq.
      * eapply hermite2; [exact P|exact F2|exact H2|exact D|exact K0|exact K1| |]; apply Rabs_le; lra.
      * unfold cdiff, hermite, centered_diff, natural_k1. cbn. destruct (use_fma c), fma; field; lra.
Qed.
End Cell.
End Rho.

(** ** One axis *)
Section Axis.
Variables (g : list fl) (x : fl) (rho : R).
Notation a := (list_axis (map (@B2R prec emax) g)).
Notation X := (B2R x).
Hypothesis Ig : increasing_grid o g.
Hypothesis Hg : (4 <= zlen g)%Z.
Hypothesis Sg : Forall (@moderate prec emax) g.
Hypothesis Fx : fin x.
Hypothesis Hx : coord a 0 <= X <= coord a (npts a - 1).
Hypothesis R1 : 1 <= rho.
Hypothesis Hr : 14000 * (u * rho) <= 1.
Hypothesis Hsp : spacing_ratio_at_most a rho.

Lemma fin_grid : Forall (fun v => fin v) g.
Proof using Sg. eapply Forall_impl; [|exact Sg]. intros v (F & _). exact F. Qed.
Lemma inc_grid : strictly_increasing (map (@B2R prec emax) g).
Proof using All. apply (increasing_B2R prec emax Hp He); auto. apply fin_grid. Qed.
Lemma coord_gz i : coord a i = B2R (gz o g i).
Proof using. unfold list_axis, gz. cbn [coord]. apply (nth_B2R prec emax Hp He). Qed.

Lemma pp_of_float : pp_of o g x = pp_of ROps (map B2R g) X.
Proof using Sg Fx.
  unfold pp_of. rewrite (partition_point_map _ _ (@B2R prec emax) (fun y => flt o y x) (fun y => flt ROps y X)); [reflexivity|].
  intros v Hv. assert (Fv : fin v) by (assert (A := fin_grid); rewrite Forall_forall in A; auto).
  assert (Q := ltb_fin Hp He v x Fv Fx). cbn [flt ROps]. 
  destruct (flt o v x) eqn:E.
  - apply Rltb_true. apply Q. reflexivity.
  - destruct (Rltb (B2R v) X) eqn:E'; auto. apply Rltb_true in E'. apply Q in E'. discriminate E'.
Qed.
Lemma crect_cell_float : crect_cell o g x = crect_cell ROps (map B2R g) X.
Proof using Sg Fx. unfold crect_cell. rewrite zlen_map, pp_of_float. reflexivity. Qed.

Theorem crect_axis_error c fma lin vs B : 0 <= B -> rho * B <= bpow radix2 (emax - 8) ->
  (forall i, fin (vs i) /\ Rabs (B2R (vs i)) <= B) ->
  let p := crect_cell o g x in
  let r := rect_innerp o c fma lin (snd p) x (cell4 o g (fst p)) [vs (fst p); vs (fst p + 1)%Z; vs (fst p + 2)%Z; vs (fst p + 3)%Z] in
  fin r /\ Rabs (B2R r - cub1 lin a X (fun i => B2R (vs i))) <= 8400 * (u * rho) * B + 15600 * eta.
Proof using All.
  intros B0 HB Hv p r. assert (SI := inc_grid).
  assert (L : (zlen (map (@B2R prec emax) g) = zlen g)) by apply zlen_map.
  assert (Rg := @crect_cell_range _ o g x ltac:(lia)). fold p in Rg.
  assert (Hz : forall i, (0 <= i < zlen g)%Z -> small (gz o g i)).
  { intros i Hi. unfold gz. apply (Forall_nth_lt (fzero o) Sg). unfold zlen in Hi. lia. }
  assert (Hi : forall i j, (0 <= i < j)%Z -> (j < zlen g)%Z -> B2R (gz o g i) < B2R (gz o g j)).
  { intros i j Hi Hj. rewrite <- !coord_gz. unfold list_axis. cbn [coord]. apply sorted_nth; auto; try lia. rewrite map_length. unfold zlen in Hj. lia. }
  assert (Rt : forall i, (0 <= i)%Z -> (i + 2 < zlen g)%Z ->
     B2R (gz o g (i + 1)) - B2R (gz o g i) <= rho * (B2R (gz o g (i + 2)) - B2R (gz o g (i + 1))) /\
     B2R (gz o g (i + 2)) - B2R (gz o g (i + 1)) <= rho * (B2R (gz o g (i + 1)) - B2R (gz o g i))).
  { intros i H0 H1. assert (Q := Hsp i H0 ltac:(unfold list_axis; cbn [npts]; rewrite L; lia)). unfold spacing in Q.
    replace (i + 1 + 1)%Z with (i + 2)%Z in Q by lia. rewrite !coord_gz in Q. exact Q. }
  assert (Hx0 : B2R (gz o g 0) <= X) by (rewrite <- coord_gz; apply Hx).
  assert (Hx1 : X <= B2R (gz o g (zlen g - 1))).
  { rewrite <- coord_gz. destruct Hx as (_ & Q). unfold list_axis in Q at 2. cbn [npts] in Q. rewrite L in Q. exact Q. }
  assert (Sx : small x).
  { destruct (Hz 0%Z ltac:(lia)) as (_ & Q0). destruct (Hz (zlen g - 1)%Z ltac:(lia)) as (_ & Q1).
    split; [exact Fx|]. apply Rabs_le_inv in Q0, Q1. apply Rabs_le. lra. }
  assert (Sat : sat_in (gz o g (fst p)) (gz o g (fst p + 1)) (gz o g (fst p + 2)) (gz o g (fst p + 3)) x (snd p)).
  { destruct (@pp_of_R (map B2R g) X SI) as (P0 & P1 & P2). rewrite <- pp_of_float in P0, P1, P2. rewrite L in *.
    assert (P1' : forall i, (0 <= i < pp_of o g x)%Z -> B2R (gz o g i) < X).
    { intros i Hi'. rewrite <- coord_gz. exact (P1 i Hi'). }
    assert (P2' : forall i, (pp_of o g x <= i < zlen g)%Z -> X <= B2R (gz o g i)).
    { intros i Hi'. rewrite <- coord_gz. exact (P2 i Hi'). }
    unfold p, crect_cell. cbn [fst snd]. set (q := pp_of o g x) in *. unfold crect_sat.
    assert (Qn : (q < zlen g)%Z).
    { destruct (Z_lt_le_dec q (zlen g)); auto. exfalso. assert (Y := P1' (zlen g - 1)%Z ltac:(lia)). lra. }
    destruct (Z.eqb_spec (q - 2) (-2)); [|destruct (Z.eqb_spec (q - 2) (-1)); [|destruct (Z.eqb_spec (q - 2) (zlen g - 2)); [lia|
      destruct (Z.eqb_spec (q - 2) (zlen g - 3))]]]; cbn [sat_in].
    - replace (Z.min (Z.max (q - 2) 0) (zlen g - 4)) with 0%Z by lia. split; [exact Hx0|apply P2'; lia].
    - replace (Z.min (Z.max (q - 2) 0) (zlen g - 4)) with 0%Z by lia. split; [exact Hx0|apply P2'; lia].
    - replace (Z.min (Z.max (q - 2) 0) (zlen g - 4)) with (q - 3)%Z by lia. split; [left; apply P1'; lia|apply P2'; lia].
    - replace (Z.min (Z.max (q - 2) 0) (zlen g - 4)) with (q - 2)%Z by lia. split; [left; apply P1'; lia|apply P2'; lia]. }
  assert (Rt2 := Rt (fst p + 1)%Z ltac:(lia) ltac:(lia)).
  replace (fst p + 1 + 1)%Z with (fst p + 2)%Z in Rt2 by lia. replace (fst p + 1 + 2)%Z with (fst p + 3)%Z in Rt2 by lia.
  destruct (rect_near rho R1 Hr B B0 HB (gz o g (fst p)) (gz o g (fst p + 1)) (gz o g (fst p + 2)) (gz o g (fst p + 3)) x
    (vs (fst p)) (vs (fst p + 1)%Z) (vs (fst p + 2)%Z) (vs (fst p + 3)%Z)
    (Hz (fst p) ltac:(lia)) (Hz (fst p + 1)%Z ltac:(lia)) (Hz (fst p + 2)%Z ltac:(lia)) (Hz (fst p + 3)%Z ltac:(lia)) Sx
    (Hi (fst p) (fst p + 1)%Z ltac:(lia) ltac:(lia)) (Hi (fst p + 1)%Z (fst p + 2)%Z ltac:(lia) ltac:(lia)) (Hi (fst p + 2)%Z (fst p + 3)%Z ltac:(lia) ltac:(lia))
    (Rt (fst p) ltac:(lia) ltac:(lia)) Rt2
    (proj1 (Hv _)) (proj1 (Hv _)) (proj1 (Hv _)) (proj1 (Hv _)) (proj2 (Hv _)) (proj2 (Hv _)) (proj2 (Hv _)) (proj2 (Hv _))
    c fma lin (snd p) Sat) as (F & _ & D).
  split; [exact F|].
  rewrite <- (@cub_rect_axis c fma lin (map B2R g) X (fun i => B2R (vs i)) SI) by lia.
  rewrite <- crect_cell_float. fold p.
  assert (Gz : forall i, gz ROps (map B2R g) i = B2R (gz o g i)) by (intros i; rewrite <- coord_gz; reflexivity).
  unfold cell4. rewrite !Gz. eapply Rle_trans; [exact D|]. lra.
Qed.

Lemma crect_axis_norm lin f M : (forall i, (0 <= i < zlen g)%Z -> Rabs (f i) <= M) -> Rabs (cub1 lin a X f) <= cubic_gain rho * M.
Proof using All.
  intros Hf. apply (cub1_norm a (list_axis_inc inc_grid)); auto.
  - unfold list_axis. cbn [npts]. rewrite zlen_map. exact Hg.
  - intros i. unfold list_axis. cbn [npts]. rewrite zlen_map. apply Hf.
Qed.
End Axis.

(** ** The interpolators *)
Lemma float_cubic_rectilinear_inv c lin grids vals eval : float_cubic_rectilinear Hp He c lin grids vals eval ->
  rect_wf 4 (mkRect grids (map zlen grids) vals) /\
  exists fma, forall x, length x = length grids -> eval x = Ok (mcc_value o c fma lin (mkRect grids (map zlen grids) vals) x).
Proof.
  intros [s Hi H|m s Hi H].
  - destruct (mcc_new_inv _ _ Hi H) as (W & ->). split; auto. exists false. intros x Lx. apply mcc_char; auto.
  - destruct (mccr_new_inv _ _ _ Hi H) as (W & -> & Hm). split; auto. exists (use_fma c). intros x Lx. apply mccr_char; auto.
Qed.

Theorem cubic_error_rectilinear c lin grids vals eval x A rho :
  float_cubic_rectilinear Hp He c lin grids vals eval ->
  Forall (increasing_grid o) grids -> Forall (Forall (@moderate prec emax)) grids ->
  Forall (fun v => fin v) x -> SpecReal.inside_grid (rect_axes (map (map B2R) grids)) (map B2R x) ->
  1 <= rho -> Forall (fun a => spacing_ratio_at_most a rho) (rect_axes (map (map (@B2R prec emax)) grids)) ->
  cubic_values prec emax rho (cubic_gain rho) (rectilinear_gamma prec rho) (length grids) A vals ->
  14000 * INR (length grids) * (u * rho) <= 1 ->
  Forall (good_axis 4) (rect_axes (map (map (@B2R prec emax)) grids)) /\
  exists y, eval x = Ok y /\ fin y /\
  Rabs (B2R y - tenL (ops1 (cub1 lin) (rect_axes (map (map B2R) grids)) (map B2R x))
                     (entry 0 (map npts (rect_axes (map (map (@B2R prec emax)) grids))) (map B2R vals)))
   <= cubic_error prec emax (cubic_gain rho) (rectilinear_gamma prec rho) (length grids) A.
Proof.
  intros H I S Fx In R1 Hsp (A0 & HA & Hv) HN.
  destruct (float_cubic_rectilinear_inv _ _ _ _ _ H) as (W & fma & E).
  assert (W' := W). destruct W' as (W0 & _ & W2 & W3). cbn [g_grids g_dims g_vals] in *.
  assert (La : length (rect_axes (map (map (@B2R prec emax)) grids)) = length grids) by (unfold rect_axes; rewrite !map_length; auto).
  assert (Lx : length x = length grids) by (rewrite <- La, <- (proj1 In), map_length; auto). rewrite E by auto.
  assert (Good : Forall (good_axis 4) (rect_axes (map (map (@B2R prec emax)) grids))).
  { apply rect_axes_good; unfold grids_ok; rewrite Forall_map.
    - rewrite Forall_forall in *. intros g Hg. apply (increasing_B2R prec emax Hp He); auto.
      eapply Forall_impl; [|exact (S g Hg)]. intros v (Fv & _). exact Fv.
    - eapply Forall_impl; [|exact W2]. intros g Hg. rewrite zlen_map. exact Hg. }
  split; [exact Good|].
  eexists. split; [reflexivity|].
  assert (U := u_pos prec). assert (Eta := eta_pos prec emax).
  assert (N1 : 1 <= INR (length grids)).
  { change 1 with (INR 1). apply le_INR. lia. }
  assert (UR : 0 <= u * rho) by (apply Rmult_le_pos; lra).
  assert (Hr : 14000 * (u * rho) <= 1).
  { assert (1 * (u * rho) <= INR (length grids) * (u * rho)) by (apply Rmult_le_compat_r; lra). lra. }
  destruct (rho_facts rho R1 Hr) as (_ & _ & U64 & _ & _ & _ & Et).
  assert (Dm : map npts (rect_axes (map (map (@B2R prec emax)) grids)) = map zlen grids).
  { rewrite rect_axes_npts, map_map. apply map_ext. intros g. apply zlen_map. }
  assert (Lm : length (map B2R x) = length (rect_axes (map (map (@B2R prec emax)) grids))) by (rewrite map_length; lia).
  assert (LF := good_cub lin _ Lm Good). rewrite Dm in *.
  assert (LD : length (map zlen grids) = length grids) by apply map_length.
  set (axes := rect_axes (map (map (@B2R prec emax)) grids)) in *.
  assert (NA : forall k, (k < length grids)%nat -> nth k axes ax0 = list_axis (map B2R (nth k grids []))).
  { intros k Hk. unfold axes. rewrite rect_axes_nth by (rewrite map_length; auto).
    rewrite (nth_indep (map (map (@B2R prec emax)) grids) [] (map (@B2R prec emax) [])) by (rewrite map_length; auto). rewrite (map_nth (map (@B2R prec emax))). reflexivity. }
  set (xx := fun k => nth k x (fzero o)). set (gg := fun k => nth k grids []).
  assert (AX : forall k, (k < length grids)%nat -> increasing_grid o (gg k) /\ (4 <= zlen (gg k))%Z /\ Forall (@moderate prec emax) (gg k) /\ fin (xx k) /\
     coord (list_axis (map B2R (gg k))) 0 <= B2R (xx k) <= coord (list_axis (map B2R (gg k))) (npts (list_axis (map (@B2R prec emax) (gg k))) - 1) /\
     spacing_ratio_at_most (list_axis (map B2R (gg k))) rho).
  { intros k Hk. split; [apply (Forall_nth_lt [] I Hk)|]. split; [apply (Forall_nth_lt [] W2 Hk)|]. split; [apply (Forall_nth_lt [] S Hk)|].
    split; [apply (Forall_nth_lt (fzero o) Fx); lia|].
    assert (Rx := proj2 In k (nth k axes ax0) ltac:(apply nth_error_nth_some; lia)).
    rewrite NA, (nth_B2R prec emax Hp He) in Rx by auto. split; [exact Rx|].
    unfold gg. rewrite <- NA by auto. apply (Forall_nth_lt ax0 Hsp). lia. }
  assert (Hnd : forall k, (k < length grids)%nat -> nth k (ops1 (cub1 lin) axes (map B2R x)) (fun _ => 0) = cub1 lin (list_axis (map B2R (gg k))) (B2R (xx k))).
  { intros k Hk. rewrite ops1_nth by (rewrite ?map_length; lia). rewrite NA by auto. rewrite (nth_B2R prec emax Hp He). reflexivity. }
  assert (NW : INR (length grids) * (15600 * eta) <= 1).
  { assert (IR : / rho <= 1) by (rewrite <- Rinv_1; apply Rinv_le_contravar; lra).
    assert (e1 : eta <= u * / 1000) by (eapply Rle_trans; [exact Et|]; rewrite <- (Rmult_1_r (u * / 1000)) at 2; apply Rmult_le_compat_l; lra).
    assert (e2 : u * 1 <= u * rho) by (apply Rmult_le_compat_l; lra).
    assert (INR (length grids) * (15600 * eta) <= INR (length grids) * (16 * (u * rho))) by (apply Rmult_le_compat_l; lra). lra. }
  assert (G1 : 1 <= cubic_gain rho).
  { unfold cubic_gain. assert (0 <= rho * rho / (2 * (1 + rho))); [|lra].
    apply Rmult_le_pos; [apply Rmult_le_pos; lra|]. left. apply Rinv_0_lt_compat. lra. }
  assert (Gm : 0 <= rectilinear_gamma prec rho) by (unfold rectilinear_gamma, roundoff; lra).
  assert (g0 : 0 < cubic_gain rho + rectilinear_gamma prec rho) by lra.
  set (os := map fst (crect_cells o (mkRect grids (map zlen grids) vals) x)).
  destruct (tens4_error prec emax Hp He (map zlen grids) os (entry (fzero o) (map zlen grids) vals) (ops1 (cub1 lin) axes (map B2R x))
     (mcc_nd o c fma lin (mkRect grids (map zlen grids) vals) x) (cubic_gain rho) (rectilinear_gamma prec rho) (15600 * eta) A (bpow radix2 (emax - 8) / rho))
     with (k := length (map (@zlen fl) grids)) (suf := @nil Z) as (F & Er & _ & _).
  - exact LF.
  - intros idx. apply (entry_bound prec emax Hp He); auto.
  - exact G1.
  - exact Gm.
  - lra.
  - intros k f M Hk Hf. rewrite LD in Hk. rewrite Hnd by auto. destruct (AX k Hk) as (X1 & X2 & X3 & X4 & X5 & X6).
    apply (crect_axis_norm (gg k) (xx k) rho X1 X2 X3 X4 X5 R1 Hr X6). intros i _. apply Hf.
  - intros k vs B Hk HB Hvs. rewrite LD in Hk. cbv zeta. rewrite Hnd by auto. unfold mcc_nd. cbn [g_grids]. cbv zeta.
    destruct (AX k Hk) as (X1 & X2 & X3 & X4 & X5 & X6).
    assert (HB' : rho * B <= bpow radix2 (emax - 8)).
    { destruct HB as (_ & HB). apply Rmult_le_compat_l with (r := rho) in HB; [|lra].
      replace (rho * (bpow radix2 (emax - 8) / rho)) with (bpow radix2 (emax - 8)) in HB by (field; lra). exact HB. }
    destruct (crect_axis_error (gg k) (xx k) rho X1 X2 X3 X4 X5 R1 Hr X6 c fma lin vs B (proj1 HB) HB' Hvs) as (F & Er).
    replace (nth k os 0%Z) with (fst (crect_cell o (gg k) (xx k))).
    + split; [exact F|]. eapply Rle_trans; [exact Er|]. unfold rectilinear_gamma, roundoff. lra.
    + unfold os. rewrite nth_map_fst, crect_cells_nth by (cbn [g_grids]; lia). reflexivity.
  - rewrite LD. apply Rmult_le_reg_r with rho; [lra|].
    replace (bpow radix2 (emax - 8) / rho * rho) with (bpow radix2 (emax - 8)) by (field; lra).
    eapply Rle_trans; [|exact HA]. rewrite Rmult_assoc. apply Rmult_le_compat_l; [left; apply pow_lt; auto|].
    rewrite (Rmult_comm rho (A + 1)). apply Rmult_le_compat_r; lra.
  - lia.
  - rewrite LD in F, Er. split; [exact F|].
    assert (LO : length (ops1 (cub1 lin) axes (map B2R x)) = length grids) by (rewrite ops1_length by auto; lia).
    replace (firstn (length grids) (ops1 (cub1 lin) axes (map B2R x))) with (ops1 (cub1 lin) axes (map B2R x)) in Er by (rewrite <- LO, firstn_all; reflexivity).
    rewrite (tenL_ext _ (fun idx => B2R (entry (fzero o) (map zlen grids) vals (idx ++ []))) LF).
    2:{ intros idx _. rewrite app_nil_r. apply (entry_real prec emax Hp He). }
    unfold cubic_error. rewrite Nat.sub_1_r. eapply Rle_trans; [exact Er|].
    apply Rmult_le_compat_l; [apply Rmult_le_pos; [lra|left; apply pow_lt; auto]|]. unfold underflow. lra.
Qed.
End B.
