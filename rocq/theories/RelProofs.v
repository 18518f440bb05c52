(** A relation between data preserved by the arithmetic on values is preserved by the
    interpolators. *)
From Coq Require Import Reals Lra ZArith Bool ZifyBool Psatz List.
From Flocq Require Import Core.Core IEEE754.BinarySingleNaN.
From Verif Require Import Base Ops FInst ModelCore ModelLinear ModelCubic ModelNearest Spec SpecUnits
  CoreLemmas MethodLemmas TensorLemmas MethodChar GenLemmas NegProofs UnitProofs2.
Import ListNotations.
Unset Implicit Arguments.
Open Scope list_scope.
Open Scope Z_scope.

Section Rel.
Context {F : Type} (o : Ops F) (c : cfg) (Rel : F -> F -> Prop).
Hypothesis Rzero : Rel (fzero o) (fzero o).
Hypothesis Radd : forall a a' b b', Rel a a' -> Rel b b' -> Rel (fadd o a b) (fadd o a' b').
Hypothesis Rsub : forall a a' b b', Rel a a' -> Rel b b' -> Rel (fsub o a b) (fsub o a' b').
Hypothesis Rneg : forall a a', Rel a a' -> Rel (fneg o a) (fneg o a').
Hypothesis Rmull : forall t a a', Rel a a' -> Rel (fmul o t a) (fmul o t a').
Hypothesis Rmulr : forall a a' t, Rel a a' -> Rel (fmul o a t) (fmul o a' t).
Hypothesis Rdiv : forall a a' t, Rel a a' -> Rel (fdiv o a t) (fdiv o a' t).
Hypothesis Rfcv : forall t a a' b b', Rel a a' -> Rel b b' -> Rel (fmuladd o t a b) (fmuladd o t a' b').
Hypothesis Rfvc : forall a a' t b b', Rel a a' -> Rel b b' -> Rel (fmuladd o a t b) (fmuladd o a' t b').

Lemma rel_lin t vs vs' : Forall2 Rel vs vs' -> Rel (lin_nd o c t vs) (lin_nd o c t vs').
Proof using All.
  intros H. destruct H as [|a a' l l' Ha H]; [exact Rzero|]. destruct H as [|b b' l l' Hb H]; [exact Rzero|].
  destruct H; [|exact Rzero]. cbn [lin_nd]. destruct (use_fma c); auto.
Qed.

Lemma rel_hermite t y y' d d' k k' l l' : Rel y y' -> Rel d d' -> Rel k k' -> Rel l l' ->
  Rel (hermite o c t y d k l) (hermite o c t y' d' k' l').
Proof using All. intros. unfold hermite. destruct (use_fma c); auto 12. Qed.
Lemma rel_centered y0 y0' y1 y1' y2 y2' h0 h1 : Rel y0 y0' -> Rel y1 y1' -> Rel y2 y2' ->
  Rel (centered_diff o c y0 y1 y2 h0 h1) (centered_diff o c y0' y1' y2' h0 h1).
Proof using All. intros. unfold centered_diff. destruct (use_fma c); auto 12. Qed.
Lemma rel_natural fma d d' k k' : Rel d d' -> Rel k k' -> Rel (natural_k1 o fma d k) (natural_k1 o fma d' k').
Proof using All. intros. unfold natural_k1. destruct fma; auto. Qed.
Lemma rel_linear_ext fma y y' k k' t : Rel y y' -> Rel k k' -> Rel (linear_ext o fma y k t) (linear_ext o fma y' k' t).
Proof using All. intros. unfold linear_ext. destruct fma; auto. Qed.

Lemma rel_reg_inner fma lin sat t vs vs' : Forall2 Rel vs vs' ->
  Rel (reg_innerp o c fma lin sat t vs) (reg_innerp o c fma lin sat t vs').
Proof using All.
  intros H. unfold reg_innerp, reg_inner.
  destruct H as [|a a' l l' H0 H]; [exact Rzero|]. destruct H as [|b b' l l' H1 H]; [exact Rzero|].
  destruct H as [|d d' l l' H2 H]; [exact Rzero|]. destruct H as [|e e' l l' H3 H]; [exact Rzero|].
  destruct H; [|exact Rzero]. cbv zeta.
  destruct sat; try destruct lin; auto 12 using rel_hermite, rel_natural, rel_linear_ext.
Qed.
Lemma rel_rect_inner fma lin sat x cell vs vs' : Forall2 Rel vs vs' ->
  Rel (rect_innerp o c fma lin sat x cell vs) (rect_innerp o c fma lin sat x cell vs').
Proof using All.
  intros H. unfold rect_innerp, rect_inner.
  destruct cell as [|g0 [|g1 [|g2 [|g3 [|]]]]]; try exact Rzero;
  (destruct H as [|a a' l l' H0 H]; [exact Rzero|]); (destruct H as [|b b' l l' H1 H]; [exact Rzero|]);
  (destruct H as [|d d' l l' H2 H]; [exact Rzero|]); (destruct H as [|e e' l l' H3 H]; [exact Rzero|]);
  (destruct H; [|exact Rzero]); try exact Rzero. cbv zeta.
  destruct sat; try destruct lin; auto 12 using rel_hermite, rel_natural, rel_linear_ext, rel_centered.
Qed.

Lemma rel_entry dims vals vals' idx : Forall2 Rel vals vals' ->
  Rel (entry (fzero o) dims vals idx) (entry (fzero o) dims vals' idx).
Proof using Rzero.
  intros H. unfold entry. generalize (Z.to_nat (cindex dims idx)). induction H as [|a a' l l' Ha H IH]; intros [|n]; simpl; auto.
Qed.

Lemma rel_tens FP V V' (nd : nat -> list F -> F) os k suf :
  (forall idx, Rel (V idx) (V' idx)) ->
  (forall j vs vs', Forall2 Rel vs vs' -> Rel (nd j vs) (nd j vs')) ->
  Rel (tens FP V nd os k suf) (tens FP V' nd os k suf).
Proof using.
  intros HV Hn. revert suf. induction k as [|k IH]; intros suf; cbn [tens]; [apply HV|].
  apply Hn. induction (seq 0 FP) as [|i l IHl]; cbn [map]; constructor; auto.
Qed.

Lemma orel_ok u v : Rel u v -> outcome_rel Rel (Ok u) (Ok v).
Proof using. auto. Qed.
Lemma orel_bind A (r : outcome A) (f g : A -> outcome F) : (forall a, r = Ok a -> outcome_rel Rel (f a) (g a)) ->
  outcome_rel Rel (do a <- r ; f a) (do a <- r ; g a).
Proof using. destruct r; simpl; auto. Qed.

Variables (vals vals' : list F).
Hypothesis Hv : Forall2 Rel vals vals'.
Lemma rel_len : length vals' = length vals.
Proof using Hv. clear -Hv. induction Hv; simpl; auto. Qed.
Lemma rel_vals_wf dims : vals_wf dims vals -> vals_wf dims vals'.
Proof using Hv. unfold vals_wf. intros (A & B). unfold zlen in *. rewrite rel_len. auto. Qed.

Section Rect.
Variables (grids : list (list F)) (x : list F).
Notation s := (mkRect grids (map zlen grids) vals).
Notation s' := (mkRect grids (map zlen grids) vals').
Hypothesis Lx : length x = length grids.
Lemma rel_rect_wf FP : rect_wf FP s -> rect_wf FP s'.
Proof using Hv. intros (A & B & C & D). split; [exact A|]. split; [exact B|]. split; [exact C|]. apply rel_vals_wf. exact D. Qed.
Lemma rel_mlc_value : Rel (mlc_value o c s x) (mlc_value o c s' x).
Proof using All. unfold mlc_value. apply rel_tens; [intros; apply rel_entry; exact Hv|intros; apply rel_lin; auto]. Qed.
Lemma rel_mlc : rect_wf 2 s -> outcome_rel Rel (mlc_interp_one o c s x) (mlc_interp_one o c s' x).
Proof using All. intros W. rewrite !mlc_char by (auto using rel_rect_wf). exact rel_mlc_value. Qed.
Lemma rel_mlcr m : rect_wf 2 s -> (length grids <= m)%nat -> outcome_rel Rel (mlcr_interp_one o c m s x) (mlcr_interp_one o c m s' x).
Proof using All. intros W Hm. rewrite !mlcr_char by (auto using rel_rect_wf). exact rel_mlc_value. Qed.
Lemma rel_nc : rect_wf 2 s -> outcome_rel Rel (nc_interp_one o c s x) (nc_interp_one o c s' x).
Proof using All. intros W. rewrite !nc_char by (auto using rel_rect_wf). apply orel_ok. apply (rel_entry (map zlen grids)). exact Hv. Qed.
Lemma rel_mcc_value fma lin : Rel (mcc_value o c fma lin s x) (mcc_value o c fma lin s' x).
Proof using All. unfold mcc_value. apply rel_tens; [intros; apply rel_entry; exact Hv|intros; apply rel_rect_inner; auto]. Qed.
Lemma rel_mcc lin : rect_wf 4 s -> outcome_rel Rel (mcc_interp_one o c (mkCC s lin) x) (mcc_interp_one o c (mkCC s' lin) x).
Proof using All. intros W. rewrite !mcc_char by (auto using rel_rect_wf). apply rel_mcc_value. Qed.
Lemma rel_mccr m lin : rect_wf 4 s -> (length grids <= m)%nat ->
  outcome_rel Rel (mccr_interp_one o c m (mkCC s lin) x) (mccr_interp_one o c m (mkCC s' lin) x).
Proof using All. intros W Hm. rewrite !mccr_char by (auto using rel_rect_wf). apply rel_mcc_value. Qed.
End Rect.

Section Reg.
Variables (dims : list Z) (starts steps x : list F).
Notation s := (mkRegular dims starts steps vals).
Notation s' := (mkRegular dims starts steps vals').
Hypothesis U : usize_converts o.
Hypothesis Lx : length x = length dims.
Lemma rel_reg_wf FP : reg_wf FP s -> reg_wf FP s'.
Proof using Hv. intros (A & B & C & D & E). repeat (split; [assumption|]). apply rel_vals_wf. exact E. Qed.
Lemma rel_mlr : reg_wf 2 s -> outcome_rel Rel (mlr_interp_one o c s x) (mlr_interp_one o c s' x).
Proof using All.
  intros W. rewrite !mlr_char by (auto using rel_reg_wf). change (reg_cells o s' x) with (reg_cells o s x).
  apply orel_bind. intros os _. apply orel_ok. apply rel_tens; [intros; apply rel_entry; exact Hv|intros; apply rel_lin; auto].
Qed.
Lemma rel_mlrr m : reg_wf 2 s -> (length dims <= m)%nat -> outcome_rel Rel (mlrr_interp_one o c m s x) (mlrr_interp_one o c m s' x).
Proof using All.
  intros W Hm. rewrite !mlrr_char by (auto using rel_reg_wf). change (reg_cells o s' x) with (reg_cells o s x).
  apply orel_bind. intros os _. apply orel_ok. apply rel_tens; [intros; apply rel_entry; exact Hv|intros; apply rel_lin; auto].
Qed.
Lemma rel_nr : reg_wf 2 s -> outcome_rel Rel (nr_interp_one o c s x) (nr_interp_one o c s' x).
Proof using All.
  intros W. rewrite !nr_char by (auto using rel_reg_wf). change (reg_cells o s' x) with (reg_cells o s x).
  apply orel_bind. intros os _. apply orel_ok. apply rel_entry. exact Hv.
Qed.
Lemma rel_mcr lin : reg_wf 4 s -> outcome_rel Rel (mcr_interp_one o c (mkCR s lin) x) (mcr_interp_one o c (mkCR s' lin) x).
Proof using All.
  intros W. rewrite !mcr_char by (auto using rel_reg_wf). cbn [cr_base cr_lin]. change (creg_cells o c s' x) with (creg_cells o c s x).
  apply orel_bind. intros os _. apply orel_ok. apply rel_tens; [intros; apply rel_entry; exact Hv|intros; apply rel_reg_inner; auto].
Qed.
Lemma rel_mcrr m lin : reg_wf 4 s -> (length dims <= m)%nat ->
  outcome_rel Rel (mcrr_interp_one o c m (mkCR s lin) x) (mcrr_interp_one o c m (mkCR s' lin) x).
Proof using All.
  intros W Hm. rewrite !mcrr_char by (auto using rel_reg_wf). cbn [cr_base cr_lin]. change (creg_cells o c s' x) with (creg_cells o c s x).
  apply orel_bind. intros os _. apply orel_ok. apply rel_tens; [intros; apply rel_entry; exact Hv|intros; apply rel_reg_inner; auto].
Qed.
End Reg.
End Rel.

Section B.
Variables prec emax : Z.
Context (Hp : Prec_gt_0 prec) (He : Prec_lt_emax prec emax).
Notation fl := (binary_float prec emax).
Notation o := (BOps Hp He).
Notation neg := (neg prec emax).

Lemma outcome_rel_impl (P Q : fl -> fl -> Prop) r q : (forall a b, P a b -> Q a b) -> outcome_rel P r q -> outcome_rel Q r q.
Proof. intros H. destruct r, q; simpl; auto. Qed.
Lemma negation_lists (l l' : list fl) : Forall2 negation l l' -> Forall2 neg l l'.
Proof. induction 1; constructor; auto. apply negation_neg; auto. Qed.
Lemma neg_zero : neg (fzero o) (fzero o).
Proof. apply neg_fin; try reflexivity. simpl. ring. Qed.

Tactic Notation "by_rel" uconstr(L) := eapply outcome_rel_impl; [intros a b; apply negation_neg|]; apply L;
  auto using neg_zero, neg_add, neg_sub, neg_opp, neg_mul_l, neg_mul_r, neg_div, neg_fma_cv, neg_fma_vc, negation_lists, usize_B.

Theorem C72_proof_rectilinear m c (grids : list (list fl)) vals vals' eval eval' x :
  built_rectilinear Hp He m c grids vals eval -> built_rectilinear Hp He m c grids vals' eval' ->
  Forall2 negation vals vals' -> length x = length grids -> outcome_rel negation (eval x) (eval' x).
Proof.
  intros (I & B) (I' & B') Hv Lx. destruct m as [|n| |lin|n lin]; destruct B as (s & N & ->); destruct B' as (s' & N' & ->); unfold nc_new in *.
  - apply mlc_new_inv in N as (W & ->); auto. apply mlc_new_inv in N' as (_ & ->); auto. by_rel rel_mlc.
  - apply mlcr_new_inv in N as (W & -> & Hm); auto. apply mlcr_new_inv in N' as (_ & -> & _); auto. by_rel rel_mlcr.
  - apply mlc_new_inv in N as (W & ->); auto. apply mlc_new_inv in N' as (_ & ->); auto. by_rel rel_nc.
  - apply mcc_new_inv in N as (W & ->); auto. apply mcc_new_inv in N' as (_ & ->); auto. by_rel rel_mcc.
  - apply mccr_new_inv in N as (W & -> & Hm); auto. apply mccr_new_inv in N' as (_ & -> & _); auto. by_rel rel_mccr.
Qed.
Theorem C72_proof_regular m c dims (starts steps : list fl) vals vals' eval eval' x :
  built_regular Hp He m c dims starts steps vals eval -> built_regular Hp He m c dims starts steps vals' eval' ->
  Forall2 negation vals vals' -> length x = length dims -> outcome_rel negation (eval x) (eval' x).
Proof.
  intros (I & B) (I' & B') Hv Lx. destruct m as [|n| |lin|n lin]; destruct B as (s & N & ->); destruct B' as (s' & N' & ->); unfold nr_new in *.
  - apply mlr_new_inv in N as (W & ->); auto. apply mlr_new_inv in N' as (_ & ->); auto. by_rel rel_mlr.
  - apply mlrr_new_inv in N as (W & -> & Hm); auto. apply mlrr_new_inv in N' as (_ & -> & _); auto. by_rel rel_mlrr.
  - apply mlr_new_inv in N as (W & ->); auto. apply mlr_new_inv in N' as (_ & ->); auto. by_rel rel_nr.
  - apply mcr_new_inv in N as (W & ->); auto. apply mcr_new_inv in N' as (_ & ->); auto. by_rel rel_mcr.
  - apply mcrr_new_inv in N as (W & -> & Hm); auto. apply mcrr_new_inv in N' as (_ & -> & _); auto. by_rel rel_mcrr.
Qed.
End B.
