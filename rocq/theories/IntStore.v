(** Proofs about integers given to `new` and in JSON documents (C48, C50). *)
From Coq Require Import Reals Lra ZArith Lia List.
From Flocq Require Import Core.Core IEEE754.BinarySingleNaN.
From Verif Require Import Base Ops FInst ModelPython ModelSerial SpecSerial SpecDocument SpecIntStore SerialProofs.
Import ListNotations.
Unset Implicit Arguments.
Open Scope Z_scope.

Section Lit.
Variables prec emax : Z.
Context (Hp : FLX.Prec_gt_0 prec) (He : Prec_lt_emax prec emax).
Let rnd z := round radix2 (SpecFloat.fexp prec emax) ZnearestE (IZR z).
Let lit z := binary_normalize prec emax Hp He mode_NE z 0 false.

Lemma F2R_int z : F2R (Float radix2 z 0) = IZR z.
Proof. unfold F2R. simpl. ring. Qed.

Lemma lit_in z : (Rabs (rnd z) < bpow radix2 emax)%R ->
  is_finite (lit z) = true /\ B2R (lit z) = rnd z /\ Bsign (lit z) = (z <? 0).
Proof.
  intros L. pose proof (binary_normalize_correct prec emax Hp He mode_NE z 0 false) as Q.
  cbv zeta in Q. cbn [round_mode] in Q. rewrite F2R_int in Q. rewrite Rlt_bool_true in Q by exact L.
  destruct Q as (A & B & C). split; [exact B|]. split; [exact A|]. unfold lit. rewrite C.
  destruct (Rcompare_spec (IZR z) 0) as [H|H|H].
  - apply lt_IZR in H. symmetry. apply Z.ltb_lt. exact H.
  - apply eq_IZR in H. subst z. reflexivity.
  - apply lt_IZR in H. symmetry. apply Z.ltb_ge. lia.
Qed.
Lemma lit_out z : ~ (Rabs (rnd z) < bpow radix2 emax)%R -> is_finite (lit z) = false.
Proof.
  intros L. pose proof (binary_normalize_correct prec emax Hp He mode_NE z 0 false) as Q.
  cbv zeta in Q. cbn [round_mode] in Q. rewrite F2R_int in Q. rewrite Rlt_bool_false in Q by (apply Rnot_lt_le; exact L).
  fold (lit z) in Q. destruct (lit z); try reflexivity; cbn in Q; discriminate Q.
Qed.
Lemma lit_machine z : 64 < emax -> machine_int z -> (Rabs (rnd z) < bpow radix2 emax)%R.
Proof.
  intros E M. apply Rle_lt_trans with (bpow radix2 64).
  - apply abs_round_le_generic; [apply fexp_correct; exact Hp|apply valid_rnd_N| |].
    + apply generic_format_bpow. unfold SpecFloat.fexp, SpecFloat.emin.
      pose proof (prec_lt_emax prec emax) as L. unfold FLX.Prec_gt_0 in Hp. lia.
    + rewrite <- abs_IZR. change (bpow radix2 64) with (IZR (2 ^ 64)). apply IZR_le. unfold machine_int in M. lia.
  - apply bpow_lt. exact E.
Qed.
End Lit.

Lemma int_conversion d z : machine_int z -> nearest_int d z (from_int (format_of d) z).
Proof.
  intros M. destruct d.
  - destruct (lit_in 24 128 Hp32 He32 z (lit_machine 24 128 Hp32 He32 z eq_refl M)) as (A & B & _). split; [exact A|exact B].
  - destruct (lit_in 53 1024 Hp64 He64 z (lit_machine 53 1024 Hp64 He64 z eq_refl M)) as (A & B & _). split; [exact A|exact B].
Qed.

Lemma same_B2R (x y : f64) : is_finite x = true -> is_finite y = true -> B2R x = B2R y -> Bsign x = Bsign y -> x = y.
Proof. intros. apply B2R_Bsign_inj; assumption. Qed.
Lemma json_int z x : means_number (JInt z) x <->
  (Rabs (nearest_to Float64 z) < bpow radix2 1024)%R /\ is_finite x = true /\ B2R x = nearest_to Float64 z /\ Bsign x = (z <? 0).
Proof.
  split.
  - intros H. inversion H as [|z' F| |]; subst.
    destruct (Rlt_dec (Rabs (nearest_to Float64 z)) (bpow radix2 1024)) as [L|L].
    + split; [exact L|]. exact (lit_in 53 1024 Hp64 He64 z L).
    + pose proof (lit_out 53 1024 Hp64 He64 z L) as Q. change (is_finite (int_to_f64 z) = false) in Q. congruence.
  - intros (L & F & V & S). destruct (lit_in 53 1024 Hp64 He64 z L) as (F' & V' & S').
    assert (E : x = int_to_f64 z).
    { apply same_B2R; [exact F|exact F'|eapply eq_trans; [exact V|symmetry; exact V']|eapply eq_trans; [exact S|symmetry; exact S']]. }
    subst x. constructor. exact F'.
Qed.
Lemma json_bool b x : means_number (JBool b) x <->
  is_finite x = true /\ B2R x = (if b then 1 else 0)%R /\ Bsign x = false.
Proof.
  assert (Q : is_finite (int_to_f64 (if b then 1 else 0)) = true /\ B2R (int_to_f64 (if b then 1 else 0)) = (if b then 1 else 0)%R
              /\ Bsign (int_to_f64 (if b then 1 else 0)) = false).
  { pose proof (lit_in 53 1024 Hp64 He64 (if b then 1 else 0)) as Q.
    assert (G : round radix2 (SpecFloat.fexp 53 1024) ZnearestE (IZR (if b then 1 else 0)) = (if b then 1 else 0)%R).
    { destruct b; [|apply round_0; apply valid_rnd_N]. apply round_generic; [apply valid_rnd_N|].
      change 1%R with (bpow radix2 0). apply generic_format_bpow. discriminate. }
    cbv zeta beta in Q. rewrite G in Q. destruct Q as (A & B & C).
    - destruct b; [rewrite Rabs_R1|rewrite Rabs_R0; apply bpow_gt_0]. change 1%R with (bpow radix2 0). apply bpow_lt. reflexivity.
    - split; [exact A|]. split; [exact B|]. eapply eq_trans; [exact C|]. destruct b; reflexivity. }
  destruct Q as (F' & V' & S'). split.
  - intros H. inversion H; subst. auto.
  - intros (F & V & S). assert (E : x = int_to_f64 (if b then 1 else 0)) by (apply same_B2R; congruence). subst x. constructor.
Qed.

Lemma new_type_is x d : new_type x d -> d = arrtype x.
Proof. intros [d' l|l]; [destruct d'; reflexivity|reflexivity]. Qed.
Lemma new_type_ex x : new_type x (arrtype x).
Proof. destruct x as [[l|l]|l]; [exact (new_type_float Float32 l)|exact (new_type_float Float64 l)|exact (new_type_ints l)]. Qed.
Lemma store_holds d x : machine_ints x -> holds d x (store d x).
Proof.
  intros M. destruct x as [[l|l]|l].
  - exact (holds_floats d Float32 l).
  - exact (holds_floats d Float64 l).
  - apply (holds_ints d l (map (from_int (format_of d)) l)). pose proof (M l eq_refl) as F.
    induction F as [|z l Hz F IH]; [constructor|]. cbn [map]. constructor; [exact (int_conversion d z Hz)|].
    apply IH. intros l' E. injection E as <-. exact F.
Qed.

Lemma make_regular_same fam m0 m : make_regular fam m0 = Ret m -> m0 = m.
Proof. unfold make_regular. destruct (_ && _)%bool; intros H; [injection H as H; exact H|discriminate H]. Qed.
Lemma make_rectilinear_same fam m0 m : make_rectilinear fam m0 = Ret m -> m0 = m.
Proof. unfold make_rectilinear. destruct (_ && _)%bool; intros H; [injection H as H; exact H|discriminate H]. Qed.
Lemma new_regular_holds fam dims starts steps vals lin m :
  regular_new fam dims starts steps vals lin = Ret m ->
  machine_ints starts -> machine_ints steps -> machine_ints vals ->
  forall d, new_type vals d ->
  rm_dims m = dims /\ holds d starts (rm_starts m) /\ holds d steps (rm_steps m) /\ holds d vals (rm_vals m) /\ rm_lin m = lin.
Proof.
  unfold regular_new. intros H M1 M2 M3 d D. apply make_regular_same in H. subst m. rewrite (new_type_is _ _ D). cbn [rm_dims rm_starts rm_steps rm_vals rm_lin].
  repeat split; apply store_holds; assumption.
Qed.
Lemma new_rectilinear_holds fam grids vals lin m :
  rectilinear_new fam grids vals lin = Ret m ->
  Forall machine_ints grids -> machine_ints vals ->
  forall d, new_type vals d ->
  Forall2 (holds d) grids (cm_grids m) /\ holds d vals (cm_vals m) /\ cm_lin m = lin.
Proof.
  unfold rectilinear_new. intros H M1 M3 d D. apply make_rectilinear_same in H. subst m. rewrite (new_type_is _ _ D). cbn [cm_grids cm_vals cm_lin].
  split; [|split; [apply store_holds; assumption|reflexivity]].
  clear M3 D. induction M1 as [|g l Hg F IH]; constructor; [apply store_holds; exact Hg|exact IH].
Qed.
