(** One-dimensional interpolators: more facts for every number type, NaN observations, negated data. *)
From Coq Require Import Reals Lra ZArith Bool ZifyBool Psatz List.
From Flocq Require Import Core.Core IEEE754.BinarySingleNaN.
From Verif Require Import Base Ops FInst RInst ModelCore ModelLinear ModelCubic ModelNearest ModelOneDim Spec SpecReal SpecOrder Spec1D SpecUnits Interpolators
  CoreLemmas SearchLemmas RTensor R1D RChar RProofs OrderLemmas OneDimProofs FLemmas FProofs NegProofs RelProofs.
Import ListNotations.
Unset Implicit Arguments.
Open Scope list_scope.
Open Scope Z_scope.

Ltac binds := repeat (match goal with
  | |- context [idx ?l ?i] => destruct (idx l i)
  | |- context [usize_add ?c ?i 1] => destruct (usize_add c i 1)
  | |- context [usize_sub ?c ?i ?j] => destruct (usize_sub c i j)
  | |- context [ok_or ?r ?m] => destruct (ok_or r m)
  end; cbn [bind sextrap]; auto).

Section Any.
Context {F : Type} (o : Ops F) (c : cfg).

Lemma c1_new_inv (grid vals : list F) g : c1_new grid vals = Ok g ->
  g = mkC1 grid vals /\ length grid = length vals /\ (2 <= length grid)%nat.
Proof.
  unfold c1_new. destruct (_ || _) eqn:E; [discriminate|]. intros H. inversion H. repeat split; lia.
Qed.

(** Inside the grid LinearHoldLast1D runs the code of Linear1D. *)
Theorem hold_inside_rect (grid vals : list F) g x d : (zlen vals <= isize_max)%Z -> c1_new grid vals = Ok g ->
  flt o x (nth 0 grid d) = false -> flt o (last grid d) x = false ->
  hold_last1 o c (c1_at o c g) x = linear1 o c (c1_at o c g) x.
Proof.
  intros Hn Hg Lo Hi. apply c1_new_inv in Hg as (-> & El & Hl).
  unfold hold_last1, linear1, c1_at, c1_index. cbn [c1_grid c1_vals].
  destruct (partition_point _ grid) as [pp| |]; cbn [bind]; auto.
  destruct (isize_sub c (as_isize pp) 1) as [i0| |]; cbn [bind]; auto.
  rewrite !usize_sub_ok by (unfold zlen, isize_max, two64 in *; lia). cbn [bind].
  rewrite (@idx_nth _ grid 0%Z d) by (unfold zlen in *; lia). cbn [bind]. change (Z.to_nat 0) with 0%nat. rewrite Lo.
  rewrite (@idx_nth _ grid (zlen grid - 1)%Z d) by (unfold zlen in *; lia). cbn [bind].
  replace (Z.to_nat (zlen grid - 1)) with (length grid - 1)%nat by (unfold zlen; lia).
  rewrite last_nth in Hi. rewrite Hi. cbn [bind].
  binds.
Qed.

Theorem hold_inside_reg start step (vals : list F) g x m : (1 <= zlen vals <= isize_max)%Z -> r1_new o c start step vals = Ok g ->
  of_usize o (zlen vals - 1) = Some m ->
  flt o x start = false -> flt o (fadd o start (fmul o step m)) x = false ->
  hold_last1 o c (r1_at o c g) x = linear1 o c (r1_at o c g) x.
Proof.
  intros Hn Hg Em Lo Hi. unfold r1_new in Hg. rewrite usize_sub_ok in Hg by (unfold isize_max, two64 in *; lia).
  cbn [bind] in Hg. rewrite Em in Hg. cbn [ok_or bind] in Hg. inversion Hg; subst g; clear Hg.
  unfold hold_last1, linear1, r1_at, r1_index. cbn [r1_start r1_stop r1_step r1_vals]. rewrite Lo, Hi.
  binds.
Qed.
End Any.

(** ** Relations between data *)
Section Rel.
Context {F : Type} (o : Ops F) (c : cfg) (Rel : F -> F -> Prop).

Definition sample_rel (s s' : grid_sample F) : Prop :=
  sx0 s' = sx0 s /\ sx1 s' = sx1 s /\ sextrap s' = sextrap s /\ Rel (sy0 s) (sy0 s') /\ Rel (sy1 s) (sy1 s').

Lemma orel_bind2 A B (P : A -> B -> Prop) (Q : F -> F -> Prop) r r' f f' :
  outcome_rel P r r' -> (forall a b, P a b -> outcome_rel Q (f a) (f' b)) ->
  outcome_rel Q (bind r f) (bind r' f').
Proof. destruct r, r'; simpl; intros; auto; contradiction. Qed.
Lemma orel_bind3 A B (P : A -> B -> Prop) C D (Q : C -> D -> Prop) r r' f f' :
  outcome_rel P r r' -> (forall a b, P a b -> outcome_rel Q (f a) (f' b)) ->
  outcome_rel Q (bind r f) (bind r' f').
Proof. destruct r, r'; simpl; intros; auto; contradiction. Qed.

Lemma orel_refl A (r : outcome A) : outcome_rel eq r r.
Proof. destruct r; simpl; auto. Qed.

Lemma rel_zlen (l l' : list F) : Forall2 Rel l l' -> zlen l' = zlen l.
Proof. intros H. unfold zlen. f_equal. induction H; simpl; auto. Qed.
Lemma orel_idx (l l' : list F) i : Forall2 Rel l l' -> outcome_rel Rel (idx l i) (idx l' i).
Proof.
  intros H. unfold idx. rewrite (rel_zlen _ _ H). destruct (_ && _); [|exact I]. unfold aget. generalize (Z.to_nat i).
  induction H as [|a a' l l' Ha H IH]; intros [|n]; simpl; auto.
Qed.

Lemma rel_c1_at grid vals vals' g g' x : Forall2 Rel vals vals' -> c1_new grid vals = Ok g -> c1_new grid vals' = Ok g' ->
  outcome_rel sample_rel (c1_at o c g x) (c1_at o c g' x).
Proof.
  intros H Hg Hg'. apply c1_new_inv in Hg as (-> & _). apply c1_new_inv in Hg' as (-> & _).
  unfold c1_at. change (c1_index o c (mkC1 grid vals') x) with (c1_index o c (mkC1 grid vals) x).
  cbn [c1_grid c1_vals].
  eapply orel_bind3; [apply orel_refl|]. intros [i e] ? <-.
  eapply orel_bind3; [apply orel_refl|]. intros x0 ? <-.
  eapply orel_bind3; [apply orel_refl|]. intros i1 ? <-.
  eapply orel_bind3; [apply orel_refl|]. intros x1 ? <-.
  eapply orel_bind3; [apply orel_idx, H|]. intros y0 y0' R0.
  eapply orel_bind3; [apply orel_idx, H|]. intros y1 y1' R1.
  simpl. unfold sample_rel. simpl. auto.
Qed.

Lemma rel_r1_at start step vals vals' g g' x : Forall2 Rel vals vals' ->
  r1_new o c start step vals = Ok g -> r1_new o c start step vals' = Ok g' ->
  outcome_rel sample_rel (r1_at o c g x) (r1_at o c g' x).
Proof.
  intros H Hg Hg'. unfold r1_new in Hg, Hg'. rewrite (rel_zlen _ _ H) in Hg'.
  destruct (usize_sub c (zlen vals) 1) as [m| |]; cbn [bind] in *; try discriminate Hg.
  destruct (ok_or (of_usize o m) msg_num) as [mf| |]; cbn [bind] in *; try discriminate Hg.
  inversion Hg; inversion Hg'; subst g g'; clear Hg Hg'.
  unfold r1_at, r1_index. cbn [r1_start r1_stop r1_step r1_vals]. rewrite (rel_zlen _ _ H).
  eapply orel_bind3; [apply orel_refl|]. intros [i e] ? <-.
  eapply orel_bind3; [apply orel_refl|]. intros x0 ? <-. cbv zeta.
  eapply orel_bind3; [apply orel_idx, H|]. intros y0 y0' R0.
  eapply orel_bind3; [apply orel_refl|]. intros i1 ? <-.
  eapply orel_bind3; [apply orel_idx, H|]. intros y1 y1' R1.
  simpl. unfold sample_rel. simpl. auto.
Qed.

Hypothesis Radd : forall a a' b b', Rel a a' -> Rel b b' -> Rel (fadd o a b) (fadd o a' b').
Hypothesis Rsub : forall a a' b b', Rel a a' -> Rel b b' -> Rel (fsub o a b) (fsub o a' b').
Hypothesis Rmulr : forall a a' t, Rel a a' -> Rel (fmul o a t) (fmul o a' t).
Hypothesis Rdiv : forall a a' t, Rel a a' -> Rel (fdiv o a t) (fdiv o a' t).
Hypothesis Rfvc : forall a a' t b b', Rel a a' -> Rel b b' -> Rel (fmuladd o a t b) (fmuladd o a' t b').

Lemma rel_line s s' x : sample_rel s s' -> Rel (line_through o c s x) (line_through o c s' x).
Proof using All.
  intros (X0 & X1 & _ & Y0 & Y1). unfold line_through. rewrite X0, X1. cbv zeta. destruct (use_fma c); auto.
Qed.

Lemma rel_methods (at_ at' : F -> outcome (grid_sample F)) x : outcome_rel sample_rel (at_ x) (at' x) ->
  outcome_rel Rel (linear1 o c at_ x) (linear1 o c at' x) /\
  outcome_rel Rel (hold_last1 o c at_ x) (hold_last1 o c at' x) /\
  outcome_rel Rel (left1 at_ x) (left1 at' x) /\
  outcome_rel Rel (right1 at_ x) (right1 at' x) /\
  outcome_rel Rel (nearest1 o at_ x) (nearest1 o at' x).
Proof using All.
  intros H. unfold linear1, hold_last1, left1, right1, nearest1.
  repeat split; (eapply orel_bind2; [exact H|]; intros s s' R; assert (L := rel_line s s' x R);
    destruct R as (X0 & X1 & E & Y0 & Y1); cbn [outcome_rel]; try rewrite E; try exact L).
  - destruct (sextrap s); auto.
  - destruct (sextrap s); auto.
  - destruct (sextrap s); auto.
  - cbv zeta. rewrite X0, X1. destruct (fle o _ _); auto.
Qed.
End Rel.

Section B.
Variables prec emax : Z.
Context (Hp : Prec_gt_0 prec) (He : Prec_lt_emax prec emax).
Notation fl := (binary_float prec emax).
Notation o := (BOps Hp He).

(** ** Negated data *)
Lemma neg_methods c (at_ at' : fl -> outcome (grid_sample fl)) x : outcome_rel (sample_rel (neg prec emax)) (at_ x) (at' x) ->
  outcome_rel negation (linear1 o c at_ x) (linear1 o c at' x) /\
  outcome_rel negation (hold_last1 o c at_ x) (hold_last1 o c at' x) /\
  outcome_rel negation (left1 at_ x) (left1 at' x) /\
  outcome_rel negation (right1 at_ x) (right1 at' x) /\
  outcome_rel negation (nearest1 o at_ x) (nearest1 o at' x).
Proof.
  intros H. destruct (rel_methods o c (neg prec emax)) with (at_ := at_) (at' := at') (x := x) as (A & B & C & D & E);
    auto using neg_add, neg_sub, neg_mul_r, neg_div, neg_fma_vc.
  repeat split; (eapply outcome_rel_impl; [intros a b; apply negation_neg|]; assumption).
Qed.

Theorem C72_proof_one_dim_rect c grid vals vals' g g' x : Forall2 negation vals vals' ->
  c1_new grid vals = Ok g -> c1_new grid vals' = Ok g' ->
  outcome_rel negation (linear1 o c (c1_at o c g) x) (linear1 o c (c1_at o c g') x) /\
  outcome_rel negation (hold_last1 o c (c1_at o c g) x) (hold_last1 o c (c1_at o c g') x) /\
  outcome_rel negation (left1 (c1_at o c g) x) (left1 (c1_at o c g') x) /\
  outcome_rel negation (right1 (c1_at o c g) x) (right1 (c1_at o c g') x) /\
  outcome_rel negation (nearest1 o (c1_at o c g) x) (nearest1 o (c1_at o c g') x).
Proof. intros H Hg Hg'. apply neg_methods. eapply rel_c1_at; [apply negation_lists; exact H|exact Hg|exact Hg']. Qed.

Theorem C72_proof_one_dim_reg c start step vals vals' g g' x : Forall2 negation vals vals' ->
  r1_new o c start step vals = Ok g -> r1_new o c start step vals' = Ok g' ->
  outcome_rel negation (linear1 o c (r1_at o c g) x) (linear1 o c (r1_at o c g') x) /\
  outcome_rel negation (hold_last1 o c (r1_at o c g) x) (hold_last1 o c (r1_at o c g') x) /\
  outcome_rel negation (left1 (r1_at o c g) x) (left1 (r1_at o c g') x) /\
  outcome_rel negation (right1 (r1_at o c g) x) (right1 (r1_at o c g') x) /\
  outcome_rel negation (nearest1 o (r1_at o c g) x) (nearest1 o (r1_at o c g') x).
Proof. intros H Hg Hg'. apply neg_methods. eapply rel_r1_at; [apply negation_lists; exact H|exact Hg|exact Hg']. Qed.

(** ** Observations that are not numbers *)
Theorem C33_proof_one_dim_methods c start h vals g x : r1_new o c start h vals = Ok g -> is_finite x = false ->
  linear1 o c (r1_at o c g) x = Err msg_num /\ hold_last1 o c (r1_at o c g) x = Err msg_num /\
  left1 (r1_at o c g) x = Err msg_num /\ right1 (r1_at o c g) x = Err msg_num /\ nearest1 o (r1_at o c g) x = Err msg_num.
Proof.
  intros Hg Fx. assert (E := C33_proof_one_dim prec emax Hp He c start h vals g x Hg Fx).
  unfold linear1, hold_last1, left1, right1, nearest1. rewrite E. repeat split; reflexivity.
Qed.

Lemma nan_lt_l (a : fl) : flt o B754_nan a = false. Proof. destruct a; reflexivity. Qed.
Lemma nan_lt_r (a : fl) : flt o a B754_nan = false. Proof. destruct a as [[]|[]| |[]]; reflexivity. Qed.

(** On a rectilinear grid NaN is placed in the first cell. *)
Lemma c1_at_nan c (grid vals : list fl) g : (zlen vals <= isize_max)%Z -> c1_new grid vals = Ok g ->
  exists x0 x1, c1_at o c g B754_nan = Ok (mkSample x0 (nth 0 vals B754_nan) x1 (nth 1 vals B754_nan) Inside).
Proof.
  intros Hn Hg. apply c1_new_inv in Hg as (-> & El & Hl).
  assert (P : prefix_true (fun v => flt o v B754_nan) grid).
  { intros i j a b _ _ _ Hb. rewrite nan_lt_r in Hb. discriminate Hb. }
  assert (Hz : (2 <= zlen grid <= isize_max)%Z) by (unfold zlen in *; lia).
  destruct (@c1_index_spec _ o c _ vals B754_nan P Hz) as (e & E & Xe).
  assert (C0 : clipped_cell o B754_nan grid = 0%Z).
  { unfold clipped_cell, count_below. replace (filter (fun v => flt o v B754_nan) grid) with (@nil fl).
    - change (zlen (@nil fl)) with 0%Z. lia.
    - clear. induction grid as [|a l IH]; [reflexivity|]. cbn [filter]. rewrite nan_lt_r. exact IH. }
  assert (Ee : e = Inside).
  { unfold extrap_of in Xe. destruct grid as [|g0 gs]; [simpl in Hl; lia|].
    destruct e; auto; [rewrite nan_lt_l in Xe; discriminate Xe|destruct Xe as (_ & Xe); rewrite nan_lt_r in Xe; discriminate Xe]. }
  subst e. rewrite C0 in E. unfold c1_at. rewrite E. cbn [bind c1_grid c1_vals].
  rewrite (@idx_nth _ grid 0%Z B754_nan) by lia. cbn [bind].
  rewrite usize_add_ok by (unfold two64, isize_max in *; lia). cbn [bind]. change (0 + 1)%Z with 1%Z.
  rewrite (@idx_nth _ grid 1%Z B754_nan) by lia. cbn [bind].
  assert (Hv : (2 <= zlen vals)%Z) by (unfold zlen in *; lia).
  rewrite (@idx_nth _ vals 0%Z B754_nan) by lia. cbn [bind].
  rewrite (@idx_nth _ vals 1%Z B754_nan) by lia. cbn [bind].
  change (Z.to_nat 0) with 0%nat. change (Z.to_nat 1) with 1%nat. eauto.
Qed.

Theorem C33_proof_one_dim_nan c (grid vals : list fl) g d : (zlen vals <= isize_max)%Z -> c1_new grid vals = Ok g ->
  linear1 o c (c1_at o c g) B754_nan = Ok B754_nan /\ hold_last1 o c (c1_at o c g) B754_nan = Ok B754_nan /\
  left1 (c1_at o c g) B754_nan = Ok (nth 0 vals d) /\ right1 (c1_at o c g) B754_nan = Ok (nth 1 vals d) /\
  nearest1 o (c1_at o c g) B754_nan = Ok (nth 1 vals d).
Proof.
  intros Hn Hg. destruct (c1_at_nan c grid vals g Hn Hg) as (x0 & x1 & E).
  apply c1_new_inv in Hg as (-> & El & Hl).
  rewrite (nth_indep vals d B754_nan) by lia. rewrite (nth_indep vals d B754_nan (n := 1)) by lia.
  assert (L : forall y0 y1 e, line_through o c (mkSample x0 y0 x1 y1 e) B754_nan = B754_nan).
  { intros. unfold line_through. cbn [sx0 sx1 sy0 sy1]. cbv zeta. rewrite (nan_sub_l prec emax Hp He).
    destruct (use_fma c); [apply nan_fma_2|]. rewrite nan_mul_r. apply nan_add_r. }
  unfold linear1, hold_last1, left1, right1, nearest1. rewrite E. cbn [bind sextrap sy0 sy1 sx0 sx1].
  rewrite !L. rewrite !(nan_sub_l prec emax Hp He). repeat split; reflexivity.
Qed.
End B.
