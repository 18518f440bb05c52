(** Continuity and differentiability of iterated one-dimensional interpolation. *)
From Coq Require Import Reals Lra PeanoNat ZifyBool ZifyNat.
From Verif Require Import Base Ops Spec SpecReal CoreLemmas MethodLemmas RTensor R1D RChar.
Open Scope R_scope.

Lemma cont_ext n F G x : length x = n -> (forall y, length y = n -> F y = G y) ->
  continuous_at n G x -> continuous_at n F x.
Proof.
  intros Lx E H eps He. destruct (H eps He) as (d & Hd & P). exists d. split; auto.
  intros y Ly Hy. rewrite !E by auto. auto.
Qed.

Lemma cont_const n v x : continuous_at n (fun _ => v) x.
Proof.
  intros eps He. exists 1. split; [lra|]. intros. rewrite Rminus_diag_eq by reflexivity. rewrite Rabs_R0. auto.
Qed.

Lemma cont_plus n F G x : continuous_at n F x -> continuous_at n G x ->
  continuous_at n (fun y => F y + G y) x.
Proof.
  intros HF HG eps He.
  destruct (HF (eps / 2) ltac:(lra)) as (d1 & H1 & P1). destruct (HG (eps / 2) ltac:(lra)) as (d2 & H2 & P2).
  exists (Rmin d1 d2). split; [apply Rmin_glb_lt; auto|]. intros y Ly Hy.
  assert (Rabs (F y - F x) < eps / 2).
  { apply P1; auto. intros k Hk. eapply Rlt_le_trans; [apply Hy; auto|apply Rmin_l]. }
  assert (Rabs (G y - G x) < eps / 2).
  { apply P2; auto. intros k Hk. eapply Rlt_le_trans; [apply Hy; auto|apply Rmin_r]. }
  replace (F y + G y - (F x + G x)) with ((F y - F x) + (G y - G x)) by ring.
  eapply Rle_lt_trans; [apply Rabs_triang|]. lra.
Qed.

Lemma cont_mult n F G x : continuous_at n F x -> continuous_at n G x ->
  continuous_at n (fun y => F y * G y) x.
Proof.
  intros HF HG eps He.
  set (A := Rabs (F x) + 1). set (B := Rabs (G x) + 1).
  assert (HA : 0 < A) by (unfold A; pose proof (Rabs_pos (F x)); lra).
  assert (HB : 0 < B) by (unfold B; pose proof (Rabs_pos (G x)); lra).
  assert (E1 : 0 < eps / (2 * B)) by (apply Rdiv_lt_0_compat; lra).
  assert (E2 : 0 < Rmin 1 (eps / (2 * A))) by (apply Rmin_glb_lt; [lra|apply Rdiv_lt_0_compat; lra]).
  destruct (HF _ E1) as (d1 & H1 & P1). destruct (HG _ E2) as (d2 & H2 & P2).
  exists (Rmin d1 d2). split; [apply Rmin_glb_lt; auto|]. intros y Ly Hy.
  assert (Q1 : Rabs (F y - F x) < eps / (2 * B)).
  { apply P1; auto. intros k Hk. eapply Rlt_le_trans; [apply Hy; auto|apply Rmin_l]. }
  assert (Q2 : Rabs (G y - G x) < Rmin 1 (eps / (2 * A))).
  { apply P2; auto. intros k Hk. eapply Rlt_le_trans; [apply Hy; auto|apply Rmin_r]. }
  assert (M1 := Rmin_l 1 (eps / (2 * A))). assert (M2 := Rmin_r 1 (eps / (2 * A))).
  assert (GB : Rabs (G y) < B).
  { unfold B. replace (G y) with (G x + (G y - G x)) by ring.
    eapply Rle_lt_trans; [apply Rabs_triang|]. lra. }
  replace (F y * G y - F x * G x) with ((F y - F x) * G y + F x * (G y - G x)) by ring.
  eapply Rle_lt_trans; [apply Rabs_triang|]. rewrite !Rabs_mult.
  assert (T1 : Rabs (F y - F x) * Rabs (G y) <= eps / (2 * B) * B).
  { apply Rmult_le_compat; try apply Rabs_pos; lra. }
  assert (T2 : Rabs (F x) * Rabs (G y - G x) <= Rabs (F x) * (eps / (2 * A))).
  { apply Rmult_le_compat_l; [apply Rabs_pos|lra]. }
  assert (T3 : Rabs (F x) * (eps / (2 * A)) < A * (eps / (2 * A))).
  { apply Rmult_lt_compat_r; [apply Rdiv_lt_0_compat; lra|]. unfold A; lra. }
  assert (T4 : eps / (2 * B) * B = eps / 2) by (field; lra).
  assert (T5 : A * (eps / (2 * A)) = eps / 2) by (field; lra). lra.
Qed.

Lemma cont_sum n A (F : A -> list R -> R) l x : (forall a, In a l -> continuous_at n (F a) x) ->
  continuous_at n (fun y => Rsum (map (fun a => F a y) l)) x.
Proof.
  induction l as [|a l IH]; intros H; simpl; [apply cont_const|].
  apply (@cont_plus n (F a) (fun y => Rsum (map (fun a => F a y) l))).
  - apply H; left; auto.
  - apply IH. intros; apply H; right; auto.
Qed.

Lemma cont_first n h t x : continuity_pt h t -> continuous_at (S n) (fun y => h (nth 0 y 0)) (t :: x).
Proof.
  intros H eps He. destruct (H eps He) as (d & Hd & P). exists d. split; auto.
  intros y Ly Hy. specialize (Hy 0%nat ltac:(lia)). cbn [nth] in *.
  destruct (Req_dec (nth 0 y 0) t) as [->|Hne]; [rewrite Rminus_diag_eq by reflexivity; rewrite Rabs_R0; auto|].
  apply P. split; [split; [exact I|congruence]|]. exact Hy.
Qed.

Lemma cont_rest n G t x : continuous_at n G x -> continuous_at (S n) (fun y => G (tl y)) (t :: x).
Proof.
  intros H eps He. destruct (H eps He) as (d & Hd & P). exists d. split; auto.
  intros y Ly Hy. destruct y as [|u y]; [discriminate|]. simpl in Ly. cbn [tl]. apply P; [lia|].
  intros k Hk. apply (Hy (S k)). lia.
Qed.

(** Each axis k is interpolated by its own operator; [app_ops] applies them. *)
Definition op1 := R -> (Z -> R) -> R.
Definition app_ops (l : list op1) (x : list R) : list ((Z -> R) -> R) :=
  map (fun p => fst p (snd p)) (combine l x).

Lemma ops1_app op axes x : ops1 op axes x = app_ops (map op axes) x.
Proof.
  unfold ops1, app_ops. revert x. induction axes; intros [|t x]; simpl; auto. f_equal. auto.
Qed.

Lemma app_ops_cons op l u x : app_ops (op :: l) (u :: x) = op u :: app_ops l x.
Proof. reflexivity. Qed.

Lemma upd_nth_eq A (l : list A) k a d : (k < length l)%nat -> nth k (upd l k a) d = a.
Proof. intros H. apply nth_error_nth. apply upd_same; auto. Qed.
Lemma upd_nth_neq A (l : list A) k j a d : j <> k -> nth j (upd l k a) d = nth j l d.
Proof.
  intros H. revert k j H. induction l as [|b l IH]; intros [|k] [|j] H; simpl; auto; try congruence.
Qed.

Definition op_cont (d : Z) (op : op1) : Prop :=
  (forall t, lf d (op t)) /\ forall f t, continuity_pt (fun u => op u f) t.

Lemma tenL_continuous dims l : Forall2 op_cont dims l -> forall V x, length x = length l ->
  continuous_at (length l) (fun y => tenL (app_ops l y) V) x.
Proof.
  induction 1 as [|d op ds l (Hop & Hc) Hl IH]; intros V x Lx.
  - destruct x; [|discriminate]. apply (@cont_ext 0 _ (fun _ => V [])); [reflexivity| |apply cont_const].
    intros y Ly. reflexivity.
  - destruct x as [|t x]; [discriminate|]. simpl in Lx. cbn [length].
    apply (@cont_ext (S (length l)) _ (fun y => Rsum (map (fun i =>
       op (nth 0 y 0) (delta i) * tenL (app_ops l (tl y)) (fun idx => V (i :: idx))) (zseq d)))).
    + simpl. lia.
    + intros [|u y] Ly; [discriminate|]. cbn [app_ops combine map fst snd tenL nth tl].
      fold (app_ops l y). apply (lf_repr (fun i => tenL (app_ops l y) (fun idx => V (i :: idx))) (Hop u)).
    + apply (@cont_sum (S (length l)) Z (fun i y =>
        op (nth 0 y 0) (delta i) * tenL (app_ops l (tl y)) (fun idx => V (i :: idx)))).
      intros i _. apply (@cont_mult (S (length l)) (fun y => op (nth 0 y 0) (delta i))
         (fun y => tenL (app_ops l (tl y)) (fun idx => V (i :: idx)))).
      * apply (@cont_first (length l) (fun u => op u (delta i)) t x). apply Hc.
      * apply (@cont_rest (length l) (fun y => tenL (app_ops l y) (fun idx => V (i :: idx))) t x).
        apply IH. lia.
Qed.

Lemma app_ops_upd l x k t : (k < length l)%nat -> length x = length l ->
  app_ops l (upd x k t) = upd (app_ops l x) k (nth k l (fun _ _ => 0) t).
Proof.
  revert x k. induction l as [|op l IH]; intros x k Hk Lx; simpl in Hk; [lia|].
  destruct x as [|u x]; [discriminate|]. destruct k as [|k]; [reflexivity|].
  cbn [upd nth]. rewrite !app_ops_cons. cbn [upd]. f_equal. apply IH; simpl in *; lia.
Qed.

Lemma app_ops_lfs dims l x : Forall2 (fun d (op : op1) => forall t, lf d (op t)) dims l -> length x = length l ->
  lfs dims (app_ops l x).
Proof.
  intros H. revert x. induction H as [|d op ds l Hd H IH]; intros [|u x] Lx; try discriminate; constructor; auto.
  apply IH. simpl in Lx. lia.
Qed.

Lemma app_ops_length l x : length x = length l -> length (app_ops l x) = length l.
Proof. intros. unfold app_ops. rewrite map_length, combine_length. lia. Qed.

(** Along axis k the tensor interpolant is the one-dimensional interpolant of some
    sequence that does not depend on the coordinate. *)
Lemma tenL_line dims l x k V : Forall2 (fun d (op : op1) => forall t, lf d (op t)) dims l ->
  length x = length l -> (k < length l)%nat ->
  exists f, forall t, tenL (app_ops l (upd x k t)) V = nth k l (fun _ _ => 0) t f.
Proof.
  intros H Lx Hk. exists (sliceV (app_ops l x) k V). intros t.
  rewrite app_ops_upd by auto.
  assert (HL : exists d, forall t, lf d (nth k l (fun _ _ => 0) t)).
  { clear -H Hk. revert k Hk. induction H; intros k Hk; simpl in *; [lia|].
    destruct k; eauto. apply IHForall2. lia. }
  destruct HL as (d & HL).
  eapply tenL_slice; eauto.
  - apply app_ops_lfs; eauto.
  - rewrite app_ops_length; auto.
Qed.

Lemma Forall2_len A B (P : A -> B -> Prop) la lb : Forall2 P la lb -> length la = length lb.
Proof. induction 1; simpl; auto. Qed.

Lemma tenL_C1 dims (l l' : list op1) V :
  Forall2 (fun d op => forall t, lf d (op t)) dims l ->
  length l' = length l ->
  (forall k, (k < length l)%nat -> let op := nth k l (fun _ _ => 0) in let op' := nth k l' (fun _ _ => 0) in
     (forall t, lf (nth k dims 0%Z) (op' t)) /\
     (forall f t, derivable_pt_lim (fun u => op u f) t (op' t f)) /\
     (forall f t, continuity_pt (fun u => op u f) t) /\
     (forall f t, continuity_pt (fun u => op' u f) t)) ->
  continuously_differentiable (length l) (fun x => tenL (app_ops l x) V).
Proof.
  intros Hl Ll H.
  exists (fun k x => tenL (app_ops (upd l k (nth k l' (fun _ _ => 0))) x) V).
  intros k Hk. destruct (H k Hk) as (H1 & H2 & H3 & H4). split.
  - intros x Lx. unfold partial_derivative.
    assert (Hlf := app_ops_lfs x Hl Lx).
    assert (HL : forall t, lf (nth k dims 0%Z) (nth k l (fun _ _ => 0) t)).
    { clear -Hl Hk. revert k Hk. induction Hl; intros k Hk; simpl in *; [lia|].
      destruct k; auto. apply IHHl. lia. }
    assert (E : forall t, tenL (app_ops l (upd x k t)) V = nth k l (fun _ _ => 0) t (sliceV (app_ops l x) k V)).
    { intros t. rewrite app_ops_upd by auto.
      apply (tenL_slice V Hlf (k := k) ltac:(rewrite app_ops_length; auto) (HL t)). }
    assert (E' : tenL (app_ops (upd l k (nth k l' (fun _ _ => 0))) x) V
                 = nth k l' (fun _ _ => 0) (nth k x 0) (sliceV (app_ops l x) k V)).
    { replace (app_ops (upd l k (nth k l' (fun _ _ => 0))) x)
        with (upd (app_ops l x) k (nth k l' (fun _ _ => 0) (nth k x 0))).
      - apply (tenL_slice V Hlf (k := k) ltac:(rewrite app_ops_length; auto) (H1 _)).
      - clear -Lx Hk. set (m := nth k l' (fun _ _ => 0)). clearbody m. revert x k Lx Hk.
        induction l as [|op l IH]; intros x k Lx Hk; simpl in Hk; [lia|].
        destruct x as [|u x]; [discriminate|]. destruct k; [reflexivity|].
        cbn [upd nth]. rewrite !app_ops_cons. cbn [upd]. f_equal. apply IH; simpl in *; lia. }
    rewrite E'. intros eps He. destruct (H2 (sliceV (app_ops l x) k V) (nth k x 0) eps He) as (d & Hd).
    exists d. intros h Hh0 Hh. rewrite !E. apply Hd; auto.
  - intros x Lx.
    assert (Lu : length (upd l k (nth k l' (fun _ _ => 0))) = length l) by (apply upd_length).
    rewrite <- Lu. apply (@tenL_continuous dims); [|lia].
    apply (@Forall2_nth_intro _ _ op_cont 0%Z (fun _ _ => 0)).
    + rewrite Lu. apply (Forall2_len Hl).
    + intros j Hj. 
      assert (Ld := Forall2_len Hl).
      destruct (Nat.eq_dec j k) as [->|Hne].
      * rewrite upd_nth_eq by exact Hk. split; auto.
      * rewrite upd_nth_neq by auto.
        assert (Hj' : (j < length l)%nat) by (exact (eq_rect _ (fun n => (j < n)%nat) Hj _ Ld)).
        destruct (H j Hj') as (_ & _ & J3 & _). split; auto.
        clear -Hl Hj'. revert j Hj'. induction Hl; intros j Hj'; simpl in *; [lia|].
        destruct j; auto. apply IHHl. lia.
Qed.
