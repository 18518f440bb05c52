(** Proofs about whole calls of the Python function interpn. *)
From Coq Require Import PeanoNat Bool Lia List String ZArith.
From Verif Require Import Base Ops ModelCore ModelLinear ModelNearest ModelCubic ModelPython Spec SpecCalls SpecPython SpecPyCalls.
From Verif Require Import CallProofs PyProofs.
Import ListNotations.
Open Scope string_scope.
Open Scope Z_scope.

Section PyCalls.
Context {F : Type} (o : Ops F) (c : cfg).
Notation z := (fzero o).

Lemma succeeds_returns (o0 : ndarray F) r :
  succeeds (repeat z (length (nd_data o0))) r -> returns_like o0 (python_result (nd_shape o0) r, None).
Proof.
  destruct r as (r & data). intros (E & L). simpl in E, L. rewrite E. exists data. rewrite repeat_length in L. auto.
Qed.
Lemma refused_asserts (o0 : ndarray F) (out : list F) r : refused out r -> asserts (python_result (nd_shape o0) r, None).
Proof. intros (e & ->). exists e. reflexivity. Qed.
Lemma stopped_asserts (o0 : ndarray F) e (out : list F) r : stopped e out r ->
  (python_result (nd_shape o0) r, @None (list F)) = (Raise (AssertionError e), None).
Proof. destruct r as (r & data). intros (E & L). simpl in E. rewrite E. reflexivity. Qed.

Section Call.
Variables (obs grids : list (ndarray F)) (vals o0 : ndarray F) (lin assume : bool) (atol : F) (method : string).
Hypothesis Hobs : hd_error obs = Some o0.
Hypothesis Hm : known_method method.
Let gs := map nd_data grids.
Let xs := map nd_data obs.
Let m := length (nd_data o0).
Let call := py_interpn o c obs grids vals method None lin assume false atol.
Hypothesis Lobs : (length obs <= 8)%nat.
Hypothesis Hp : prefix_products_fit (map zlen gs).
Hypothesis Hv : zlen (nd_data vals) <= isize_max.

Lemma from_rectilinear size axes r :
  calls_rectilinear o size axes gs (nd_data vals) xs (repeat z m) r -> call = (python_result (nd_shape o0) r, None) ->
  (valid_rectilinear o size axes gs (nd_data vals) xs m -> returns_like o0 call) /\
  (~ valid_rectilinear o size axes gs (nd_data vals) xs m -> asserts call).
Proof using All.
  unfold calls_rectilinear. rewrite repeat_length. intros (H1 & H2) ->. split; intros V.
  - apply succeeds_returns. auto.
  - eapply refused_asserts. apply H2. auto.
Qed.
Lemma from_regular size axes dims starts steps r :
  calls_regular o size axes dims starts steps (nd_data vals) xs (repeat z m) r -> call = (python_result (nd_shape o0) r, None) ->
  (valid_regular o size axes dims starts steps (nd_data vals) xs m ->
     (observations_fit o starts steps xs m -> returns_like o0 call) /\
     (~ observations_fit o starts steps xs m -> call = (Raise (AssertionError "Unrepresentable coordinate value"), None))) /\
  (~ valid_regular o size axes dims starts steps (nd_data vals) xs m -> asserts call).
Proof using All.
  unfold calls_regular. rewrite repeat_length. intros (H1 & H2) ->. split; intros V; [split; intros Q|].
  - apply succeeds_returns. apply H1; auto.
  - eapply stopped_asserts. apply H1; auto.
  - eapply refused_asserts. apply H2. auto.
Qed.

Theorem python_rectilinear :
  Forall (fun g => (2 <= length (nd_data g))%nat) grids -> assume = false -> ~ Forall (evenly_spaced o) gs ->
  (length grids <= 8)%nat -> (method = "cubic" -> (length grids <= 4)%nat -> length obs = length grids) ->
  (valid_rectilinear o (nodes_needed method) (axes_allowed method) gs (nd_data vals) xs m -> returns_like o0 call) /\
  (~ valid_rectilinear o (nodes_needed method) (axes_allowed method) gs (nd_data vals) xs m -> asserts call).
Proof using All.
  intros Hg Ha He Lg Hc.
  destruct (dispatch_rectilinear o c obs grids vals o0 lin assume atol Hobs Lobs Hg Ha He Lg) as (E1 & E2 & E3).
  destruct Hm as [E | [E | E]]; unfold nodes_needed, axes_allowed; rewrite E; cbn [String.eqb Ascii.eqb Bool.eqb].
  - eapply from_rectilinear; [|unfold call; rewrite E; exact E1]. apply call_mlc; auto.
  - eapply from_rectilinear; [|unfold call; rewrite E; exact E2]. apply call_nc; auto.
  - eapply from_rectilinear; [|unfold call; rewrite E; exact E3]. apply call_mcc; auto.
    unfold gs, xs. rewrite !map_length. auto.
Qed.
Theorem python_regular :
  usize_converts o -> Forall (fun g => (2 <= length (nd_data g))%nat) grids -> assume = true \/ Forall (evenly_spaced o) gs ->
  let dims := map zlen gs in let starts := firsts z gs in let steps := spacings o z gs in
  (method = "cubic" -> ovf_checks c = false \/ above_lowest o starts steps xs m) ->
  (method = "cubic" -> (length grids <= 4)%nat -> length obs = length grids) ->
  (valid_regular o (nodes_needed method) (axes_allowed method) dims starts steps (nd_data vals) xs m ->
     (observations_fit o starts steps xs m -> returns_like o0 call) /\
     (~ observations_fit o starts steps xs m -> call = (Raise (AssertionError "Unrepresentable coordinate value"), None))) /\
  (~ valid_regular o (nodes_needed method) (axes_allowed method) dims starts steps (nd_data vals) xs m -> asserts call).
Proof using All.
  intros Hz Hg He dims starts steps Hlow Hc.
  destruct (dispatch_regular o c obs grids vals o0 lin assume atol Hobs Lobs Hg He) as (E1 & E2 & E3).
  destruct Hm as [E | [E | E]]; unfold nodes_needed, axes_allowed; rewrite E; cbn [String.eqb Ascii.eqb Bool.eqb].
  - eapply from_regular; [|unfold call; rewrite E; exact E1]. apply call_mlr; auto.
  - eapply from_regular; [|unfold call; rewrite E; exact E2]. apply call_nr; auto.
  - eapply from_regular; [|unfold call; rewrite E; exact E3]. apply call_mcr; auto.
    + rewrite repeat_length. auto.
    + unfold firsts, spacings, gs, xs. rewrite !map_length. auto.
Qed.

(** A grid with fewer than two coordinates. *)
Lemma check_false l : check_regular_from o false l = Ret false.
Proof. induction l as [|g l IH]; simpl; auto. Qed.
Lemma check_short l acc : Exists (fun g => (length g < 2)%nat) l ->
  check_regular_from o acc l = Raise IndexError \/ check_regular_from o acc l = Ret false.
Proof.
  revert acc. induction l as [|g l IH]; intros acc H; [inversion H|].
  destruct acc; [|right; apply check_false]. simpl.
  destruct (py_get (np_diff o g) 0) as [d0|e] eqn:E.
  - cbn [py_bind]. apply IH. inversion H as [? ? Hs|]; subst; auto.
    assert (np_diff o g = []) by (apply length_zero_iff_nil; rewrite np_diff_length; lia).
    rewrite H0 in E. discriminate.
  - left. unfold py_get in E. destruct (nth_error (np_diff o g) 0); inversion E. reflexivity.
Qed.
Lemma py_map_index {A} (f : list F -> py A) l : (forall g, (exists a, f g = Ret a) \/ f g = Raise IndexError) ->
  (exists r, py_map f l = Ret r) \/ py_map f l = Raise IndexError.
Proof.
  intros H. induction l as [|g l IH]; simpl; eauto.
  destruct (H g) as [(a & ->) | ->]; cbn [py_bind]; auto.
  destruct IH as [(r & ->) | ->]; cbn [py_bind]; eauto.
Qed.
Lemma py_map_short {A} (f : list F -> py A) l : (forall g, (exists a, f g = Ret a) \/ f g = Raise IndexError) ->
  Exists (fun g => f g = Raise IndexError) l -> py_map f l = Raise IndexError.
Proof.
  intros H. induction l as [|g l IH]; intros Hs; [inversion Hs|]; simpl.
  destruct (H g) as [(a & E) | E]; rewrite E; cbn [py_bind]; auto.
  rewrite IH; auto. inversion Hs; subst; auto. congruence.
Qed.
Lemma get_cases (g : list F) k : (exists a, py_get g k = Ret a) \/ py_get g k = Raise IndexError.
Proof. unfold py_get. destruct (nth_error g k); eauto. Qed.

Theorem python_short :
  Exists (fun g => (length (nd_data g) < 2)%nat) grids -> (length grids <= 8)%nat ->
  (method = "cubic" -> (length grids <= 4)%nat -> length obs = length grids) ->
  call = (Raise IndexError, None) \/ asserts call.
Proof using All.
  intros Hs Lg Hc.
  assert (Hs' : Exists (fun g => (length g < 2)%nat) gs) by (unfold gs; apply Exists_map; exact Hs).
  assert (G0 := get_obs0 Hobs).
  destruct (if assume as b return (if b then Ret true else check_regular o gs) = Raise IndexError \/
      (if b then Ret true else check_regular o gs) = Ret b then or_intror eq_refl else @check_short gs true Hs') as [R|R].
  - left. unfold call, py_interpn, choose_out. rewrite G0. cbn [py_bind]. fold gs. rewrite R. reflexivity.
  - destruct assume.
    + left. unfold call, py_interpn, choose_out. rewrite G0. cbn [py_bind]. fold gs.
      destruct (py_map_index (fun g => py_get g 0) gs) as [(st & E) | E]; [intros; apply get_cases|rewrite E; cbn [py_bind]|rewrite E; reflexivity].
      rewrite py_map_short; [reflexivity| |].
      * intros g. destruct (get_cases g 1) as [(a & ->) | ->]; cbn [py_bind]; auto.
        destruct (get_cases g 0) as [(b & ->) | ->]; cbn [py_bind]; eauto.
      * apply Exists_exists in Hs' as (g & Hi & Hl). apply Exists_exists. exists g. split; auto.
        unfold py_get at 1. destruct (nth_error g 1) eqn:N; [|reflexivity].
        assert (1 < length g)%nat by (apply nth_error_Some; congruence). lia.
    + right.
      assert (U : unpack_ok gs && unpack_ok xs = true) by (unfold unpack_ok, xs, gs; rewrite !map_length; lia).
      assert (G : call =
        match py_dispatch o c false method [] [] [] gs (nd_data vals) lin xs (repeat z m) with
        (r, data) => (py_bind r (fun _ => Ret (mkNd (nd_shape o0) data)), None) end).
      { unfold call, py_interpn, choose_out. rewrite G0. cbn [py_bind]. fold gs xs. rewrite R. cbn [py_bind].
        fold m. destruct (py_dispatch _ _ _ _ _ _ _ _ _ _ _ _). reflexivity. }
      assert (NV : forall k a mm, 2 <= k -> ~ valid_rectilinear o k a gs (nd_data vals) xs mm).
      { intros k a mm Hk (_ & _ & _ & _ & Q & _). apply Exists_exists in Hs' as (g & Hi & Hl).
        rewrite Forall_forall in Q. specialize (Q g Hi). unfold zlen in Q. lia. }
      assert (A : forall r (out : list F), refused out r -> asserts (let (r', data) := raw_result r in (py_bind r' (fun _ => Ret (mkNd (nd_shape o0) data)), @None (list F)))).
      { intros r out (e & ->). exists e. reflexivity. }
      rewrite G. unfold py_dispatch.
      destruct Hm as [E | [E | E]]; rewrite E; cbn [String.eqb Ascii.eqb Bool.eqb];
        unfold raw_linear_rectilinear, raw_nearest_rectilinear, raw_cubic_rectilinear; rewrite U; cbn [negb]; eapply A.
      * eapply call_mlc; auto. apply NV. lia.
      * eapply call_nc; auto. apply NV. lia.
      * eapply call_mcc; auto; [|apply NV; lia]. unfold gs, xs. rewrite !map_length. auto.
Qed.
End Call.

Theorem python_no_obs grids vals method out lin assume cb atol : out = None ->
  py_interpn o c [] grids vals method out lin assume cb atol = (Raise IndexError, None).
Proof. intros ->. reflexivity. Qed.

Theorem python_many obs grids vals o0 method lin assume atol : hd_error obs = Some o0 -> known_method method ->
  Forall (fun g => (2 <= length (nd_data g))%nat) grids -> (8 < length obs)%nat ->
  py_interpn o c obs grids vals method None lin assume false atol = (Raise PanicException, None).
Proof.
  intros Ho Hm Hg L. assert (G0 := get_obs0 Ho). assert (Gl := gs_len Hg).
  set (gs := map nd_data grids) in *.
  assert (R : exists b, (if assume then Ret true else check_regular o gs) = Ret b).
  { destruct assume; eauto. destruct (check_regular_from_spec o gs true Gl) as (b & E & Hb). exists b. exact E. }
  assert (U : unpack_ok (map nd_data obs) = false) by (unfold unpack_ok; rewrite map_length; apply Nat.leb_gt; auto).
  destruct R as (b & R). destruct (reg_data o gs z Gl) as (E1 & E2).
  unfold py_interpn, choose_out. rewrite G0. cbn [py_bind]. fold gs. rewrite R. cbn [py_bind].
  destruct b.
  - rewrite E1. cbn [py_bind]. rewrite E2. cbn [py_bind]. unfold py_dispatch.
    destruct Hm as [E | [E | E]]; rewrite E; cbn [String.eqb Ascii.eqb Bool.eqb];
      unfold raw_linear_regular, raw_nearest_regular, raw_cubic_regular; rewrite U, dims_ok_lens; reflexivity.
  - cbn [py_bind]. unfold py_dispatch.
    destruct Hm as [E | [E | E]]; rewrite E; cbn [String.eqb Ascii.eqb Bool.eqb];
      unfold raw_linear_rectilinear, raw_nearest_rectilinear, raw_cubic_rectilinear; rewrite U, andb_false_r; reflexivity.
Qed.
End PyCalls.
