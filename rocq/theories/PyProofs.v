(** Proofs about the Python package. *)
From Coq Require Import Reals Lra PeanoNat Bool Sorted ZifyBool ZifyNat.
From Verif Require Import Base Ops ModelCore ModelLinear ModelNearest ModelCubic ModelPython.
From Verif Require Import Spec CoreLemmas GenLemmas GenProofs GenProofs2 GenProofs3.
From Verif Require Import RInst SpecReal R1D RChar Interpolators RProofs RProofs3 UtilProofs SpecPython.
Unset Implicit Arguments.
Open Scope Z_scope.

Section Gen.
Context {F : Type} (o : Ops F) (c : cfg).

Lemma py_get_some {A} (l : list A) k a : nth_error l k = Some a -> py_get l k = Ret a.
Proof. unfold py_get. intros ->. reflexivity. Qed.
Lemma py_get_nth {A} (l : list A) k d : (k < length l)%nat -> py_get l k = Ret (nth k l d).
Proof. intros H. apply py_get_some. apply nth_error_nth'; auto. Qed.

Lemma np_diff_length g : length (np_diff o g) = (length g - 1)%nat.
Proof. unfold np_diff. rewrite map_length, combine_length. destruct g; cbn [tl length]; lia. Qed.
Lemma np_diff_nth g i a b : nth_error g i = Some a -> nth_error g (S i) = Some b ->
  nth_error (np_diff o g) i = Some (fsub o b a).
Proof.
  unfold np_diff. revert i. induction g as [|x g IH]; intros [|i]; simpl; try discriminate.
  - destruct g as [|y g]; simpl; [discriminate|]. intros H1 H2. inversion H1; inversion H2; subst. reflexivity.
  - destruct g as [|y g]; [destruct i; discriminate|]. intros H1 H2. simpl. apply (IH i); auto.
Qed.

Lemma feq_same a b : feq o a b = true <-> same_number o a b.
Proof. unfold feq, same_number. apply andb_true_iff. Qed.

Lemma evenly_iff g d0 : (2 <= length g)%nat -> nth_error (np_diff o g) 0 = Some d0 ->
  (forallb (fun d => feq o d d0) (np_diff o g) = true <-> evenly_spaced o g).
Proof.
  intros L H0. split.
  - intros Hf i a0 a1 a b E0 E1 Ea Eb. apply feq_same.
    assert (D0 := np_diff_nth g 0 a0 a1 E0 E1). rewrite H0 in D0. inversion D0; subst d0.
    rewrite forallb_forall in Hf. apply Hf. eapply nth_error_In. apply np_diff_nth with (i := i); eauto.
  - intros He. apply forallb_forall. intros d Hd. apply In_nth_error in Hd as (i & Hi).
    assert (Hl : (i < length (np_diff o g))%nat) by (apply nth_error_Some; congruence).
    rewrite np_diff_length in Hl.
    destruct (nth_error g i) as [a|] eqn:Ea; [|apply nth_error_None in Ea; lia].
    destruct (nth_error g (S i)) as [b|] eqn:Eb; [|apply nth_error_None in Eb; lia].
    destruct (nth_error g 0) as [a0|] eqn:E0; [|apply nth_error_None in E0; lia].
    destruct (nth_error g 1) as [a1|] eqn:E1; [|apply nth_error_None in E1; lia].
    rewrite (np_diff_nth g i a b Ea Eb) in Hi. rewrite (np_diff_nth g 0 a0 a1 E0 E1) in H0.
    inversion Hi; inversion H0; subst. apply feq_same. eapply He; eauto.
Qed.

Lemma check_regular_from_spec grids acc : Forall (fun g => (2 <= length g)%nat) grids ->
  exists b, check_regular_from o acc grids = Ret b /\
    (b = true <-> acc = true /\ Forall (evenly_spaced o) grids).
Proof.
  revert acc. induction grids as [|g gs IH]; intros acc H; simpl.
  - exists acc. split; auto. split; [auto|tauto].
  - inversion H; subst. destruct acc.
    + destruct (nth_error (np_diff o g) 0) as [d0|] eqn:E0.
      2:{ apply nth_error_None in E0. rewrite np_diff_length in E0. lia. }
      rewrite (py_get_some _ _ _ E0). cbn [py_bind].
      destruct (IH (forallb (fun d => feq o d d0) (np_diff o g)) H3) as (b & E & Hb).
      exists b. split; [exact E|]. rewrite Hb, (evenly_iff g d0 H2 E0). rewrite Forall_cons_iff. tauto.
    + destruct (IH false H3) as (b & E & Hb). exists b. split; [exact E|]. rewrite Hb. intuition discriminate.
Qed.

Lemma py_map_ok {A B} (f : A -> py B) g l : (forall a, In a l -> f a = Ret (g a)) -> py_map f l = Ret (map g l).
Proof.
  induction l as [|a l IH]; intros H; simpl; auto. rewrite H by (left; auto). cbn [py_bind].
  rewrite IH by (intros; apply H; right; auto). reflexivity.
Qed.

Notation z := (fzero o).
Lemma reg_data grids (d : F) : Forall (fun g => (2 <= length g)%nat) grids ->
  py_map (fun g : list F => py_get g 0) grids = Ret (firsts d grids) /\
  py_map (fun g => py_bind (py_get g 1) (fun g1 => py_bind (py_get g 0) (fun g0 => Ret (fsub o g1 g0)))) grids
    = Ret (spacings o d grids).
Proof.
  intros H. rewrite Forall_forall in H. split; apply py_map_ok; intros g Hg; specialize (H g Hg).
  - apply py_get_nth; lia.
  - rewrite (py_get_nth g 1 d) by lia. cbn [py_bind]. rewrite (py_get_nth g 0 d) by lia. reflexivity.
Qed.

Lemma raw_result_python {A} shape (r : outcome unit * list A) :
  py_bind (fst (raw_result r)) (fun _ => Ret (mkNd shape (snd (raw_result r)))) = python_result shape r.
Proof. destruct r as [[[]|e|] d]; reflexivity. Qed.

Lemma dims_ok_lens (grids : list (list F)) : dims_ok (map zlen grids) = true.
Proof. unfold dims_ok. apply forallb_forall. intros d Hd. apply in_map_iff in Hd as (g & <- & _). unfold zlen. lia. Qed.

Lemma get_obs0 {obs : list (ndarray F)} {o0} : hd_error obs = Some o0 -> py_get obs 0 = Ret o0.
Proof. destruct obs; simpl; intros H; inversion H; reflexivity. Qed.
Lemma gs_len {m} {grids : list (ndarray F)} : Forall (fun g => (m <= length (nd_data g))%nat) grids ->
  Forall (fun g => (m <= length g)%nat) (map nd_data grids).
Proof. rewrite Forall_map. auto. Qed.

(** ** C42: dispatch *)
Section Dispatch.
Variables (obs grids : list (ndarray F)) (vals o0 : ndarray F) (lin assume : bool) (atol : F).
Hypothesis Hobs : hd_error obs = Some o0.
Hypothesis Lobs : (length obs <= 8)%nat.
Hypothesis Hg : Forall (fun g => (2 <= length (nd_data g))%nat) grids.
Let gs := map nd_data grids.
Let os := map nd_data obs.
Let zeros := repeat z (length (nd_data o0)).
Let call m := py_interpn o c obs grids vals m None lin assume false atol.

Let gs_len := gs_len Hg.
Let get_obs0 := get_obs0 Hobs.

Lemma dispatch_regular : assume = true \/ Forall (evenly_spaced o) gs ->
  let dims := map zlen gs in let starts := firsts z gs in let steps := spacings o z gs in
  call "linear" = (python_result (nd_shape o0) (mlr_interpn o c dims starts steps (nd_data vals) os zeros), None) /\
  call "nearest" = (python_result (nd_shape o0) (nr_interpn o c dims starts steps (nd_data vals) os zeros), None) /\
  call "cubic" = (python_result (nd_shape o0) (mcr_interpn o c dims starts steps (nd_data vals) lin os zeros), None).
Proof.
  intros He. cbv zeta.
  assert (R : (if assume then Ret true else check_regular o gs) = Ret true).
  { destruct He as [-> | He]; auto. destruct assume; auto.
    destruct (check_regular_from_spec gs true gs_len) as (b & E & Hb). unfold check_regular. rewrite E.
    f_equal. apply Hb. auto. }
  destruct (reg_data gs z gs_len) as (E1 & E2).
  assert (U : unpack_ok os = true) by (unfold unpack_ok, os; rewrite map_length; lia).
  assert (G : forall m, call m =
    match py_dispatch o c true m (map zlen gs) (firsts z gs) (spacings o z gs) gs (nd_data vals) lin os zeros with
    (r, data) => (py_bind r (fun _ => Ret (mkNd (nd_shape o0) data)), None) end).
  { intros m. unfold call, py_interpn, choose_out. rewrite get_obs0. cbn [py_bind].
    fold gs os. rewrite R. cbn [py_bind]. rewrite E1. cbn [py_bind]. rewrite E2. cbn [py_bind].
    fold zeros. destruct (py_dispatch _ _ _ _ _ _ _ _ _ _ _ _). reflexivity. }
  rewrite !G. unfold py_dispatch. simpl String.eqb. cbv iota.
  unfold raw_linear_regular, raw_nearest_regular, raw_cubic_regular. rewrite dims_ok_lens, U. cbn [negb].
  rewrite <- !raw_result_python.
  destruct (raw_result (mlr_interpn _ _ _ _ _ _ _ _)), (raw_result (nr_interpn _ _ _ _ _ _ _ _)), (raw_result (mcr_interpn _ _ _ _ _ _ _ _ _)).
  auto.
Qed.

Lemma dispatch_rectilinear : assume = false -> ~ Forall (evenly_spaced o) gs -> (length grids <= 8)%nat ->
  call "linear" = (python_result (nd_shape o0) (mlc_interpn o c gs (nd_data vals) os zeros), None) /\
  call "nearest" = (python_result (nd_shape o0) (nc_interpn o c gs (nd_data vals) os zeros), None) /\
  call "cubic" = (python_result (nd_shape o0) (mcc_interpn o c gs (nd_data vals) lin os zeros), None).
Proof.
  intros Ha He Lg.
  assert (R : (if assume then Ret true else check_regular o gs) = Ret false).
  { rewrite Ha. destruct (check_regular_from_spec gs true gs_len) as (b & E & Hb). unfold check_regular. rewrite E.
    f_equal. destruct b; auto. exfalso. apply He. apply Hb. auto. }
  assert (U : unpack_ok gs && unpack_ok os = true) by (unfold unpack_ok, os, gs; rewrite !map_length; lia).
  assert (G : forall m, call m =
    match py_dispatch o c false m [] [] [] gs (nd_data vals) lin os zeros with
    (r, data) => (py_bind r (fun _ => Ret (mkNd (nd_shape o0) data)), None) end).
  { intros m. unfold call, py_interpn, choose_out. rewrite get_obs0. cbn [py_bind].
    fold gs os. rewrite R. cbn [py_bind]. 
    fold zeros. destruct (py_dispatch _ _ _ _ _ _ _ _ _ _ _ _). reflexivity. }
  rewrite !G. unfold py_dispatch. simpl String.eqb. cbv iota.
  unfold raw_linear_rectilinear, raw_nearest_rectilinear, raw_cubic_rectilinear. rewrite U. cbn [negb].
  rewrite <- !raw_result_python.
  destruct (raw_result (mlc_interpn _ _ _ _ _ _)), (raw_result (nc_interpn _ _ _ _ _ _)), (raw_result (mcc_interpn _ _ _ _ _ _ _)).
  auto.
Qed.
End Dispatch.

Lemma unsupported obs grids vals m out lin assume cb atol :
  m <> "linear"%string -> m <> "nearest"%string -> m <> "cubic"%string ->
  exists e, fst (py_interpn o c obs grids vals m out lin assume cb atol) = Raise e.
Proof.
  intros H1 H2 H3. unfold py_interpn.
  assert (D : forall reg dims starts steps g v l os out1, py_dispatch o c reg m dims starts steps g v l os out1 = (Raise ValueError, out1)).
  { intros. unfold py_dispatch. apply String.eqb_neq in H1, H2, H3. rewrite H1, H2, H3. reflexivity. }
  match goal with |- exists e, fst (match ?p with _ => _ end) = _ => destruct p as [((out1 & own) & (r & data))|e] eqn:E end; [|eexists; reflexivity].
  repeat match type of E with
  | py_bind ?x _ = _ => let p := fresh in destruct x as [p|?]; cbn [py_bind] in E; [|discriminate]
  | (let (_, _) := ?p in _) = _ => destruct p
  end.
  rewrite D in E. inversion E; subst. simpl. eauto.
Qed.

Lemma unsupported_value_error obs grids vals o0 m lin assume atol :
  hd_error obs = Some o0 -> Forall (fun g => (2 <= length (nd_data g))%nat) grids ->
  m <> "linear"%string -> m <> "nearest"%string -> m <> "cubic"%string ->
  fst (py_interpn o c obs grids vals m None lin assume false atol) = Raise ValueError.
Proof.
  intros Ho Hg H1 H2 H3.
  assert (D : forall reg dims starts steps g v l os out1, py_dispatch o c reg m dims starts steps g v l os out1 = (Raise ValueError, out1)).
  { intros. unfold py_dispatch. apply String.eqb_neq in H1, H2, H3. rewrite H1, H2, H3. reflexivity. }
  assert (Gl := gs_len Hg).
  assert (R : exists b, (if assume then Ret true else check_regular o (map nd_data grids)) = Ret b).
  { destruct assume; eauto. destruct (check_regular_from_spec (map nd_data grids) true Gl) as (b & E & Hb). exists b. exact E. }
  destruct R as (b & R). unfold py_interpn, choose_out. rewrite (get_obs0 Ho). cbn [py_bind].
  rewrite R. cbn [py_bind]. destruct (reg_data _ z Gl) as (E1 & E2). destruct b.
  - rewrite E1. cbn [py_bind]. rewrite E2. cbn [py_bind]. rewrite D. reflexivity.
  - cbn [py_bind]. rewrite D. reflexivity.
Qed.
End Gen.

(** ** Exact arithmetic: which implementation runs does not matter *)
Lemma zprod_pos dims : Forall (fun d => 1 <= d) dims -> 1 <= zprod dims.
Proof. induction 1; simpl; [lia|]. fold (zprod l). nia. Qed.
Lemma prefix_fit dims : Forall (fun d => 1 <= d) dims -> zprod dims <= isize_max -> prefix_products_fit dims.
Proof.
  intros H Hz k. assert (B : 1 <= zprod (firstn k dims) <= zprod dims).
  { clear Hz. revert k. induction H as [|d l Hd Hl IH]; intros [|k]; simpl; try lia.
    - fold (zprod l). assert (P := zprod_pos l Hl). nia.
    - fold (zprod l). fold (zprod (firstn k l)). specialize (IH k). nia. }
  unfold isize_max, two64 in *. lia.
Qed.

Lemma batch_total {F} (d : F) one obs out r : batch_spec d one obs out (fst r) (snd r) ->
  (forall j, (j < length out)%nat -> exists v, one (point_of d obs j) = Ok v) ->
  exists data, r = (Ok tt, data) /\ length data = length out /\
    forall j, (j < length out)%nat -> one (point_of d obs j) = Ok (nth j data d).
Proof.
  destruct r as [res data]. simpl. intros (L & H) T. destruct res as [[]|e|].
  - exists data. auto.
  - destruct H as (i & Hi & E & _). destruct (T i Hi). congruence.
  - destruct H as (i & Hi & E & _). destruct (T i Hi). congruence.
Qed.

Lemma accept3 {A} P1 P2 P3 m1 m2 m3 (res : outcome A) a :
  checks_in_order [(P1, m1); (P2, m2); (P3, m3)] res a -> P1 -> P2 -> P3 -> res = Ok a.
Proof. simpl. tauto. Qed.

Lemma evenly_spaced_R_dec (gs : list (list R)) : Forall (evenly_spaced ROps) gs \/ ~ Forall (evenly_spaced ROps) gs.
Proof. apply Classical_Prop.classic. Qed.

Section ExactR.
Open Scope R_scope.
Lemma evenly_coord (g : list R) i : (2 <= length g)%nat -> evenly_spaced ROps g -> (i < length g)%nat ->
  nth i g 0 = nth 0 g 0 + (nth 1 g 0 - nth 0 g 0) * INR i.
Proof.
  intros L E. induction i as [|i IH]; intros Hi; [simpl; lra|].
  assert (D : same_number ROps (nth (S i) g 0 - nth i g 0) (nth 1 g 0 - nth 0 g 0))
    by (apply (E i); apply nth_error_nth'; lia).
  destruct D as (D1 & D2). simpl fle in D1, D2. rewrite Rleb_true in D1, D2. simpl fsub in D1, D2.
  rewrite S_INR. rewrite IH in D1, D2 by lia. lra.
Qed.

Lemma evenly_same_axis (g : list R) : (2 <= length g)%nat -> evenly_spaced ROps g ->
  same_axis (mkAxis (zlen g) (fun i => nth 0 g 0 + (nth 1 g 0 - nth 0 g 0) * IZR i)) (list_axis g).
Proof.
  intros L E. split; [reflexivity|]. simpl. intros i Hi. unfold zlen in Hi.
  rewrite (evenly_coord g (Z.to_nat i)) by (auto; lia). rewrite INR_IZR_INZ, Z2Nat.id by lia. reflexivity.
Qed.

Lemma evenly_same_grid (gs : list (list R)) : Forall (fun g => (2 <= length g)%nat) gs ->
  Forall (evenly_spaced ROps) gs ->
  same_grid (reg_axes (map zlen gs) (firsts 0 gs) (spacings ROps 0 gs)) (rect_axes gs).
Proof.
  induction 1 as [|g gs L H IH]; intros E; simpl; [constructor|]. inversion E; subst.
  constructor; [apply evenly_same_axis; auto|apply IH; auto].
Qed.

Lemma inc_spacings (gs : list (list R)) : Forall (fun g => (2 <= length g)%nat) gs ->
  Forall strictly_increasing gs -> Forall (fun h => flt ROps (fzero ROps) h = true) (spacings ROps 0 gs).
Proof.
  intros L S. unfold spacings. rewrite Forall_map. rewrite Forall_forall in *. intros g Hg.
  specialize (L g Hg). specialize (S g Hg).
  destruct g as [|a [|b g]]; simpl in L; try lia. simpl. inversion S as [|? ? S1 S2]; subst. inversion S2; subst.
  apply Rltb_true. lra.
Qed.
Lemma inc_first_two (gs : list (list R)) : Forall (fun g => (2 <= length g)%nat) gs ->
  Forall strictly_increasing gs -> Forall (first_two_increase ROps) gs.
Proof.
  intros L S. rewrite Forall_forall in *. intros g Hg.
  specialize (L g Hg). specialize (S g Hg).
  destruct g as [|a [|b g]]; simpl in L; try lia. simpl. inversion S as [|? ? S1 S2]; subst. inversion S2; subst.
  apply Rltb_true. lra.
Qed.
End ExactR.

Section Exact.
Variables (c : cfg) (m : nat) (obs grids : list (ndarray R)) (vals o0 : ndarray R) (lin assume : bool) (atol : R).
Notation gs := (map nd_data grids).
Notation os := (map nd_data obs).
Notation vs := (nd_data vals).
Notation n := (length (nd_data o0)).
Notation z := (fzero ROps).
Notation zeros := (repeat (fzero ROps) (length (nd_data o0))).
Notation dims := (map zlen gs).
Notation starts := (firsts 0%R gs).
Notation steps := (spacings ROps 0%R gs).
Hypothesis Hm : (2 <= m)%nat.
Hypothesis Hc : good_call m o0 obs grids vals.
Hypothesis Hn : (1 <= length grids <= 8)%nat.
Hypothesis Hs : Forall strictly_increasing gs.
Hypothesis Ha : assume = true -> Forall (evenly_spaced ROps) gs.

Let Ho : hd_error obs = Some o0. Proof. apply Hc. Qed.
Let Lo : length obs = length grids. Proof. apply Hc. Qed.
Let Gm : Forall (fun g => (m <= length g)%nat) gs. Proof. apply gs_len. apply Hc. Qed.
Let G2 : Forall (fun g => (2 <= length g)%nat) gs.
Proof. eapply Forall_impl; [|exact Gm]. simpl; intros; lia. Qed.
Let Lv : zlen vs = zprod dims.
Proof. destruct Hc as (_ & _ & _ & _ & H & _). rewrite map_map. exact H. Qed.
Let Lmax : zlen vs <= isize_max. Proof. apply Hc. Qed.
Let Gz : forall k : nat, (k <= m)%nat -> Forall (fun d => Z.of_nat k <= d) dims.
Proof. intros k Hk. rewrite Forall_map. eapply Forall_impl; [|exact Gm]. unfold zlen. simpl; intros; lia. Qed.
Let P : prefix_products_fit dims.
Proof. apply prefix_fit; [apply (Gz 1); lia|]. rewrite <- Lv. exact Lmax. Qed.
Let Pm : zprod dims < two64.
Proof. rewrite <- Lv. unfold isize_max, two64 in *. lia. Qed.
Let Li : Forall (fun xs => length xs = length zeros) os.
Proof. rewrite repeat_length, Forall_map. apply Hc. Qed.
Let RI : rect_input c gs vs.
Proof. split; [rewrite map_length; lia|]. split; [exact Lmax|]. right. exact Pm. Qed.
Let GI : reg_input c dims starts steps vs.
Proof.
  unfold reg_input, firsts, spacings. rewrite !map_length. repeat split; auto; try lia.
Qed.
Let Lp : forall j, length (point_of 0%R os j) = length grids.
Proof. intros j. unfold point_of. rewrite !map_length. exact Lo. Qed.
Let Ob8 : (length obs <= 8)%nat. Proof. rewrite Lo. lia. Qed.
Let G2' : Forall (fun g => (2 <= length (nd_data g))%nat) grids.
Proof. clear - G2. rewrite Forall_map in G2. exact G2. Qed.
Let SP : Forall (fun h => flt ROps z h = true) steps. Proof. apply inc_spacings; auto. Qed.
Let FT : Forall (first_two_increase ROps) gs. Proof. apply inc_first_two; auto. Qed.
Let Lst : length starts = length dims. Proof. unfold firsts. rewrite !map_length. reflexivity. Qed.
Let Lsp : length steps = length dims. Proof. unfold spacings. rewrite !map_length. reflexivity. Qed.
Let Ld : length dims = length grids. Proof. rewrite !map_length. reflexivity. Qed.
Let Lg : length gs = length grids. Proof. rewrite !map_length. reflexivity. Qed.
Let Lob : length os = length grids. Proof. rewrite map_length. exact Lo. Qed.
Let Lax : length (rect_axes gs) = length grids.
Proof. unfold rect_axes. rewrite !map_length. reflexivity. Qed.
Let Lra : length (reg_axes dims starts steps) = length grids.
Proof.
  clear. unfold firsts, spacings. induction grids as [|g l IH]; simpl; auto.
Qed.

Definition returns (method : string) (eval : list R -> outcome R) : Prop :=
  exists r, fst (py_interpn ROps c obs grids vals method None lin assume false atol) = Ret r /\
    nd_shape r = nd_shape o0 /\ length (nd_data r) = n /\
    forall j, (j < n)%nat -> eval (point_of 0%R os j) = Ok (nth j (nd_data r) 0%R).

Lemma returns_intro method eval eval' r shape :
  fst (py_interpn ROps c obs grids vals method None lin assume false atol) = python_result shape r ->
  shape = nd_shape o0 ->
  batch_spec 0%R eval' os zeros (fst r) (snd r) ->
  (forall x, length x = length grids -> exists v, eval x = Ok v) ->
  (forall j, (j < n)%nat -> eval' (point_of 0%R os j) = eval (point_of 0%R os j)) ->
  returns method eval.
Proof.
  intros Hcall Esh Hb Ht He. 
  destruct (batch_total 0%R eval' os zeros r Hb) as (data & Er & Ld' & Hd).
  - intros j Hj. rewrite repeat_length in Hj. rewrite He by auto. apply Ht. apply Lp.
  - rewrite Er in Hcall. simpl in Hcall. rewrite repeat_length in *.
    exists (mkNd shape data). rewrite Hcall. simpl. repeat split; auto.
    intros j Hj. rewrite <- He by auto. apply Hd. exact Hj.
Qed.

Definition fits (lo : Z) := Forall (evenly_spaced ROps) gs ->
  forall j, (j < n)%nat -> cell_fits lo starts steps (point_of 0%R os j).

Let G8 : (1 <= length gs <= 8)%nat. Proof. rewrite Lg. exact Hn. Qed.
Let D8 : (1 <= length dims <= 8)%nat. Proof. rewrite Ld. exact Hn. Qed.

Lemma exact_linear : fits isize_min ->
  exists eval, multilinear c vs (rect_axes gs) everywhere eval /\ returns "linear" eval.
Proof.
  intros Hf.
  assert (E2 := Gz 2 ltac:(lia)). change (Z.of_nat 2) with 2 in E2.
  assert (EZ : Forall (fun g : list R => 2 <= zlen g) gs) by (rewrite Forall_map in E2; exact E2).
  destruct (Nat.le_gt_cases (length grids) 6) as [H6|H6].
  - assert (N : mlc_new ROps c gs vs = Ok (mkRect gs dims vs)) by (eapply accept3; [apply new_checks_mlc; auto; lia|..]; auto).
    assert (ML : multilinear c vs (rect_axes gs) everywhere (mlc_interp_one ROps c (mkRect gs dims vs))) by (constructor; auto).
    exists (mlc_interp_one ROps c (mkRect gs dims vs)). split; [exact ML|].
    assert (T : forall x, length x = length grids -> exists v, mlc_interp_one ROps c (mkRect gs dims vs) x = Ok v).
    { intros x Lx. eapply total_mlc; eauto. rewrite Lg. exact Lx. }
    destruct (evenly_spaced_R_dec gs) as [E|E].
    + assert (N' : mlr_new ROps c dims starts steps vs = Ok (mkRegular dims starts steps vs)) by (eapply accept3; [apply new_checks_mlr; auto; lia|..]; auto; repeat split; auto; lia).
      eapply returns_intro; [| reflexivity | | exact T |].
      * rewrite (proj1 (dispatch_regular ROps c obs grids vals o0 lin assume atol Ho Ob8 G2' (or_intror E))). reflexivity.
      * eapply (interpn_batch_mlr ROps c); eauto; try (rewrite ?Ld; lia); rewrite ?Ld; auto.
      * intros j Hj. eapply same_grid_linear; [eapply multilinear_regular; [exact GI|exact N']|exact ML| | | |].
        -- apply evenly_same_grid; auto.
        -- rewrite Lra. apply Lp.
        -- apply Hf; auto.
        -- exact I.
    + assert (A : assume = false) by (destruct assume; auto; exfalso; auto).
      eapply returns_intro; [| reflexivity | | exact T | reflexivity].
      * rewrite (proj1 (dispatch_rectilinear ROps c obs grids vals o0 lin assume atol Ho Ob8 G2' A E ltac:(lia))). reflexivity.
      * eapply (interpn_batch_mlc ROps c); eauto; try (rewrite ?Lg; lia); rewrite ?Lg; auto.
  - assert (N : mlcr_new ROps c (length gs) gs vs = Ok (mkRect gs dims vs)) by (eapply accept3; [apply new_checks_mlcr; auto; lia|..]; auto).
    assert (ML : multilinear c vs (rect_axes gs) everywhere (mlcr_interp_one ROps c (length gs) (mkRect gs dims vs))) by (constructor; auto).
    exists (mlcr_interp_one ROps c (length gs) (mkRect gs dims vs)). split; [exact ML|].
    assert (T : forall x, length x = length grids -> exists v, mlcr_interp_one ROps c (length gs) (mkRect gs dims vs) x = Ok v).
    { intros x Lx. eapply total_mlcr; eauto. rewrite Lg. exact Lx. }
    destruct (evenly_spaced_R_dec gs) as [E|E].
    + assert (N' : mlrr_new ROps c (length dims) dims starts steps vs = Ok (mkRegular dims starts steps vs)) by (eapply accept3; [apply new_checks_mlrr; auto; lia|..]; auto; repeat split; auto; lia).
      eapply returns_intro; [| reflexivity | | exact T |].
      * rewrite (proj1 (dispatch_regular ROps c obs grids vals o0 lin assume atol Ho Ob8 G2' (or_intror E))). reflexivity.
      * eapply (interpn_batch_mlrr ROps c); eauto; try (rewrite ?Ld; lia); rewrite ?Ld; auto.
      * intros j Hj. eapply same_grid_linear; [eapply multilinear_regular_recursive; [exact GI|exact N']|exact ML| | | |].
        -- apply evenly_same_grid; auto.
        -- rewrite Lra. apply Lp.
        -- apply Hf; auto.
        -- exact I.
    + assert (A : assume = false) by (destruct assume; auto; exfalso; auto).
      eapply returns_intro; [| reflexivity | | exact T | reflexivity].
      * rewrite (proj1 (dispatch_rectilinear ROps c obs grids vals o0 lin assume atol Ho Ob8 G2' A E ltac:(lia))). reflexivity.
      * eapply (interpn_batch_mlcr ROps c); eauto; try (rewrite ?Lg; lia); rewrite ?Lg; auto.
Qed.

Lemma exact_nearest : (length grids <= 6)%nat -> fits isize_min ->
  exists eval, nearest_nd c vs (rect_axes gs) everywhere eval /\ returns "nearest" eval.
Proof.
  intros H6 Hf.
  assert (E2 := Gz 2 ltac:(lia)). change (Z.of_nat 2) with 2 in E2.
  assert (EZ : Forall (fun g : list R => 2 <= zlen g) gs) by (rewrite Forall_map in E2; exact E2).
  - assert (N : nc_new ROps c gs vs = Ok (mkRect gs dims vs)) by (eapply accept3; [apply new_checks_mlc; auto; lia|..]; auto).
    assert (ML : nearest_nd c vs (rect_axes gs) everywhere (nc_interp_one ROps c (mkRect gs dims vs))) by (constructor; auto).
    exists (nc_interp_one ROps c (mkRect gs dims vs)). split; [exact ML|].
    assert (T : forall x, length x = length grids -> exists v, nc_interp_one ROps c (mkRect gs dims vs) x = Ok v).
    { intros x Lx. eapply total_nc; eauto. rewrite Lg. exact Lx. }
    destruct (evenly_spaced_R_dec gs) as [E|E].
    + assert (N' : nr_new ROps c dims starts steps vs = Ok (mkRegular dims starts steps vs)) by (eapply accept3; [apply new_checks_mlr; auto; lia|..]; auto; repeat split; auto; lia).
      eapply returns_intro; [| reflexivity | | exact T |].
      * rewrite (proj1 (proj2 (dispatch_regular ROps c obs grids vals o0 lin assume atol Ho Ob8 G2' (or_intror E)))). reflexivity.
      * eapply (interpn_batch_nr ROps c); eauto; try (rewrite ?Ld; lia); rewrite ?Ld; auto.
      * intros j Hj. eapply same_grid_nearest; [eapply nearest_regular; [exact GI|exact N']|exact ML| | | |].
        -- apply evenly_same_grid; auto.
        -- rewrite Lra. apply Lp.
        -- apply Hf; auto.
        -- exact I.
    + assert (A : assume = false) by (destruct assume; auto; exfalso; auto).
      eapply returns_intro; [| reflexivity | | exact T | reflexivity].
      * rewrite (proj1 (proj2 (dispatch_rectilinear ROps c obs grids vals o0 lin assume atol Ho Ob8 G2' A E ltac:(lia)))). reflexivity.
      * eapply (interpn_batch_nc ROps c); eauto; try (rewrite ?Lg; lia); rewrite ?Lg; auto.
Qed.

Lemma exact_cubic : (4 <= m)%nat -> fits (isize_min + 1) ->
  exists eval, multicubic c lin vs (rect_axes gs) everywhere eval /\ returns "cubic" eval.
Proof.
  intros H4 Hf.
  assert (E2 := Gz 4 H4). change (Z.of_nat 4) with 4 in E2.
  assert (EZ : Forall (fun g : list R => 4 <= zlen g) gs) by (rewrite Forall_map in E2; exact E2).
  destruct (Nat.le_gt_cases (length grids) 4) as [H6|H6].
  - assert (N : mcc_new ROps c gs vs lin = Ok (mkCC (mkRect gs dims vs) lin)) by (eapply accept3; [apply new_checks_mcc; auto; lia|..]; auto).
    assert (ML : multicubic c lin vs (rect_axes gs) everywhere (mcc_interp_one ROps c (mkCC (mkRect gs dims vs) lin))) by (constructor; auto).
    exists (mcc_interp_one ROps c (mkCC (mkRect gs dims vs) lin)). split; [exact ML|].
    assert (T : forall x, length x = length grids -> exists v, mcc_interp_one ROps c (mkCC (mkRect gs dims vs) lin) x = Ok v).
    { intros x Lx. eapply total_mcc; eauto. rewrite Lg. exact Lx. }
    destruct (evenly_spaced_R_dec gs) as [E|E].
    + assert (N' : mcr_new ROps c dims starts steps vs lin = Ok (mkCR (mkRegular dims starts steps vs) lin)) by (eapply accept3; [apply new_checks_mcr; auto; lia|..]; auto; repeat split; auto; lia).
      eapply returns_intro; [| reflexivity | | exact T |].
      * rewrite (proj2 (proj2 (dispatch_regular ROps c obs grids vals o0 lin assume atol Ho Ob8 G2' (or_intror E)))). reflexivity.
      * eapply (interpn_batch_mcr ROps c); eauto; try (rewrite ?Ld; lia); rewrite ?Ld; auto.
      * intros j Hj. eapply same_grid_cubic; [eapply multicubic_regular; [exact GI|exact N']|exact ML| | | |].
        -- apply evenly_same_grid; auto.
        -- rewrite Lra. apply Lp.
        -- apply Hf; auto.
        -- exact I.
    + assert (A : assume = false) by (destruct assume; auto; exfalso; auto).
      eapply returns_intro; [| reflexivity | | exact T | reflexivity].
      * rewrite (proj2 (proj2 (dispatch_rectilinear ROps c obs grids vals o0 lin assume atol Ho Ob8 G2' A E ltac:(lia)))). reflexivity.
      * eapply (interpn_batch_mcc ROps c); eauto; try (rewrite ?Lg; lia); rewrite ?Lg; auto.
  - assert (N : mccr_new ROps c (length gs) gs vs lin = Ok (mkCC (mkRect gs dims vs) lin)) by (eapply accept3; [apply new_checks_mccr; auto; lia|..]; auto).
    assert (ML : multicubic c lin vs (rect_axes gs) everywhere (mccr_interp_one ROps c (length gs) (mkCC (mkRect gs dims vs) lin))) by (constructor; auto).
    exists (mccr_interp_one ROps c (length gs) (mkCC (mkRect gs dims vs) lin)). split; [exact ML|].
    assert (T : forall x, length x = length grids -> exists v, mccr_interp_one ROps c (length gs) (mkCC (mkRect gs dims vs) lin) x = Ok v).
    { intros x Lx. eapply total_mccr; eauto. rewrite Lg. exact Lx. }
    destruct (evenly_spaced_R_dec gs) as [E|E].
    + assert (N' : mcrr_new ROps c (length dims) dims starts steps vs lin = Ok (mkCR (mkRegular dims starts steps vs) lin)) by (eapply accept3; [apply new_checks_mcrr; auto; lia|..]; auto; repeat split; auto; lia).
      eapply returns_intro; [| reflexivity | | exact T |].
      * rewrite (proj2 (proj2 (dispatch_regular ROps c obs grids vals o0 lin assume atol Ho Ob8 G2' (or_intror E)))). reflexivity.
      * eapply (interpn_batch_mcrr ROps c); eauto; try (rewrite ?Ld; lia); rewrite ?Ld; auto.
      * intros j Hj. eapply same_grid_cubic; [eapply multicubic_regular_recursive; [exact GI|exact N']|exact ML| | | |].
        -- apply evenly_same_grid; auto.
        -- rewrite Lra. apply Lp.
        -- apply Hf; auto.
        -- exact I.
    + assert (A : assume = false) by (destruct assume; auto; exfalso; auto).
      eapply returns_intro; [| reflexivity | | exact T | reflexivity].
      * rewrite (proj2 (proj2 (dispatch_rectilinear ROps c obs grids vals o0 lin assume atol Ho Ob8 G2' A E ltac:(lia)))). reflexivity.
      * eapply (interpn_batch_mccr ROps c); eauto; try (rewrite ?Lg; lia); rewrite ?Lg; auto.
Qed.
End Exact.
