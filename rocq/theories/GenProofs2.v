(** More properties that hold for every number type: argument checks of interpn,
    batches, locality, allocating variants. *)
From Coq Require Import ZifyBool ZifyNat PeanoNat.
From Verif Require Import Base Ops ModelCore ModelLinear ModelNearest ModelCubic ModelOneDim.
From Verif Require Import Spec CoreLemmas TensorLemmas MethodLemmas SearchLemmas MethodChar GenLemmas GenProofs.
Open Scope string_scope.
Open Scope Z_scope.

Section Gen2.
Context {F : Type} (o : Ops F) (c : cfg).
Variables (dims : list Z) (starts steps vals : list F) (grids : list (list F)).

(** ** Constructors never panic on the documented domain *)
Lemma new_ok_err_mlr : prefix_products_fit dims ->
  (mlr_new o c dims starts steps vals = Ok (mkRegular dims starts steps vals)) \/
  exists e, mlr_new o c dims starts steps vals = Err e.
Proof.
  intros H. unfold mlr_new. rewrite product_fit by auto. cbn [bind].
  repeat match goal with |- context[if ?b then _ else _] => destruct b end; eauto.
Qed.

Lemma new_ok_err_mlrr maxdims : prefix_products_fit dims -> (length dims <= maxdims)%nat ->
  (mlrr_new o c maxdims dims starts steps vals = Ok (mkRegular dims starts steps vals)
    /\ length starts = length dims /\ length steps = length dims) \/
  exists e, mlrr_new o c maxdims dims starts steps vals = Err e.
Proof.
  intros H Hm. unfold mlrr_new. rewrite product_fit by auto. cbn [bind].
  destruct (negb _) eqn:E1; [eauto|].
  destruct (existsb _ _); [eauto|]. destruct (negb (forallb _ _)); [eauto|].
  replace (maxdims <? length dims)%nat with false by lia. left. split; auto. lia.
Qed.

Lemma new_ok_err_mcrr maxdims lin : prefix_products_fit dims -> (length dims <= maxdims)%nat ->
  (mcrr_new o c maxdims dims starts steps vals lin = Ok (mkCR (mkRegular dims starts steps vals) lin)
    /\ length starts = length dims /\ length steps = length dims) \/
  exists e, mcrr_new o c maxdims dims starts steps vals lin = Err e.
Proof.
  intros H Hm. unfold mcrr_new. rewrite product_fit by auto. cbn [bind].
  destruct (negb _) eqn:E1; [eauto|].
  destruct (existsb _ _); [eauto|]. destruct (negb (forallb _ _)); [eauto|].
  replace (maxdims <? length dims)%nat with false by lia. left. split; auto. lia.
Qed.

Lemma new_ok_err_mcr lin : prefix_products_fit dims ->
  (mcr_new o c dims starts steps vals lin = Ok (mkCR (mkRegular dims starts steps vals) lin)) \/
  exists e, mcr_new o c dims starts steps vals lin = Err e.
Proof.
  intros H. unfold mcr_new. rewrite product_fit by auto. cbn [bind].
  repeat match goal with |- context[if ?b then _ else _] => destruct b end; eauto.
Qed.

Lemma allM_mono_bool FP : 2 <= FP -> existsb (fun x => x <? FP) (map zlen grids) = false ->
  exists b, allM (mono_maybe o) grids = Ok b.
Proof.
  intros H2 H. apply existsb_lt_false, zlen_dims_ge in H.
  destruct (@allM_mono F o grids) as [(-> & _)|(-> & _)]; eauto.
  eapply Forall_impl; [|eauto]. simpl; intros; lia.
Qed.

Lemma new_ok_err_mlc : prefix_products_fit (map zlen grids) ->
  (mlc_new o c grids vals = Ok (mkRect grids (map zlen grids) vals)) \/
  exists e, mlc_new o c grids vals = Err e.
Proof.
  intros H. unfold mlc_new. rewrite product_fit by auto. cbn [bind].
  destruct (negb _); [eauto|]. destruct (existsb _ _) eqn:E; [eauto|].
  destruct (@allM_mono_bool 2 ltac:(lia) E) as ([|] & ->); cbn [bind negb]; eauto.
Qed.

Lemma new_ok_err_mlcr maxdims : prefix_products_fit (map zlen grids) -> (length grids <= maxdims)%nat ->
  (mlcr_new o c maxdims grids vals = Ok (mkRect grids (map zlen grids) vals)) \/
  exists e, mlcr_new o c maxdims grids vals = Err e.
Proof.
  intros H Hm. unfold mlcr_new. rewrite product_fit by auto. cbn [bind].
  replace (maxdims <? length grids)%nat with false by lia.
  destruct (negb _); [eauto|]. destruct (existsb _ _) eqn:E; [eauto|].
  destruct (@allM_mono_bool 2 ltac:(lia) E) as ([|] & ->); cbn [bind negb]; eauto.
Qed.

Lemma new_ok_err_mcc lin : prefix_products_fit (map zlen grids) ->
  (mcc_new o c grids vals lin = Ok (mkCC (mkRect grids (map zlen grids) vals) lin)) \/
  exists e, mcc_new o c grids vals lin = Err e.
Proof.
  intros H. unfold mcc_new. rewrite product_fit by auto. cbn [bind].
  destruct (negb _); [eauto|]. destruct (existsb _ _) eqn:E; [eauto|].
  destruct (@allM_mono_bool 4 ltac:(lia) E) as ([|] & ->); cbn [bind negb]; eauto.
Qed.

Lemma new_ok_err_mccr maxdims lin : prefix_products_fit (map zlen grids) -> (length grids <= maxdims)%nat ->
  (mccr_new o c maxdims grids vals lin = Ok (mkCC (mkRect grids (map zlen grids) vals) lin)) \/
  exists e, mccr_new o c maxdims grids vals lin = Err e.
Proof.
  intros H Hm. unfold mccr_new. rewrite product_fit by auto. cbn [bind].
  replace (maxdims <? length grids)%nat with false by lia.
  destruct (negb _); [eauto|]. destruct (existsb _ _) eqn:E; [eauto|].
  destruct (@allM_mono_bool 4 ltac:(lia) E) as ([|] & ->); cbn [bind negb]; eauto.
Qed.

(** ** C16 *)
Lemma all_len_dec (obs : list (list F)) (out : list F) :
  Forall (fun xs => length xs = length out) obs \/ ~ Forall (fun xs => length xs = length out) obs.
Proof.
  destruct (forallb (fun xs => (length xs =? length out)%nat) obs) eqn:E.
  - left. apply forallb_Forall in E. eapply Forall_impl; [|eauto]. simpl; intros; lia.
  - right. intros H. rewrite <- not_true_iff_false in E. apply E. apply forallb_Forall.
    eapply Forall_impl; [|eauto]. simpl; intros; lia.
Qed.

Ltac mism H := rewrite interp_batch_mismatch; [eauto|];
  match goal with |- length ?obs <> _ \/ ~ Forall (fun xs => length xs = length ?out) ?obs =>
   destruct (all_len_dec obs out) as [Hall|Hall]; [|right; exact Hall];
   left; intros Hl; apply H; repeat split; auto; lia end.

Lemma interpn_err_mlr obs out : prefix_products_fit dims ->
  ~ ((1 <= length dims <= 8)%nat /\ length starts = length dims /\ length steps = length dims /\
     length obs = length dims /\ Forall (fun xs => length xs = length out) obs) ->
  exists e, mlr_interpn o c dims starts steps vals obs out = (Err e, out).
Proof.
  intros Hp H. unfold mlr_interpn.
  destruct (_ || _) eqn:El; [eauto|].
  assert (L1 : length starts = length dims) by lia.
  assert (L2 : length steps = length dims) by lia.
  assert (L3 : length obs = length dims) by lia.
  destruct (_ && _) eqn:E6; [|destruct ((7 <=? _)%nat && _) eqn:E8; [|eauto]].
  - rewrite !try_into_ok by auto. cbn [bind].
    destruct (new_ok_err_mlr Hp) as [-> | (e & ->)]; cbn [and_then]; [|eauto].
    unfold mlr_interp. cbn [r_dims]. mism H.
  - destruct (@new_ok_err_mlrr (length dims) Hp ltac:(lia)) as [(-> & _) | (e & ->)]; cbn [and_then]; [|eauto].
    unfold mlrr_interp. cbn [r_dims]. mism H.
Qed.

Lemma interpn_err_mlrr obs out : prefix_products_fit dims ->
  ~ ((1 <= length dims <= 8)%nat /\ length starts = length dims /\ length steps = length dims /\
     length obs = length dims /\ Forall (fun xs => length xs = length out) obs) ->
  exists e, mlrr_interpn o c dims starts steps vals obs out = (Err e, out).
Proof.
  intros Hp H. unfold mlrr_interpn. destruct (_ && _) eqn:E8; [|eauto].
  destruct (@new_ok_err_mlrr (length dims) Hp ltac:(lia)) as [(-> & L1 & L2) | (e & ->)]; cbn [and_then]; [|eauto].
  unfold mlrr_interp. cbn [r_dims]. mism H.
Qed.

Lemma interpn_err_mlc obs out : prefix_products_fit (map zlen grids) ->
  ~ ((1 <= length grids <= 8)%nat /\ length obs = length grids /\
     Forall (fun xs => length xs = length out) obs) ->
  exists e, mlc_interpn o c grids vals obs out = (Err e, out).
Proof.
  intros Hp H. unfold mlc_interpn.
  destruct (negb _) eqn:El; [eauto|].
  assert (L3 : length obs = length grids) by lia.
  destruct (_ && _) eqn:E6; [|destruct ((7 <=? _)%nat && _) eqn:E8; [|eauto]].
  - rewrite !try_into_ok by auto. cbn [bind].
    destruct (new_ok_err_mlc Hp) as [-> | (e & ->)]; cbn [and_then]; [|eauto].
    unfold mlc_interp. cbn [g_dims]. rewrite map_length. mism H.
  - destruct (@new_ok_err_mlcr (length grids) Hp ltac:(lia)) as [-> | (e & ->)]; cbn [and_then]; [|eauto].
    unfold mlcr_interp. cbn [g_grids]. mism H.
Qed.

Lemma interpn_err_mlcr obs out : prefix_products_fit (map zlen grids) ->
  ~ ((1 <= length grids <= 8)%nat /\ length obs = length grids /\
     Forall (fun xs => length xs = length out) obs) ->
  exists e, mlcr_interpn o c grids vals obs out = (Err e, out).
Proof.
  intros Hp H. unfold mlcr_interpn. destruct (_ && _) eqn:E8; [|eauto].
  destruct (@new_ok_err_mlcr (length grids) Hp ltac:(lia)) as [-> | (e & ->)]; cbn [and_then]; [|eauto].
  unfold mlcr_interp. cbn [g_grids]. mism H.
Qed.

Lemma interpn_err_nr obs out : prefix_products_fit dims ->
  ~ ((1 <= length dims <= 6)%nat /\ length starts = length dims /\ length steps = length dims /\
     length obs = length dims /\ Forall (fun xs => length xs = length out) obs) ->
  exists e, nr_interpn o c dims starts steps vals obs out = (Err e, out).
Proof.
  intros Hp H. unfold nr_interpn.
  destruct (_ || _) eqn:El; [eauto|].
  assert (L1 : length starts = length dims) by lia.
  assert (L2 : length steps = length dims) by lia.
  assert (L3 : length obs = length dims) by lia.
  destruct (_ && _) eqn:E6; [|eauto].
  rewrite !try_into_ok by auto. cbn [bind]. unfold nr_new.
  destruct (new_ok_err_mlr Hp) as [-> | (e & ->)]; cbn [and_then]; [|eauto].
  unfold nr_interp. cbn [r_dims]. mism H.
Qed.

Lemma interpn_err_nc obs out : prefix_products_fit (map zlen grids) ->
  ~ ((1 <= length grids <= 6)%nat /\ length obs = length grids /\
     Forall (fun xs => length xs = length out) obs) ->
  exists e, nc_interpn o c grids vals obs out = (Err e, out).
Proof.
  intros Hp H. unfold nc_interpn.
  destruct (negb _) eqn:El; [eauto|].
  assert (L3 : length obs = length grids) by lia.
  destruct (_ && _) eqn:E6; [|eauto].
  rewrite !try_into_ok by auto. cbn [bind]. unfold nc_new.
  destruct (new_ok_err_mlc Hp) as [-> | (e & ->)]; cbn [and_then]; [|eauto].
  unfold nc_interp. cbn [g_dims]. rewrite map_length. mism H.
Qed.

Lemma interpn_err_mcrr lin obs out : prefix_products_fit dims ->
  ~ ((1 <= length dims <= 8)%nat /\ length starts = length dims /\ length steps = length dims /\
     length obs = length dims /\ Forall (fun xs => length xs = length out) obs) ->
  exists e, mcrr_interpn o c dims starts steps vals lin obs out = (Err e, out).
Proof.
  intros Hp H. unfold mcrr_interpn. destruct (_ && _) eqn:E8; [|eauto].
  destruct (@new_ok_err_mcrr (length dims) lin Hp ltac:(lia)) as [(-> & L1 & L2) | (e & ->)]; cbn [and_then]; [|eauto].
  unfold mcrr_interp. cbn [r_dims cr_base]. mism H.
Qed.

Lemma interpn_err_mccr lin obs out : prefix_products_fit (map zlen grids) ->
  ~ ((1 <= length grids <= 8)%nat /\ length obs = length grids /\
     Forall (fun xs => length xs = length out) obs) ->
  exists e, mccr_interpn o c grids vals lin obs out = (Err e, out).
Proof.
  intros Hp H. unfold mccr_interpn. destruct (_ && _) eqn:E8; [|eauto].
  destruct (@new_ok_err_mccr (length grids) lin Hp ltac:(lia)) as [-> | (e & ->)]; cbn [and_then]; [|eauto].
  unfold mccr_interp. cbn [g_grids cc_base]. mism H.
Qed.

(** Cubic: only if the numbers of arrays match or there are five or more axes. *)
Lemma interpn_err_mcr lin obs out : prefix_products_fit dims ->
  ~ ((1 <= length dims <= 8)%nat /\ length starts = length dims /\ length steps = length dims /\
     length obs = length dims /\ Forall (fun xs => length xs = length out) obs) ->
  (1 <= length dims <= 4)%nat -> length starts = length dims -> length steps = length dims ->
  length obs = length dims ->
  exists e, mcr_interpn o c dims starts steps vals lin obs out = (Err e, out).
Proof.
  intros Hp H Hn L1 L2 L3. unfold mcr_interpn.
  replace (_ && _) with true by lia.
  rewrite !try_into_ok by auto. cbn [bind].
  destruct (new_ok_err_mcr lin Hp) as [-> | (e & ->)]; cbn [and_then]; [|eauto].
  unfold mcr_interp. cbn [r_dims cr_base]. mism H.
Qed.

Lemma interpn_err_mcr_big lin obs out : prefix_products_fit dims ->
  ~ ((1 <= length dims <= 8)%nat /\ length starts = length dims /\ length steps = length dims /\
     length obs = length dims /\ Forall (fun xs => length xs = length out) obs) ->
  ~ (1 <= length dims <= 4)%nat ->
  exists e, mcr_interpn o c dims starts steps vals lin obs out = (Err e, out).
Proof.
  intros Hp H Hn. unfold mcr_interpn.
  replace ((1 <=? length dims)%nat && (length dims <=? 4)%nat) with false by lia.
  destruct (_ && _) eqn:E8; [|eauto].
  destruct (@new_ok_err_mcrr (length dims) lin Hp ltac:(lia)) as [(-> & L1 & L2) | (e & ->)]; cbn [and_then]; [|eauto].
  unfold mcrr_interp. cbn [r_dims cr_base]. mism H.
Qed.

Lemma interpn_err_mcc lin obs out : prefix_products_fit (map zlen grids) ->
  ~ ((1 <= length grids <= 8)%nat /\ length obs = length grids /\
     Forall (fun xs => length xs = length out) obs) ->
  (1 <= length grids <= 4)%nat -> length obs = length grids ->
  exists e, mcc_interpn o c grids vals lin obs out = (Err e, out).
Proof.
  intros Hp H Hn L3. unfold mcc_interpn.
  replace (_ && _) with true by lia.
  rewrite !try_into_ok by auto. cbn [bind].
  destruct (new_ok_err_mcc lin Hp) as [-> | (e & ->)]; cbn [and_then]; [|eauto].
  unfold mcc_interp. cbn [g_dims cc_base]. rewrite map_length. mism H.
Qed.

Lemma interpn_err_mcc_big lin obs out : prefix_products_fit (map zlen grids) ->
  ~ ((1 <= length grids <= 8)%nat /\ length obs = length grids /\
     Forall (fun xs => length xs = length out) obs) ->
  ~ (1 <= length grids <= 4)%nat ->
  exists e, mcc_interpn o c grids vals lin obs out = (Err e, out).
Proof.
  intros Hp H Hn. unfold mcc_interpn.
  replace ((1 <=? length grids)%nat && (length grids <=? 4)%nat) with false by lia.
  destruct (_ && _) eqn:E8; [|eauto].
  destruct (@new_ok_err_mccr (length grids) lin Hp ltac:(lia)) as [-> | (e & ->)]; cbn [and_then]; [|eauto].
  unfold mccr_interp. cbn [g_grids cc_base]. mism H.
Qed.

(** ** C19 *)
Lemma in_foot_box FP os s : in_foot FP os 0 s -> in_box (Z.of_nat FP) os s.
Proof.
  intros (L & H). rewrite Nat.sub_0_r in L. unfold in_box.
  apply Forall2_nth_intro with (da := 0) (db := 0); [lia|].
  intros k Hk. apply (H k). lia.
Qed.

Lemma foot_box FP ds os : foot_in FP ds os -> box_in_grid (Z.of_nat FP) ds os.
Proof. intros H. exact H. Qed.

Lemma tens_box FP V V' nd os n : length os = n ->
  (forall idx, in_box (Z.of_nat FP) os idx -> V idx = V' idx) ->
  @tens F FP V nd os n [] = tens FP V' nd os n [].
Proof.
  intros L H. subst n. apply tens_ext; auto.
  - apply in_foot_nil.
  - intros s Hs. apply H. apply in_foot_box. auto.
Qed.

Definition zeros_like (l : list Z) : list Z := map (fun _ => 0) l.

Lemma zeros_in_grid FP ds : Forall (fun d => FP <= d) ds -> box_in_grid FP ds (zeros_like ds).
Proof. induction 1; simpl; constructor; auto; lia. Qed.

Definition reg_box (x : list F) : list Z :=
  match reg_cells o (mkRegular dims starts steps []) x with Ok os => os | _ => zeros_like dims end.

Lemma reg_box_cells x v : reg_cells o (mkRegular dims starts steps v) x
  = reg_cells o (mkRegular dims starts steps []) x.
Proof. reflexivity. Qed.

Lemma local_mlr x : usize_converts o -> length x = length dims ->
  exists os, forall vs vs' s s',
   reg_input c dims starts steps vs -> reg_input c dims starts steps vs' ->
   mlr_new o c dims starts steps vs = Ok s -> mlr_new o c dims starts steps vs' = Ok s' ->
   box_in_grid 2 dims os /\
   ((forall idx, in_box 2 os idx -> entry (fzero o) dims vs idx = entry (fzero o) dims vs' idx) ->
    mlr_interp_one o c s x = mlr_interp_one o c s' x).
Proof.
  intros Hu Lx. exists (reg_box x). intros vs vs' s s' I I' H H'.
  apply mlr_new_inv in H as (W & ->); auto. apply mlr_new_inv in H' as (W' & ->); auto.
  rewrite !mlr_char by auto. rewrite !reg_box_cells. unfold reg_box.
  destruct (reg_cells o _ x) as [os| |] eqn:E; cbn [bind r_dims r_vals].
  - assert (Ft : foot_in 2 dims os) by (apply (reg_cells_foot o x W); exact E).
    split; [exact Ft|]. intros Hv. f_equal.
    eapply tens_box; [|exact Hv]. apply foot_in_length in Ft. lia.
  - split; [apply zeros_in_grid; apply W|auto].
  - split; [apply zeros_in_grid; apply W|auto].
Qed.

Lemma local_mlrr maxdims x : usize_converts o -> length x = length dims ->
  exists os, forall vs vs' s s',
   reg_input c dims starts steps vs -> reg_input c dims starts steps vs' ->
   mlrr_new o c maxdims dims starts steps vs = Ok s -> mlrr_new o c maxdims dims starts steps vs' = Ok s' ->
   box_in_grid 2 dims os /\
   ((forall idx, in_box 2 os idx -> entry (fzero o) dims vs idx = entry (fzero o) dims vs' idx) ->
    mlrr_interp_one o c maxdims s x = mlrr_interp_one o c maxdims s' x).
Proof.
  intros Hu Lx. exists (reg_box x). intros vs vs' s s' I I' H H'.
  apply mlrr_new_inv in H as (W & -> & Hm); auto. apply mlrr_new_inv in H' as (W' & -> & _); auto.
  rewrite !mlrr_char by auto. rewrite !reg_box_cells. unfold reg_box.
  destruct (reg_cells o _ x) as [os| |] eqn:E; cbn [bind r_dims r_vals].
  - assert (Ft : foot_in 2 dims os) by (apply (reg_cells_foot o x W); exact E).
    split; [exact Ft|]. intros Hv. f_equal.
    eapply tens_box; [|exact Hv]. apply foot_in_length in Ft. lia.
  - split; [apply zeros_in_grid; apply W|auto].
  - split; [apply zeros_in_grid; apply W|auto].
Qed.

Definition creg_box (x : list F) : list Z :=
  match creg_cells o c (mkRegular dims starts steps []) x with Ok os => map fst os | _ => zeros_like dims end.

Lemma creg_box_cells x v : creg_cells o c (mkRegular dims starts steps v) x
  = creg_cells o c (mkRegular dims starts steps []) x.
Proof. reflexivity. Qed.

Lemma local_mcr lin x : usize_converts o -> length x = length dims ->
  exists os, forall vs vs' s s',
   reg_input c dims starts steps vs -> reg_input c dims starts steps vs' ->
   mcr_new o c dims starts steps vs lin = Ok s -> mcr_new o c dims starts steps vs' lin = Ok s' ->
   box_in_grid 4 dims os /\
   ((forall idx, in_box 4 os idx -> entry (fzero o) dims vs idx = entry (fzero o) dims vs' idx) ->
    mcr_interp_one o c s x = mcr_interp_one o c s' x).
Proof.
  intros Hu Lx. exists (creg_box x). intros vs vs' s s' I I' H H'.
  apply mcr_new_inv in H as (W & ->); auto. apply mcr_new_inv in H' as (W' & ->); auto.
  rewrite !mcr_char by auto. cbn [cr_base]. rewrite !creg_box_cells. unfold creg_box.
  destruct (creg_cells o c _ x) as [os| |] eqn:E; cbn [bind r_dims r_vals cr_lin].
  - assert (Ft : foot_in 4 dims (map fst os)) by (apply (creg_cells_foot o c x W); exact E).
    split; [exact Ft|]. intros Hv. f_equal.
    eapply tens_box; [|exact Hv]. apply foot_in_length in Ft. lia.
  - split; [apply zeros_in_grid; apply W|auto].
  - split; [apply zeros_in_grid; apply W|auto].
Qed.

Lemma local_mcrr maxdims lin x : usize_converts o -> length x = length dims ->
  exists os, forall vs vs' s s',
   reg_input c dims starts steps vs -> reg_input c dims starts steps vs' ->
   mcrr_new o c maxdims dims starts steps vs lin = Ok s -> mcrr_new o c maxdims dims starts steps vs' lin = Ok s' ->
   box_in_grid 4 dims os /\
   ((forall idx, in_box 4 os idx -> entry (fzero o) dims vs idx = entry (fzero o) dims vs' idx) ->
    mcrr_interp_one o c maxdims s x = mcrr_interp_one o c maxdims s' x).
Proof.
  intros Hu Lx. exists (creg_box x). intros vs vs' s s' I I' H H'.
  apply mcrr_new_inv in H as (W & -> & Hm); auto. apply mcrr_new_inv in H' as (W' & -> & _); auto.
  rewrite !mcrr_char by auto. cbn [cr_base]. rewrite !creg_box_cells. unfold creg_box.
  destruct (creg_cells o c _ x) as [os| |] eqn:E; cbn [bind r_dims r_vals cr_lin].
  - assert (Ft : foot_in 4 dims (map fst os)) by (apply (creg_cells_foot o c x W); exact E).
    split; [exact Ft|]. intros Hv. f_equal.
    eapply tens_box; [|exact Hv]. apply foot_in_length in Ft. lia.
  - split; [apply zeros_in_grid; apply W|auto].
  - split; [apply zeros_in_grid; apply W|auto].
Qed.

Lemma local_mlc x : length x = length grids ->
  exists os, forall vs vs' s s',
   rect_input c grids vs -> rect_input c grids vs' ->
   mlc_new o c grids vs = Ok s -> mlc_new o c grids vs' = Ok s' ->
   box_in_grid 2 (map zlen grids) os /\
   ((forall idx, in_box 2 os idx ->
       entry (fzero o) (map zlen grids) vs idx = entry (fzero o) (map zlen grids) vs' idx) ->
    mlc_interp_one o c s x = mlc_interp_one o c s' x).
Proof.
  intros Lx. exists (rect_cells o (mkRect grids (map zlen grids) []) x). intros vs vs' s s' I I' H H'.
  apply mlc_new_inv in H as (W & ->); auto. apply mlc_new_inv in H' as (W' & ->); auto.
  rewrite !mlc_char by auto.
  assert (Ft := rect_cells_foot o x W). split; [exact Ft|]. intros Hv. f_equal.
  unfold mlc_value. cbn [g_dims g_vals g_grids].
  eapply tens_box; [|exact Hv]. rewrite rect_cells_length. reflexivity.
Qed.

Lemma local_mlcr maxdims x : length x = length grids ->
  exists os, forall vs vs' s s',
   rect_input c grids vs -> rect_input c grids vs' ->
   mlcr_new o c maxdims grids vs = Ok s -> mlcr_new o c maxdims grids vs' = Ok s' ->
   box_in_grid 2 (map zlen grids) os /\
   ((forall idx, in_box 2 os idx ->
       entry (fzero o) (map zlen grids) vs idx = entry (fzero o) (map zlen grids) vs' idx) ->
    mlcr_interp_one o c maxdims s x = mlcr_interp_one o c maxdims s' x).
Proof.
  intros Lx. exists (rect_cells o (mkRect grids (map zlen grids) []) x). intros vs vs' s s' I I' H H'.
  apply mlcr_new_inv in H as (W & -> & Hm); auto. apply mlcr_new_inv in H' as (W' & -> & _); auto.
  rewrite !mlcr_char by auto.
  assert (Ft := rect_cells_foot o x W). split; [exact Ft|]. intros Hv. f_equal.
  unfold mlc_value. cbn [g_dims g_vals g_grids].
  eapply tens_box; [|exact Hv]. rewrite rect_cells_length. reflexivity.
Qed.

Lemma local_mcc lin x : length x = length grids ->
  exists os, forall vs vs' s s',
   rect_input c grids vs -> rect_input c grids vs' ->
   mcc_new o c grids vs lin = Ok s -> mcc_new o c grids vs' lin = Ok s' ->
   box_in_grid 4 (map zlen grids) os /\
   ((forall idx, in_box 4 os idx ->
       entry (fzero o) (map zlen grids) vs idx = entry (fzero o) (map zlen grids) vs' idx) ->
    mcc_interp_one o c s x = mcc_interp_one o c s' x).
Proof.
  intros Lx. exists (map fst (crect_cells o (mkRect grids (map zlen grids) []) x)). intros vs vs' s s' I I' H H'.
  apply mcc_new_inv in H as (W & ->); auto. apply mcc_new_inv in H' as (W' & ->); auto.
  rewrite !mcc_char by auto.
  assert (Ft := crect_cells_foot o x W). split; [exact Ft|]. intros Hv. f_equal.
  unfold mcc_value. cbn [g_dims g_vals g_grids cc_base cc_lin].
  eapply tens_box; [|exact Hv]. rewrite map_length, crect_cells_length. reflexivity.
Qed.

Lemma local_mccr maxdims lin x : length x = length grids ->
  exists os, forall vs vs' s s',
   rect_input c grids vs -> rect_input c grids vs' ->
   mccr_new o c maxdims grids vs lin = Ok s -> mccr_new o c maxdims grids vs' lin = Ok s' ->
   box_in_grid 4 (map zlen grids) os /\
   ((forall idx, in_box 4 os idx ->
       entry (fzero o) (map zlen grids) vs idx = entry (fzero o) (map zlen grids) vs' idx) ->
    mccr_interp_one o c maxdims s x = mccr_interp_one o c maxdims s' x).
Proof.
  intros Lx. exists (map fst (crect_cells o (mkRect grids (map zlen grids) []) x)). intros vs vs' s s' I I' H H'.
  apply mccr_new_inv in H as (W & -> & Hm); auto. apply mccr_new_inv in H' as (W' & -> & _); auto.
  rewrite !mccr_char by auto.
  assert (Ft := crect_cells_foot o x W). split; [exact Ft|]. intros Hv. f_equal.
  unfold mcc_value. cbn [g_dims g_vals g_grids cc_base cc_lin].
  eapply tens_box; [|exact Hv]. rewrite map_length, crect_cells_length. reflexivity.
Qed.

(** nearest: the result is one stored value, at a node fixed by the grid and the point *)
Lemma local_nr x : usize_converts o -> length x = length dims ->
  exists node : outcome (list Z), forall vs s,
   reg_input c dims starts steps vs -> nr_new o c dims starts steps vs = Ok s ->
   match node with
   | Ok idx => in_shape dims idx /\ nr_interp_one o c s x = Ok (entry (fzero o) dims vs idx)
   | Err e => nr_interp_one o c s x = Err e
   | Panic => False
   end.
Proof.
  intros Hu Lx. set (s0 := mkRegular dims starts steps (@nil F)).
  exists (do os <- reg_cells o s0 x ;
          Ok (map (fun k => nr_node o c s0 x k (nth k os 0)) (seq 0 (length dims)))).
  intros vs s I H. apply mlr_new_inv in H as (W & ->); auto.
  rewrite nr_char by auto. rewrite reg_box_cells. fold s0.
  assert (NP := @reg_cells_nopanic F o s0 x).
  destruct (reg_cells o s0 x) as [os| |] eqn:E; cbn [bind]; auto.
  split; [|reflexivity].
  assert (Ft : foot_in 2 dims os) by (apply (reg_cells_foot o x W); exact E).
  assert (L := foot_in_length Ft).
  apply Forall2_nth_intro with (da := 0) (db := 0); [rewrite map_length, seq_length; auto|].
  intros k Hk. rewrite nth_map_seq by lia.
  assert (G := @foot_in_nth _ _ _ k Ft ltac:(lia)).
  unfold nr_node, nearest_offset. destruct (fle o _ _); lia.
Qed.

Lemma local_nc x : length x = length grids ->
  exists idx, forall vs s,
   rect_input c grids vs -> nc_new o c grids vs = Ok s ->
   in_shape (map zlen grids) idx /\ nc_interp_one o c s x = Ok (entry (fzero o) (map zlen grids) vs idx).
Proof.
  intros Lx. exists (map (nc_node o (mkRect grids (map zlen grids) []) x) (seq 0 (length grids))).
  intros vs s I H. apply mlc_new_inv in H as (W & ->); auto.
  rewrite nc_char by auto. split; [|reflexivity].
  apply Forall2_nth_intro with (da := 0) (db := 0); [rewrite !map_length, seq_length; auto|].
  rewrite map_length. intros k Hk. rewrite nth_map_seq by lia.
  assert (Ft := rect_cells_foot o x W). assert (L := foot_in_length Ft).
  assert (G := @foot_in_nth _ _ _ k Ft ltac:(rewrite rect_cells_length; simpl; lia)).
  rewrite rect_cells_nth in G by (simpl; lia). simpl in G.
  unfold nc_node, nearest_offset. simpl. destruct (fle o _ _); lia.
Qed.

End Gen2.

(** ** C37: batches do not depend on what the buffer held *)
Lemma batch_loop_blind A (f : nat -> outcome A) is out out' : length out = length out' ->
  fst (batch_loop f is out) = fst (batch_loop f is out').
Proof.
  revert out out'. induction is as [|i is IH]; intros out out' L; simpl; auto.
  destruct (f i); auto. apply IH. rewrite !upd_length. auto.
Qed.

Lemma interp_batch_blind F (d : F) n (one : list F -> outcome F) obs (out out' : list F) : length out = length out' ->
  alloc_result (interp_batch n one obs out) = alloc_result (interp_batch n one obs out').
Proof.
  intros L. destruct (Nat.eq_dec (length obs) n) as [Hn|Hn].
  2:{ rewrite !interp_batch_mismatch by auto. reflexivity. }
  destruct (all_len_dec obs out) as [Ha|Ha].
  2:{ rewrite !interp_batch_mismatch; auto. right. rewrite <- L. auto. }
  assert (Ha' : Forall (fun xs => length xs = length out') obs) by (rewrite <- L; auto).
  assert (B := @interp_batch_spec F d n one obs out Hn Ha).
  assert (B' := @interp_batch_spec F d n one obs out' Hn Ha').
  assert (E : fst (interp_batch n one obs out) = fst (interp_batch n one obs out')).
  { unfold interp_batch. destruct (negb _); auto. rewrite <- L. destruct (negb _); auto.
    apply batch_loop_blind; auto. }
  unfold alloc_result. destruct (interp_batch n one obs out) as [r o1].
  destruct (interp_batch n one obs out') as [r' o1']. simpl in *. subst r'.
  destruct r as [[]| |]; auto. f_equal. destruct B as (B1 & B2), B' as (B1' & B2').
  apply nth_ext with (d := d) (d' := d); [congruence|].
  intros k Hk. rewrite B1 in Hk. specialize (B2 k ltac:(lia)). specialize (B2' k ltac:(lia)).
  congruence.
Qed.

Lemma and_then_blind A F (m : outcome A) (out out' : list F) k k' :
  (forall a, m = Ok a -> alloc_result (k a) = alloc_result (k' a)) ->
  alloc_result (and_then m out k) = alloc_result (and_then m out' k').
Proof. destruct m; simpl; auto. Qed.
