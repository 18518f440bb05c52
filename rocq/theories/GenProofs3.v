(** Allocating variants, batches at the level of interpn, number types. *)
From Coq Require Import ZifyBool ZifyNat PeanoNat Reals.
From Verif Require Import Base Ops ModelCore ModelLinear ModelNearest ModelCubic ModelOneDim RInst FInst.
From Verif Require Import Spec CoreLemmas TensorLemmas MethodLemmas SearchLemmas MethodChar GenLemmas GenProofs GenProofs2.
Open Scope string_scope.
Open Scope Z_scope.

Lemma alloc_of_result F (r : outcome unit * list F) : alloc_result r = alloc_of r.
Proof. destruct r as [[]]; reflexivity. Qed.

Ltac inv_new H :=
  apply bind_ok in H as (nv & Hnv & H);
  repeat match type of H with
  | (if ?b then _ else _) = Ok _ => let E := fresh "E" in destruct b eqn:E; try discriminate H
  end.
Ltac inv_rect H :=
  inv_new H;
  apply bind_ok in H as (mono & Hmono & H);
  match type of H with
  | (if ?b then _ else _) = Ok _ => let E := fresh "E" in destruct b eqn:E; try discriminate H
  end.

Section Gen3.
Context {F : Type} (o : Ops F) (c : cfg).

Ltac blind L :=
  repeat match goal with |- context[if ?b then _ else _] => destruct b; [try reflexivity|try reflexivity] end;
  repeat (apply and_then_blind; intros); apply interp_batch_blind; auto.

Lemma blind_mlr dims starts steps vals obs out out' : length out = length out' ->
  alloc_result (mlr_interpn o c dims starts steps vals obs out)
  = alloc_result (mlr_interpn o c dims starts steps vals obs out').
Proof. intros L. unfold mlr_interpn, mlr_interp, mlrr_interp. assert (d := fzero o). blind L. Qed.
Lemma blind_mlrr dims starts steps vals obs out out' : length out = length out' ->
  alloc_result (mlrr_interpn o c dims starts steps vals obs out)
  = alloc_result (mlrr_interpn o c dims starts steps vals obs out').
Proof. intros L. unfold mlrr_interpn, mlrr_interp. assert (d := fzero o). blind L. Qed.
Lemma blind_nr dims starts steps vals obs out out' : length out = length out' ->
  alloc_result (nr_interpn o c dims starts steps vals obs out)
  = alloc_result (nr_interpn o c dims starts steps vals obs out').
Proof. intros L. unfold nr_interpn, nr_interp. assert (d := fzero o). blind L. Qed.
Lemma blind_mcr dims starts steps vals lin obs out out' : length out = length out' ->
  alloc_result (mcr_interpn o c dims starts steps vals lin obs out)
  = alloc_result (mcr_interpn o c dims starts steps vals lin obs out').
Proof. intros L. unfold mcr_interpn, mcr_interp, mcrr_interp. assert (d := fzero o). blind L. Qed.
Lemma blind_mcrr dims starts steps vals lin obs out out' : length out = length out' ->
  alloc_result (mcrr_interpn o c dims starts steps vals lin obs out)
  = alloc_result (mcrr_interpn o c dims starts steps vals lin obs out').
Proof. intros L. unfold mcrr_interpn, mcrr_interp. assert (d := fzero o). blind L. Qed.
Lemma blind_mlc grids vals obs out out' : length out = length out' ->
  alloc_result (mlc_interpn o c grids vals obs out) = alloc_result (mlc_interpn o c grids vals obs out').
Proof. intros L. unfold mlc_interpn, mlc_interp, mlcr_interp. assert (d := fzero o). blind L. Qed.
Lemma blind_mlcr grids vals obs out out' : length out = length out' ->
  alloc_result (mlcr_interpn o c grids vals obs out) = alloc_result (mlcr_interpn o c grids vals obs out').
Proof. intros L. unfold mlcr_interpn, mlcr_interp. assert (d := fzero o). blind L. Qed.
Lemma blind_nc grids vals obs out out' : length out = length out' ->
  alloc_result (nc_interpn o c grids vals obs out) = alloc_result (nc_interpn o c grids vals obs out').
Proof. intros L. unfold nc_interpn, nc_interp. assert (d := fzero o). blind L. Qed.
Lemma blind_mcc grids vals lin obs out out' : length out = length out' ->
  alloc_result (mcc_interpn o c grids vals lin obs out) = alloc_result (mcc_interpn o c grids vals lin obs out').
Proof. intros L. unfold mcc_interpn, mcc_interp, mccr_interp. assert (d := fzero o). blind L. Qed.
Lemma blind_mccr grids vals lin obs out out' : length out = length out' ->
  alloc_result (mccr_interpn o c grids vals lin obs out) = alloc_result (mccr_interpn o c grids vals lin obs out').
Proof. intros L. unfold mccr_interpn, mccr_interp. assert (d := fzero o). blind L. Qed.

Lemma alloc_zeros_cons o0 rest : alloc_zeros o (o0 :: rest) = Ok (repeat (fzero o) (length o0)).
Proof. reflexivity. Qed.

Ltac alloc H := intros; rewrite alloc_zeros_cons; cbn [bind]; rewrite <- alloc_of_result; apply H;
  rewrite repeat_length; auto.

Lemma alloc_mlr dims starts steps vals o0 rest out : length out = length o0 ->
  mlr_interpn_alloc o c dims starts steps vals (o0 :: rest)
  = alloc_of (mlr_interpn o c dims starts steps vals (o0 :: rest) out).
Proof. unfold mlr_interpn_alloc. alloc blind_mlr. Qed.
Lemma alloc_mlrr dims starts steps vals o0 rest out : length out = length o0 ->
  mlrr_interpn_alloc o c dims starts steps vals (o0 :: rest)
  = alloc_of (mlrr_interpn o c dims starts steps vals (o0 :: rest) out).
Proof. unfold mlrr_interpn_alloc. alloc blind_mlrr. Qed.
Lemma alloc_nr dims starts steps vals o0 rest out : length out = length o0 ->
  nr_interpn_alloc o c dims starts steps vals (o0 :: rest)
  = alloc_of (nr_interpn o c dims starts steps vals (o0 :: rest) out).
Proof. unfold nr_interpn_alloc. alloc blind_nr. Qed.
Lemma alloc_mcr dims starts steps vals lin o0 rest out : length out = length o0 ->
  mcr_interpn_alloc o c dims starts steps vals lin (o0 :: rest)
  = alloc_of (mcr_interpn o c dims starts steps vals lin (o0 :: rest) out).
Proof. unfold mcr_interpn_alloc. alloc blind_mcr. Qed.
Lemma alloc_mcrr dims starts steps vals lin o0 rest out : length out = length o0 ->
  mcrr_interpn_alloc o c dims starts steps vals lin (o0 :: rest)
  = alloc_of (mcrr_interpn o c dims starts steps vals lin (o0 :: rest) out).
Proof. unfold mcrr_interpn_alloc. alloc blind_mcrr. Qed.
Lemma alloc_mlc grids vals o0 rest out : length out = length o0 ->
  mlc_interpn_alloc o c grids vals (o0 :: rest) = alloc_of (mlc_interpn o c grids vals (o0 :: rest) out).
Proof. unfold mlc_interpn_alloc. alloc blind_mlc. Qed.
Lemma alloc_mlcr grids vals o0 rest out : length out = length o0 ->
  mlcr_interpn_alloc o c grids vals (o0 :: rest) = alloc_of (mlcr_interpn o c grids vals (o0 :: rest) out).
Proof. unfold mlcr_interpn_alloc. alloc blind_mlcr. Qed.
Lemma alloc_nc grids vals o0 rest out : length out = length o0 ->
  nc_interpn_alloc o c grids vals (o0 :: rest) = alloc_of (nc_interpn o c grids vals (o0 :: rest) out).
Proof. unfold nc_interpn_alloc. alloc blind_nc. Qed.
Lemma alloc_mcc grids vals lin o0 rest out : length out = length o0 ->
  mcc_interpn_alloc o c grids vals lin (o0 :: rest) = alloc_of (mcc_interpn o c grids vals lin (o0 :: rest) out).
Proof. unfold mcc_interpn_alloc. alloc blind_mcc. Qed.
Lemma alloc_mccr grids vals lin o0 rest out : length out = length o0 ->
  mccr_interpn_alloc o c grids vals lin (o0 :: rest) = alloc_of (mccr_interpn o c grids vals lin (o0 :: rest) out).
Proof. unfold mccr_interpn_alloc. alloc blind_mccr. Qed.

(** 1-D *)
Lemma eval1_batch (one : F -> outcome F) locs out : length locs = length out ->
  eval1 one locs out
  = interp_batch 1 (fun x => do l <- aget x 0 ; one l) [locs] out.
Proof.
  intros L. unfold eval1, interp_batch. simpl. rewrite L, Nat.eqb_refl. simpl.
  apply batch_loop_ext. intros i _. unfold gather. simpl.
  destruct (aget locs i); reflexivity.
Qed.

Lemma eval1_spec (d : F) (one : F -> outcome F) locs out : length locs = length out ->
  batch_spec d (fun x => match x with [l] => one l | _ => Panic end) [locs] out
    (fst (eval1 one locs out)) (snd (eval1 one locs out)).
Proof.
  intros L. rewrite eval1_batch by auto.
  rewrite (@interp_batch_ext F 1 _ (fun x => match x with [l] => one l | _ => Panic end)).
  - apply interp_batch_spec; auto.
  - intros [|l [|]] Hl; simpl in Hl; try discriminate. reflexivity.
Qed.

Lemma eval1_mismatch (one : F -> outcome F) locs out : length locs <> length out ->
  eval1 one locs out = (Err msg_len, out).
Proof. intros L. unfold eval1. replace (negb _) with true by lia. reflexivity. Qed.

Lemma alloc_eval1 (one : F -> outcome F) locs out : length out = length locs ->
  eval1_alloc o one locs = alloc_of (eval1 one locs out).
Proof.
  intros L. unfold eval1_alloc. rewrite <- alloc_of_result.
  rewrite !eval1_batch by (rewrite ?repeat_length; auto). apply interp_batch_blind.
  - exact (fzero o).
  - rewrite repeat_length. auto.
Qed.

(** interpn is the constructor followed by a batch of single evaluations *)
Lemma interpn_batch_mlr dims starts steps vals obs out s :
  (1 <= length dims <= 6)%nat -> length starts = length dims -> length steps = length dims ->
  length obs = length dims -> Forall (fun xs => length xs = length out) obs ->
  mlr_new o c dims starts steps vals = Ok s ->
  let r := mlr_interpn o c dims starts steps vals obs out in
  batch_spec (fzero o) (mlr_interp_one o c s) obs out (fst r) (snd r).
Proof.
  intros Hn L1 L2 L3 Ha Hs. cbv zeta. unfold mlr_interpn. rewrite L1, L2, L3, Nat.eqb_refl.
  cbn [negb orb]. replace (_ && _) with true by lia. rewrite !try_into_ok by auto. cbn [bind].
  rewrite Hs. cbn [and_then]. unfold mlr_interp. apply interp_batch_spec; auto.
  unfold mlr_new in Hs. inv_new Hs. inversion Hs; subst. auto.
Qed.

Lemma interpn_batch_mlrr dims starts steps vals obs out s :
  (7 <= length dims <= 8)%nat -> length starts = length dims -> length steps = length dims ->
  length obs = length dims -> Forall (fun xs => length xs = length out) obs ->
  mlrr_new o c (length dims) dims starts steps vals = Ok s ->
  let r := mlr_interpn o c dims starts steps vals obs out in
  batch_spec (fzero o) (mlrr_interp_one o c (length dims) s) obs out (fst r) (snd r).
Proof.
  intros Hn L1 L2 L3 Ha Hs. cbv zeta. unfold mlr_interpn. rewrite L1, L2, L3, Nat.eqb_refl.
  cbn [negb orb]. replace ((1 <=? _)%nat && _) with false by lia. replace (_ && _) with true by lia.
  rewrite Hs. cbn [and_then]. unfold mlrr_interp. apply interp_batch_spec; auto.
  unfold mlrr_new in Hs. inv_new Hs. inversion Hs; subst. auto.
Qed.

Lemma interpn_batch_mlc grids vals obs out s :
  (1 <= length grids <= 6)%nat -> length obs = length grids ->
  Forall (fun xs => length xs = length out) obs ->
  mlc_new o c grids vals = Ok s ->
  let r := mlc_interpn o c grids vals obs out in
  batch_spec (fzero o) (mlc_interp_one o c s) obs out (fst r) (snd r).
Proof.
  intros Hn L3 Ha Hs. cbv zeta. unfold mlc_interpn. rewrite L3, Nat.eqb_refl.
  cbn [negb]. replace (_ && _) with true by lia. rewrite !try_into_ok by auto. cbn [bind].
  rewrite Hs. cbn [and_then]. unfold mlc_interp. apply interp_batch_spec; auto.
  unfold mlc_new in Hs. inv_rect Hs. inversion Hs; subst. simpl. rewrite map_length. auto.
Qed.

Lemma interpn_batch_mlcr grids vals obs out s :
  (7 <= length grids <= 8)%nat -> length obs = length grids ->
  Forall (fun xs => length xs = length out) obs ->
  mlcr_new o c (length grids) grids vals = Ok s ->
  let r := mlc_interpn o c grids vals obs out in
  batch_spec (fzero o) (mlcr_interp_one o c (length grids) s) obs out (fst r) (snd r).
Proof.
  intros Hn L3 Ha Hs. cbv zeta. unfold mlc_interpn. rewrite L3, Nat.eqb_refl.
  cbn [negb]. replace ((1 <=? _)%nat && _) with false by lia. replace (_ && _) with true by lia.
  rewrite Hs. cbn [and_then]. unfold mlcr_interp. apply interp_batch_spec; auto.
  unfold mlcr_new in Hs. destruct (_ <? _)%nat; [discriminate|]. inv_rect Hs. inversion Hs; subst. auto.
Qed.

Lemma interpn_batch_nr dims starts steps vals obs out s :
  (1 <= length dims <= 6)%nat -> length starts = length dims -> length steps = length dims ->
  length obs = length dims -> Forall (fun xs => length xs = length out) obs ->
  nr_new o c dims starts steps vals = Ok s ->
  let r := nr_interpn o c dims starts steps vals obs out in
  batch_spec (fzero o) (nr_interp_one o c s) obs out (fst r) (snd r).
Proof.
  intros Hn L1 L2 L3 Ha Hs. cbv zeta. unfold nr_interpn. rewrite L1, L2, L3, Nat.eqb_refl.
  cbn [negb orb]. replace (_ && _) with true by lia. rewrite !try_into_ok by auto. cbn [bind].
  rewrite Hs. cbn [and_then]. unfold nr_interp. apply interp_batch_spec; auto.
  unfold nr_new, mlr_new in Hs. inv_new Hs. inversion Hs; subst. auto.
Qed.

Lemma interpn_batch_nc grids vals obs out s :
  (1 <= length grids <= 6)%nat -> length obs = length grids ->
  Forall (fun xs => length xs = length out) obs ->
  nc_new o c grids vals = Ok s ->
  let r := nc_interpn o c grids vals obs out in
  batch_spec (fzero o) (nc_interp_one o c s) obs out (fst r) (snd r).
Proof.
  intros Hn L3 Ha Hs. cbv zeta. unfold nc_interpn. rewrite L3, Nat.eqb_refl.
  cbn [negb]. replace (_ && _) with true by lia. rewrite !try_into_ok by auto. cbn [bind].
  rewrite Hs. cbn [and_then]. unfold nc_interp. apply interp_batch_spec; auto.
  unfold nc_new, mlc_new in Hs. inv_rect Hs. inversion Hs; subst. simpl. rewrite map_length. auto.
Qed.

Lemma interpn_batch_mcr dims starts steps vals lin obs out s :
  (1 <= length dims <= 4)%nat -> length starts = length dims -> length steps = length dims ->
  length obs = length dims -> Forall (fun xs => length xs = length out) obs ->
  mcr_new o c dims starts steps vals lin = Ok s ->
  let r := mcr_interpn o c dims starts steps vals lin obs out in
  batch_spec (fzero o) (mcr_interp_one o c s) obs out (fst r) (snd r).
Proof.
  intros Hn L1 L2 L3 Ha Hs. cbv zeta. unfold mcr_interpn.
  replace (_ && _) with true by lia. rewrite !try_into_ok by auto. cbn [bind].
  rewrite Hs. cbn [and_then]. unfold mcr_interp. apply interp_batch_spec; auto.
  unfold mcr_new in Hs. inv_new Hs. inversion Hs; subst. auto.
Qed.

Lemma interpn_batch_mcrr dims starts steps vals lin obs out s :
  (5 <= length dims <= 8)%nat -> length starts = length dims -> length steps = length dims ->
  length obs = length dims -> Forall (fun xs => length xs = length out) obs ->
  mcrr_new o c (length dims) dims starts steps vals lin = Ok s ->
  let r := mcr_interpn o c dims starts steps vals lin obs out in
  batch_spec (fzero o) (mcrr_interp_one o c (length dims) s) obs out (fst r) (snd r).
Proof.
  intros Hn L1 L2 L3 Ha Hs. cbv zeta. unfold mcr_interpn.
  replace ((1 <=? _)%nat && _) with false by lia. replace (_ && _) with true by lia.
  rewrite Hs. cbn [and_then]. unfold mcrr_interp. apply interp_batch_spec; auto.
  unfold mcrr_new in Hs. inv_new Hs. inversion Hs; subst. auto.
Qed.

Lemma interpn_batch_mcc grids vals lin obs out s :
  (1 <= length grids <= 4)%nat -> length obs = length grids ->
  Forall (fun xs => length xs = length out) obs ->
  mcc_new o c grids vals lin = Ok s ->
  let r := mcc_interpn o c grids vals lin obs out in
  batch_spec (fzero o) (mcc_interp_one o c s) obs out (fst r) (snd r).
Proof.
  intros Hn L3 Ha Hs. cbv zeta. unfold mcc_interpn.
  replace (_ && _) with true by lia. rewrite !try_into_ok by auto. cbn [bind].
  rewrite Hs. cbn [and_then]. unfold mcc_interp. apply interp_batch_spec; auto.
  unfold mcc_new in Hs. inv_rect Hs. inversion Hs; subst. simpl. rewrite map_length. auto.
Qed.

Lemma interpn_batch_mccr grids vals lin obs out s :
  (5 <= length grids <= 8)%nat -> length obs = length grids ->
  Forall (fun xs => length xs = length out) obs ->
  mccr_new o c (length grids) grids vals lin = Ok s ->
  let r := mcc_interpn o c grids vals lin obs out in
  batch_spec (fzero o) (mccr_interp_one o c (length grids) s) obs out (fst r) (snd r).
Proof.
  intros Hn L3 Ha Hs. cbv zeta. unfold mcc_interpn.
  replace ((1 <=? _)%nat && _) with false by lia. replace (_ && _) with true by lia.
  rewrite Hs. cbn [and_then]. unfold mccr_interp. apply interp_batch_spec; auto.
  unfold mccr_new in Hs. destruct (_ <? _)%nat; [discriminate|]. inv_rect Hs. inversion Hs; subst. auto.
Qed.

(** An error of the constructor is returned and leaves the output alone *)
Lemma interpn_new_err_mlr dims starts steps vals obs out e :
  (1 <= length dims <= 6)%nat -> length starts = length dims -> length steps = length dims ->
  length obs = length dims ->
  mlr_new o c dims starts steps vals = Err e ->
  mlr_interpn o c dims starts steps vals obs out = (Err e, out).
Proof.
  intros Hn L1 L2 L3 Hs. unfold mlr_interpn. rewrite L1, L2, L3, Nat.eqb_refl.
  cbn [negb orb]. replace (_ && _) with true by lia. rewrite !try_into_ok by auto. cbn [bind].
  rewrite Hs. reflexivity.
Qed.
End Gen3.

(** ** usize always converts *)
Lemma usize_converts_R : usize_converts ROps.
Proof. intros n _. simpl. eauto. Qed.
Lemma usize_converts_f64 : usize_converts F64Ops.
Proof. intros n _. simpl. eauto. Qed.
Lemma usize_converts_f32 : usize_converts F32Ops.
Proof. intros n _. simpl. eauto. Qed.
