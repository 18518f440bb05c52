(** Facts that hold for every arithmetic: constructors, batches, dispatch. *)
From Coq Require Import ZifyBool ZifyNat PeanoNat.
From Verif Require Import Base Ops ModelCore ModelLinear ModelNearest ModelCubic.
From Verif Require Import Spec CoreLemmas TensorLemmas MethodLemmas SearchLemmas MethodChar.

(** ** Size products *)
Lemma zprod_nonneg l : Forall (fun d => 0 <= d) l -> 0 <= zprod l.
Proof. induction 1; [cbv; discriminate|]. rewrite zprod_cons. nia. Qed.

Lemma product_checked c dims v : ovf_checks c = true -> product c dims = Ok v -> v = zprod dims.
Proof.
  intros Hc. unfold product.
  enough (G : forall a, foldM (fun a d => usize_mul c a d) a dims = Ok v -> v = a * zprod dims).
  { intros H. rewrite (G 1 H). lia. }
  induction dims as [|d ds IH]; intros a H; cbn [foldM] in H.
  - inversion H; subst. change (zprod []) with 1. lia.
  - apply bind_ok in H as (b & Hb & H). rewrite (IH b H). rewrite zprod_cons.
    unfold usize_mul, usize_res in Hb. rewrite Hc in Hb.
    destruct ((0 <=? a * d) && (a * d <? two64)); inversion Hb; subst. ring.
Qed.

Lemma product_fit c dims : prefix_products_fit dims -> product c dims = Ok (zprod dims).
Proof.
  intros H. unfold product.
  enough (G : forall a, (forall k, 0 <= a * zprod (firstn k dims) < two64) ->
     foldM (fun a d => usize_mul c a d) a dims = Ok (a * zprod dims)).
  { rewrite G. { f_equal; lia. } intros k. specialize (H k). lia. }
  clear H. induction dims as [|d ds IH]; intros a H; cbn [foldM].
  - change (zprod []) with 1. f_equal. lia.
  - assert (H1 := H 1%nat). cbn [firstn] in H1. rewrite zprod_cons in H1.
    change (zprod []) with 1 in H1.
    rewrite usize_mul_ok by lia. cbn [bind]. rewrite IH.
    + rewrite zprod_cons. f_equal. ring.
    + intros k. specialize (H (S k)). cbn [firstn] in H. rewrite zprod_cons in H. lia.
Qed.

Lemma product_accept c dims v : Forall (fun d => 1 <= d) dims ->
  (ovf_checks c = true \/ zprod dims < two64) -> product c dims = Ok v -> v = zprod dims.
Proof.
  intros Hd [Hc|Hc] H; [eapply product_checked; eauto|].
  rewrite product_spec in H by auto. congruence.
Qed.

Lemma existsb_lt_false m dims : existsb (fun x => x <? m) dims = false <-> Forall (fun d => m <= d) dims.
Proof.
  induction dims; simpl; [split; auto|]. rewrite orb_false_iff, IHdims.
  split; [intros (H1 & H2); constructor; auto; lia|]. inversion 1; subst. split; auto; lia.
Qed.

Lemma forallb_Forall A (f : A -> bool) l : forallb f l = true <-> Forall (fun x => f x = true) l.
Proof.
  induction l; simpl; [split; auto|]. rewrite andb_true_iff, IHl.
  split; [intros (H1 & H2); auto|]. inversion 1; subst; auto.
Qed.

(** ** Accepted structs are well formed *)
Section New.
Context {F : Type} (o : Ops F) (c : cfg).

Ltac inv_new H :=
  apply bind_ok in H as (nv & Hnv & H);
  repeat match type of H with
  | (if ?b then _ else _) = Ok _ => let E := fresh "E" in destruct b eqn:E; try discriminate H
  end.

Lemma mlr_new_inv dims starts steps vals s :
  reg_input c dims starts steps vals -> mlr_new o c dims starts steps vals = Ok s ->
  reg_wf 2 s /\ s = mkRegular dims starts steps vals.
Proof.
  intros (H1 & H2 & H3 & H4 & H5) H. unfold mlr_new in H. inv_new H.
  inversion H; subst. split; auto.
  apply existsb_lt_false in E0. apply product_accept in Hnv; auto.
  2:{ eapply Forall_impl; [|eauto]. simpl; lia. }
  split; simpl; [lia|]. split; auto. split; auto. split; auto. split; auto. lia.
Qed.

Lemma mlrr_new_inv maxdims dims starts steps vals s :
  reg_input c dims starts steps vals -> mlrr_new o c maxdims dims starts steps vals = Ok s ->
  reg_wf 2 s /\ s = mkRegular dims starts steps vals /\ (length dims <= maxdims)%nat.
Proof.
  intros (H1 & H2 & H3 & H4 & H5) H. unfold mlrr_new in H. inv_new H.
  inversion H; subst. split; [|split; auto; lia].
  apply existsb_lt_false in E0. apply product_accept in Hnv; auto.
  2:{ eapply Forall_impl; [|eauto]. simpl; lia. }
  split; simpl; [lia|]. split; auto. split; auto. split; auto. split; auto. lia.
Qed.

Lemma mcr_new_inv dims starts steps vals lin s :
  reg_input c dims starts steps vals -> mcr_new o c dims starts steps vals lin = Ok s ->
  reg_wf 4 (cr_base s) /\ s = mkCR (mkRegular dims starts steps vals) lin.
Proof.
  intros (H1 & H2 & H3 & H4 & H5) H. unfold mcr_new in H. inv_new H.
  inversion H; subst. split; auto.
  apply existsb_lt_false in E0. apply product_accept in Hnv; auto.
  2:{ eapply Forall_impl; [|eauto]. simpl; lia. }
  split; simpl; [lia|]. split; auto. split; auto. split; auto. split; auto. lia.
Qed.

Lemma mcrr_new_inv maxdims dims starts steps vals lin s :
  reg_input c dims starts steps vals -> mcrr_new o c maxdims dims starts steps vals lin = Ok s ->
  reg_wf 4 (cr_base s) /\ s = mkCR (mkRegular dims starts steps vals) lin /\ (length dims <= maxdims)%nat.
Proof.
  intros (H1 & H2 & H3 & H4 & H5) H. unfold mcrr_new in H. inv_new H.
  inversion H; subst. split; [|split; auto; lia].
  apply existsb_lt_false in E0. apply product_accept in Hnv; auto.
  2:{ eapply Forall_impl; [|eauto]. simpl; lia. }
  split; simpl; [lia|]. split; auto. split; auto. split; auto. split; auto. lia.
Qed.

Lemma allM_mono grids : Forall (fun g => 2 <= zlen g) grids ->
  (allM (mono_maybe o) grids = Ok true /\ Forall (first_two_increase o) grids) \/
  (allM (mono_maybe o) grids = Ok false /\ ~ Forall (first_two_increase o) grids).
Proof.
  induction 1 as [|g gs Hg Hgs IH]; simpl; [left; auto|].
  destruct g as [|g0 [|g1 g]]; [cbv in Hg; congruence|cbv in Hg; congruence|].
  cbn. destruct (flt o g0 g1) eqn:E.
  - destruct IH as [(-> & H)|(-> & H)]; [left|right]; split; auto.
    inversion 1; auto.
  - right. split; auto. inversion 1; subst. simpl in *. congruence.
Qed.

Ltac inv_rect H :=
  apply bind_ok in H as (nv & Hnv & H);
  repeat match type of H with
  | (if ?b then _ else _) = Ok _ => let E := fresh "E" in destruct b eqn:E; try discriminate H
  end;
  apply bind_ok in H as (mono & Hmono & H);
  match type of H with
  | (if ?b then _ else _) = Ok _ => let E := fresh "E" in destruct b eqn:E; try discriminate H
  end.

Lemma zlen_dims_ge FP (grids : list (list F)) : Forall (fun d => FP <= d) (map zlen grids) ->
  Forall (fun g => FP <= zlen g) grids.
Proof. rewrite Forall_map. auto. Qed.

Lemma rect_wf_intro FP grids (vals : list F) nv : 2 <= FP ->
  rect_input c grids vals -> product c (map zlen grids) = Ok nv -> zlen vals = nv ->
  Forall (fun d => FP <= d) (map zlen grids) ->
  rect_wf FP (mkRect grids (map zlen grids) vals).
Proof.
  intros HF (H1 & H2 & H3) Hnv Hv Hd. apply product_accept in Hnv; auto.
  2:{ eapply Forall_impl; [|eauto]. simpl; lia. }
  split; simpl; [lia|]. split; auto. split; [apply zlen_dims_ge; auto|]. split; auto. lia.
Qed.

Lemma mlc_new_inv grids vals s :
  rect_input c grids vals -> mlc_new o c grids vals = Ok s ->
  rect_wf 2 s /\ s = mkRect grids (map zlen grids) vals.
Proof.
  intros Hi H. unfold mlc_new in H. inv_rect H. inversion H; subst. split; auto.
  apply existsb_lt_false in E0. eapply rect_wf_intro; eauto; lia.
Qed.

Lemma mlcr_new_inv maxdims grids vals s :
  rect_input c grids vals -> mlcr_new o c maxdims grids vals = Ok s ->
  rect_wf 2 s /\ s = mkRect grids (map zlen grids) vals /\ (length grids <= maxdims)%nat.
Proof.
  intros Hi H. unfold mlcr_new in H. destruct (maxdims <? length grids)%nat eqn:Em; [discriminate|].
  inv_rect H. inversion H; subst. split; [|split; auto; lia].
  apply existsb_lt_false in E0. eapply rect_wf_intro; eauto; lia.
Qed.

Lemma mcc_new_inv grids vals lin s :
  rect_input c grids vals -> mcc_new o c grids vals lin = Ok s ->
  rect_wf 4 (cc_base s) /\ s = mkCC (mkRect grids (map zlen grids) vals) lin.
Proof.
  intros Hi H. unfold mcc_new in H. inv_rect H. inversion H; subst. split; auto.
  apply existsb_lt_false in E0. eapply rect_wf_intro; eauto; lia.
Qed.

Lemma mccr_new_inv maxdims grids vals lin s :
  rect_input c grids vals -> mccr_new o c maxdims grids vals lin = Ok s ->
  rect_wf 4 (cc_base s) /\ s = mkCC (mkRect grids (map zlen grids) vals) lin
  /\ (length grids <= maxdims)%nat.
Proof.
  intros Hi H. unfold mccr_new in H. destruct (maxdims <? length grids)%nat eqn:Em; [discriminate|].
  inv_rect H. inversion H; subst. split; [|split; auto; lia].
  apply existsb_lt_false in E0. eapply rect_wf_intro; eauto; lia.
Qed.
End New.

(** ** Batches *)
Lemma upd_overflow A (l : list A) k a : (length l <= k)%nat -> upd l k a = l.
Proof. revert k; induction l; destruct k; simpl; intros; try lia; auto. f_equal; apply IHl; lia. Qed.

Lemma nth_error_firstn_lt A (l : list A) n k : (k < n)%nat -> nth_error (firstn n l) k = nth_error l k.
Proof. revert n k; induction l; destruct n, k; simpl; intros; try lia; auto. apply IHl; lia. Qed.

Lemma batch_loop_spec A (d : A) (f : nat -> outcome A) m i out :
  (i + m = length out)%nat ->
  let '(res, out') := batch_loop f (seq i m) out in
  length out' = length out /\ firstn i out' = firstn i out /\
  match res with
  | Ok _ => forall j, (i <= j < length out)%nat -> f j = Ok (nth j out' d)
  | Err e => exists k, (i <= k < length out)%nat /\ f k = Err e /\
      (forall j, (i <= j < k)%nat -> f j = Ok (nth j out' d)) /\ skipn k out' = skipn k out
  | Panic => exists k, (i <= k < length out)%nat /\ f k = Panic /\
      (forall j, (i <= j < k)%nat -> f j = Ok (nth j out' d)) /\ skipn k out' = skipn k out
  end.
Proof.
  revert i out. induction m as [|m IH]; intros i out Hm; cbn [seq batch_loop].
  { split; auto. split; auto. intros; lia. }
  destruct (f i) as [v|e|] eqn:E.
  2:{ split; auto. split; auto. exists i. split; [lia|]. split; auto. split; auto. intros; lia. }
  2:{ split; auto. split; auto. exists i. split; [lia|]. split; auto. split; auto. intros; lia. }
  specialize (IH (S i) (upd out i v)). rewrite upd_length in IH. specialize (IH ltac:(lia)).
  destruct (batch_loop f (seq (S i) m) (upd out i v)) as [res out'].
  destruct IH as (L & P & R). split; auto.
  assert (Ei : nth_error out' i = Some v).
  { assert (Q := f_equal (fun l => nth_error l i) P). cbv beta in Q.
    rewrite !nth_error_firstn_lt in Q by lia.
    rewrite Q. apply upd_same. lia. }
  assert (En : nth i out' d = v) by (apply nth_error_nth; auto).
  split.
  { apply list_ext; [rewrite !firstn_length; lia|].
    intros k Hk. rewrite firstn_length in Hk.
    assert (Q := f_equal (fun l => nth_error l k) P). cbv beta in Q.
    rewrite !nth_error_firstn_lt in Q by lia. rewrite !nth_error_firstn_lt by lia.
    rewrite Q. apply upd_other. lia. }
  assert (Hskip : forall k, (i < k)%nat -> skipn k (upd out i v) = skipn k out).
  { intros k Hk. revert i k Hk Hm E L P Ei En R. clear.
    intros i k Hk _ _ _ _ _ _ _.
    revert i k Hk. induction out as [|a l IHl]; intros i k Hk; destruct i, k; simpl; try lia; auto.
    apply IHl. lia. }
  destruct res as [u|e|].
  - intros j Hj. destruct (Nat.eq_dec j i) as [->|]; [congruence|]. apply R; lia.
  - destruct R as (k & K1 & K2 & K3 & K4). exists k. split; [lia|]. split; auto. split.
    + intros j Hj. destruct (Nat.eq_dec j i) as [->|]; [congruence|]. apply K3; lia.
    + rewrite K4. apply Hskip. lia.
  - destruct R as (k & K1 & K2 & K3 & K4). exists k. split; [lia|]. split; auto. split.
    + intros j Hj. destruct (Nat.eq_dec j i) as [->|]; [congruence|]. apply K3; lia.
    + rewrite K4. apply Hskip. lia.
Qed.

Lemma gather_spec F (d : F) n obs i m :
  length obs = n -> Forall (fun xs => length xs = m) obs -> (i < m)%nat ->
  gather n obs i = Ok (point_of d obs i).
Proof.
  intros Hn Hm Hi. unfold gather. rewrite (mapM_ok_map _ (fun j => nth i (nth j obs []) d)).
  - f_equal. unfold point_of. apply nth_ext with (d := d) (d' := d).
    + rewrite !map_length, seq_length. auto.
    + intros k Hk. rewrite map_length, seq_length in Hk.
      rewrite (nth_map_seq (fun j => nth i (nth j obs []) d)) by auto.
      symmetry. rewrite (nth_indep _ d (nth i (@nil F) d)) by (rewrite map_length; lia).
      rewrite (map_nth (fun xs => nth i xs d)). reflexivity.
  - intros j Hj. apply in_seq in Hj. rewrite (aget_nth _ []) by lia. cbn [bind].
    apply aget_nth. rewrite Forall_forall in Hm. rewrite (Hm (nth j obs [])); auto.
    apply nth_In. lia.
Qed.

Lemma interp_batch_spec F (d : F) n one obs out :
  length obs = n -> Forall (fun xs => length xs = length out) obs ->
  batch_spec d one obs out (fst (interp_batch n one obs out)) (snd (interp_batch n one obs out)).
Proof.
  intros Hn Hm. unfold interp_batch. rewrite Hn, Nat.eqb_refl. cbn [negb].
  replace (forallb _ obs) with true.
  2:{ symmetry. apply forallb_Forall. eapply Forall_impl; [|eauto]. simpl. intros; lia. }
  cbn [negb].
  assert (B := @batch_loop_spec F d (fun i => do tmp <- gather n obs i ; one tmp) (length out) 0 out
                 eq_refl).
  destruct (batch_loop _ _ out) as [res out']. cbn [fst snd].
  destruct B as (L & _ & R). split; auto. cbv zeta.
  assert (G : forall j, (j < length out)%nat -> gather n obs j = Ok (point_of d obs j)).
  { intros j Hj. eapply gather_spec; eauto. }
  destruct res as [u|e|].
  - intros j Hj. specialize (R j ltac:(lia)). rewrite G in R by lia. exact R.
  - destruct R as (k & K1 & K2 & K3 & K4). exists k. split; [lia|].
    rewrite G in K2 by lia. split; [exact K2|]. split; auto.
    intros j Hj. specialize (K3 j ltac:(lia)). rewrite G in K3 by lia. exact K3.
  - destruct R as (k & K1 & K2 & K3 & K4). exists k. split; [lia|].
    rewrite G in K2 by lia. split; [exact K2|]. split; auto.
    intros j Hj. specialize (K3 j ltac:(lia)). rewrite G in K3 by lia. exact K3.
Qed.

(** Where a batch stops. *)
Lemma batch_stops F (d : F) one obs out res out' i vs e : batch_spec d one obs out res out' ->
  first_failure d one obs out i vs e -> res = Err e /\ out' = (vs ++ skipn i out)%list.
Proof.
  intros (L & B) (Hi & Lv & Hj & He). cbv zeta in B.
  assert (K : forall k, (k < length out)%nat -> (forall j, (j < k)%nat -> one (point_of d obs j) = Ok (nth j out' d)) ->
     (forall v, one (point_of d obs k) <> Ok v) -> skipn k out' = skipn k out -> k = i /\ out' = (vs ++ skipn i out)%list).
  { intros k Hk Hg Hn Hs. assert (k = i) as ->.
    { destruct (Nat.lt_trichotomy k i) as [C|[C|C]]; auto.
      - exfalso. apply (Hn (nth k vs d)). apply Hj; auto.
      - exfalso. specialize (Hg i C). rewrite He in Hg. discriminate. }
    split; auto. rewrite <- Hs. rewrite <- (firstn_skipn i out') at 1. f_equal.
    apply nth_ext with d d; [rewrite firstn_length; lia|].
    intros n Hn'. rewrite firstn_length in Hn'. rewrite <- (firstn_skipn i out') in Hg.
    specialize (Hg n ltac:(lia)). rewrite Hj in Hg by lia. injection Hg as Hg. rewrite Hg.
    rewrite app_nth1 by (rewrite firstn_length; lia). reflexivity. }
  destruct res as [t|e'|].
  - exfalso. specialize (B i Hi). rewrite He in B. discriminate.
  - destruct B as (k & Hk & Ek & Hg & Hs). destruct (K k Hk Hg) as (-> & E); auto; [intros v Ev; congruence|].
    split; congruence.
  - exfalso. destruct B as (k & Hk & Ek & Hg & Hs). destruct (K k Hk Hg) as (-> & E); auto; [intros v Ev; congruence|].
    congruence.
Qed.
Lemma batch_stops_pair F (d : F) one obs out (r : outcome unit * list F) i vs e : batch_spec d one obs out (fst r) (snd r) ->
  first_failure d one obs out i vs e -> r = (Err e, (vs ++ skipn i out)%list).
Proof. intros H H'. destruct (batch_stops H H') as (E1 & E2). destruct r; simpl in *; congruence. Qed.

Lemma interp_batch_mismatch F n (one : list F -> outcome F) obs out :
  length obs <> n \/ ~ Forall (fun xs => length xs = length out) obs ->
  interp_batch n one obs out = (Err "Dimension mismatch"%string, out).
Proof.
  intros H. unfold interp_batch. destruct (Nat.eqb_spec (length obs) n) as [E|E]; auto.
  cbn [negb]. destruct (forallb _ obs) eqn:Ef; auto.
  exfalso. destruct H as [H|H]; [lia|]. apply H. apply forallb_Forall in Ef.
  eapply Forall_impl; [|eauto]. simpl; intros; lia.
Qed.

(** Equal point evaluations give equal batches. *)
Lemma batch_loop_ext A (f g : nat -> outcome A) is out :
  (forall i, In i is -> f i = g i) -> batch_loop f is out = batch_loop g is out.
Proof.
  revert out. induction is as [|i is IH]; intros out H; simpl; auto.
  rewrite H by (left; auto). destruct (g i); auto. apply IH. intros; apply H; right; auto.
Qed.

Lemma interp_batch_ext F n (one one' : list F -> outcome F) obs out :
  (forall x, length x = n -> one x = one' x) ->
  interp_batch n one obs out = interp_batch n one' obs out.
Proof.
  intros H. unfold interp_batch. destruct (negb _); auto. destruct (negb _); auto.
  apply batch_loop_ext. intros i Hi. destruct (gather n obs i) eqn:E; simpl; auto.
  apply H. unfold gather in E. apply mapM_length in E. rewrite seq_length in E. auto.
Qed.
