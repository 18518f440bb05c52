(** Lemmas about the shared machinery of the model (Base.v, ModelCore.v). *)
From Coq Require Import ZifyBool ZifyNat.
From Verif Require Import Base Ops ModelCore Spec.
Open Scope Z_scope.

(** ** Monad and loops *)
Lemma bind_ok A B (m : outcome A) (f : A -> outcome B) b :
  bind m f = Ok b -> exists a, m = Ok a /\ f a = Ok b.
Proof. destruct m; simpl; intros H; try discriminate; eauto. Qed.

Lemma bind_assoc A B C (m : outcome A) (f : A -> outcome B) (g : B -> outcome C) :
  bind (bind m f) g = bind m (fun a => bind (f a) g).
Proof. destruct m; reflexivity. Qed.

Lemma bind_ret A (m : outcome A) : bind m Ok = m.
Proof. destruct m; reflexivity. Qed.

Lemma bind_ext A B (m : outcome A) (f g : A -> outcome B) :
  (forall a, f a = g a) -> bind m f = bind m g.
Proof. destruct m; simpl; auto. Qed.

Lemma foldM_app S A (f : S -> A -> outcome S) l1 l2 s :
  foldM f s (l1 ++ l2) = bind (foldM f s l1) (fun s' => foldM f s' l2).
Proof.
  revert s. induction l1 as [|a l1 IH]; intros s; simpl; [reflexivity|].
  destruct (f s a); simpl; auto.
Qed.

Lemma foldM_ext S A (f g : S -> A -> outcome S) l s :
  (forall s a, In a l -> f s a = g s a) -> foldM f s l = foldM g s l.
Proof.
  revert s. induction l as [|a l IH]; intros s H; simpl; [reflexivity|].
  rewrite H by (left; reflexivity). destruct (g s a); simpl; auto.
  apply IH. intros; apply H; right; assumption.
Qed.

Lemma mapM_ext A B (f g : A -> outcome B) l :
  (forall a, In a l -> f a = g a) -> mapM f l = mapM g l.
Proof.
  induction l as [|a l IH]; intros H; simpl; [reflexivity|].
  rewrite H by (left; reflexivity). destruct (g a); simpl; auto.
  rewrite IH; [reflexivity|]. intros; apply H; right; assumption.
Qed.

Lemma mapM_ok_map A B (f : A -> outcome B) (g : A -> B) l :
  (forall a, In a l -> f a = Ok (g a)) -> mapM f l = Ok (map g l).
Proof.
  induction l as [|a l IH]; intros H; simpl; [reflexivity|].
  rewrite H by (left; reflexivity). simpl.
  rewrite IH; [reflexivity|]. intros; apply H; right; assumption.
Qed.

Lemma mapM_app A B (f : A -> outcome B) l1 l2 :
  mapM f (l1 ++ l2) = bind (mapM f l1) (fun a => bind (mapM f l2) (fun b => Ok (a ++ b))).
Proof.
  induction l1 as [|a l1 IH]; simpl.
  - rewrite bind_ret. reflexivity.
  - rewrite IH. destruct (f a); simpl; auto. destruct (mapM f l1); simpl; auto.
    destruct (mapM f l2); reflexivity.
Qed.

Lemma mapM_length A B (f : A -> outcome B) l bs : mapM f l = Ok bs -> length bs = length l.
Proof.
  revert bs. induction l as [|a l IH]; simpl; intros bs H.
  - inversion H; reflexivity.
  - apply bind_ok in H as (b & _ & H). apply bind_ok in H as (bs' & H' & H).
    inversion H; subst; simpl. f_equal. auto.
Qed.

Lemma mapM_nth A B (f : A -> outcome B) l bs k a :
  mapM f l = Ok bs -> nth_error l k = Some a ->
  exists b, f a = Ok b /\ nth_error bs k = Some b.
Proof.
  revert bs k. induction l as [|a0 l IH]; simpl; intros bs k H Hk.
  - destruct k; discriminate.
  - apply bind_ok in H as (b & Hb & H). apply bind_ok in H as (bs' & H' & H).
    inversion H; subst. destruct k; simpl in Hk.
    + inversion Hk; subst. exists b; auto.
    + eapply IH in H'; eauto.
Qed.

Lemma mapM_map A B C (g : A -> B) (f : B -> outcome C) l :
  mapM f (map g l) = mapM (fun a => f (g a)) l.
Proof. induction l; simpl; auto. rewrite IHl. reflexivity. Qed.

Lemma mapM_bind_map A B C (f : A -> outcome B) (g : B -> C) l :
  mapM (fun a => bind (f a) (fun b => Ok (g b))) l = bind (mapM f l) (fun bs => Ok (map g bs)).
Proof.
  induction l as [|a l IH]; simpl; auto. rewrite IH.
  destruct (f a); simpl; auto. destruct (mapM f l); reflexivity.
Qed.

(** ** Arrays *)
Lemma aget_ok A (l : list A) k a : nth_error l k = Some a -> aget l k = Ok a.
Proof. unfold aget. intros ->. reflexivity. Qed.

Lemma aget_nth A (l : list A) k d : (k < length l)%nat -> aget l k = Ok (nth k l d).
Proof. intros H. apply aget_ok. apply nth_error_nth'; assumption. Qed.

Lemma aget_inv A (l : list A) k a : aget l k = Ok a -> nth_error l k = Some a.
Proof. unfold aget. destruct (nth_error l k); congruence. Qed.

Lemma aget_lt A (l : list A) k : (k < length l)%nat -> exists a, aget l k = Ok a.
Proof.
  intros H. unfold aget. destruct (nth_error l k) eqn:E; eauto.
  apply nth_error_None in E. lia.
Qed.

Lemma idx_nth A (l : list A) i d : 0 <= i < zlen l -> idx l i = Ok (nth (Z.to_nat i) l d).
Proof.
  intros H. unfold idx. replace ((0 <=? i) && (i <? zlen l)) with true by lia.
  apply aget_nth. unfold zlen in H. lia.
Qed.

Lemma upd_length A (l : list A) k a : length (upd l k a) = length l.
Proof. revert k. induction l; destruct k; simpl; auto. Qed.

Lemma upd_same A (l : list A) k a : (k < length l)%nat -> nth_error (upd l k a) k = Some a.
Proof. revert k. induction l; destruct k; simpl; intros; try lia; auto. apply IHl. lia. Qed.

Lemma upd_other A (l : list A) k j a : j <> k -> nth_error (upd l k a) j = nth_error l j.
Proof.
  revert k j. induction l; destruct k, j; simpl; intros; try congruence; auto.
Qed.

Lemma aset_ok A (l : list A) k a : (k < length l)%nat -> aset l k a = Ok (upd l k a).
Proof. intros. unfold aset. replace (k <? length l)%nat with true by lia. reflexivity. Qed.

Lemma skipn_upd A (l : list A) k a : skipn (S k) (upd l k a) = skipn (S k) l.
Proof. revert k. induction l; destruct k; simpl; auto. apply IHl. Qed.

Lemma skipn_upd_cons A (l : list A) k a : (k < length l)%nat ->
  skipn k (upd l k a) = a :: skipn (S k) l.
Proof.
  revert k. induction l; destruct k; simpl; intros; try lia; auto. apply IHl. lia.
Qed.

Lemma list_ext A (l1 l2 : list A) :
  length l1 = length l2 ->
  (forall k, (k < length l1)%nat -> nth_error l1 k = nth_error l2 k) -> l1 = l2.
Proof.
  revert l2. induction l1 as [|a l1 IH]; destruct l2; simpl; intros Hl H; try lia; auto.
  assert (H0 := H 0%nat ltac:(lia)). simpl in H0. inversion H0; subst. f_equal.
  apply IH; [lia|]. intros k Hk. apply (H (S k)). lia.
Qed.

(** ** Machine integers *)
Lemma usize_res_ok c r : 0 <= r < two64 -> usize_res c r = Ok r.
Proof. intros. unfold usize_res. replace ((0 <=? r) && (r <? two64)) with true by lia. auto. Qed.
Lemma usize_add_ok c a b : 0 <= a + b < two64 -> usize_add c a b = Ok (a + b).
Proof. apply usize_res_ok. Qed.
Lemma usize_sub_ok c a b : 0 <= a - b < two64 -> usize_sub c a b = Ok (a - b).
Proof. apply usize_res_ok. Qed.
Lemma usize_mul_ok c a b : 0 <= a * b < two64 -> usize_mul c a b = Ok (a * b).
Proof. apply usize_res_ok. Qed.
Lemma isize_sub_ok c a b : isize_min <= a - b <= isize_max -> isize_sub c a b = Ok (a - b).
Proof.
  intros. unfold isize_sub, isize_res.
  replace ((isize_min <=? a - b) && (a - b <=? isize_max)) with true by lia. auto.
Qed.

(** ** Shapes and strides *)
Lemma zprod_cons d ds : zprod (d :: ds) = d * zprod ds.
Proof. reflexivity. Qed.

Lemma zprod_app l1 l2 : zprod (l1 ++ l2) = zprod l1 * zprod l2.
Proof.
  induction l1; cbn [app]; [change (zprod []) with 1; lia|].
  rewrite !zprod_cons, IHl1. ring.
Qed.

Lemma zprod_pos l : Forall (fun d => 1 <= d) l -> 1 <= zprod l.
Proof. induction 1; [reflexivity|]. rewrite zprod_cons. nia. Qed.

Fixpoint strides (dims : list Z) : list Z :=
  match dims with [] => [] | _ :: ds => zprod ds :: strides ds end.

Lemma strides_length dims : length (strides dims) = length dims.
Proof. induction dims; simpl; auto. Qed.

Lemma in_shape_length dims idx : in_shape dims idx -> length dims = length idx.
Proof. induction 1; simpl; auto. Qed.

Lemma in_shape_pos dims idx : in_shape dims idx -> Forall (fun d => 1 <= d) dims.
Proof. induction 1; constructor; auto; lia. Qed.

Lemma cindex_range dims idx : in_shape dims idx -> 0 <= cindex dims idx < zprod dims.
Proof.
  induction 1 as [|d i ds is H H0 IH]; [unfold zprod; simpl; lia|].
  simpl cindex. rewrite zprod_cons. nia.
Qed.

(** Sum of products, as [index_arr] computes it, without overflow. *)
Lemma index_loop c dims idx :
  forall locs dps k acc,
  in_shape dims idx ->
  (forall j, (j < length dims)%nat -> nth_error locs (k + j) = nth_error idx j) ->
  (forall j, (j < length dims)%nat -> nth_error dps (k + j) = nth_error (strides dims) j) ->
  0 <= acc -> acc + cindex dims idx < two64 ->
  foldM (fun i j =>
            do l <- aget locs j ;
            do d <- aget dps j ;
            do p <- usize_mul c l d ;
            usize_add c i p) acc (seq k (length dims)) = Ok (acc + cindex dims idx).
Proof.
  intros locs dps k acc H. revert k acc.
  induction H as [|d i ds is Hdi Hs IH]; intros k acc Hl Hd Hacc Hlt.
  - simpl. f_equal. lia.
  - cbn [length seq foldM cindex].
    assert (R := cindex_range Hs).
    assert (P := zprod_pos (in_shape_pos Hs)).
    cbn [cindex] in Hlt.
    assert (E1 := Hl 0%nat ltac:(simpl; lia)). rewrite Nat.add_0_r in E1.
    assert (E2 := Hd 0%nat ltac:(simpl; lia)). rewrite Nat.add_0_r in E2. simpl in E1, E2.
    rewrite (aget_ok _ _ E1), (aget_ok _ _ E2). cbn [bind].
    rewrite usize_mul_ok by nia. cbn [bind].
    rewrite usize_add_ok by nia. cbn [bind].
    rewrite IH; try nia.
    + f_equal. lia.
    + intros j Hj. change (nth_error is j) with (nth_error (i :: is) (S j)).
      rewrite <- Hl by (simpl; lia). f_equal. lia.
    + intros j Hj. change (nth_error (strides ds) j) with (nth_error (strides (d :: ds)) (S j)).
      rewrite <- Hd by (simpl; lia). f_equal. lia.
Qed.

Lemma index_arr_ok A c dims idx (vals : list A) d :
  in_shape dims idx -> zlen vals = zprod dims -> zprod dims < two64 ->
  index_arr c idx (strides dims) vals = Ok (entry d dims vals idx).
Proof.
  intros H Hv Hp. unfold index_arr.
  assert (R := cindex_range H).
  rewrite strides_length, (@index_loop c dims idx idx (strides dims) 0 0); auto; try lia.
  cbn [bind]. rewrite Z.add_0_l. apply idx_nth. lia.
Qed.

(** ** Set-up loops *)
Lemma skipn_nth A (l : list A) k a : nth_error l k = Some a -> skipn k l = a :: skipn (S k) l.
Proof.
  revert k. induction l as [|b l IH]; destruct k; simpl; intros H; try congruence.
  rewrite (IH _ H). reflexivity.
Qed.

Lemma skipn_last_k A (l : list A) i : (0 < i <= length l)%nat ->
  exists d, nth_error l (length l - i) = Some d /\
            skipn (length l - i) l = d :: skipn (length l - (i - 1)) l.
Proof.
  intros H. destruct (nth_error l (length l - i)) eqn:E.
  - exists a; split; auto. rewrite (skipn_nth _ _ E). do 2 f_equal. lia.
  - apply nth_error_None in E. lia.
Qed.

Lemma strides_skipn dims k : skipn k (strides dims) = strides (skipn k dims).
Proof. revert k; induction dims; destruct k; simpl; auto. Qed.

Lemma zprod_skipn_le dims k : Forall (fun d => 1 <= d) dims -> 1 <= zprod (skipn k dims) <= zprod dims.
Proof.
  intros H. rewrite <- (firstn_skipn k dims) at 3. rewrite zprod_app.
  assert (1 <= zprod (firstn k dims)).
  { apply zprod_pos. rewrite <- (firstn_skipn k dims) in H. apply Forall_app in H. tauto. }
  assert (1 <= zprod (skipn k dims)).
  { apply zprod_pos. rewrite <- (firstn_skipn k dims) in H. apply Forall_app in H. tauto. }
  nia.
Qed.

Lemma Forall_skipn A (P : A -> Prop) l k : Forall P l -> Forall P (skipn k l).
Proof. intros H. rewrite <- (firstn_skipn k l) in H. apply Forall_app in H. tauto. Qed.

(** The flattened set-up is "strides, then the per-axis actions in order". *)
Lemma flat_setup_spec A c dims (act : nat -> outcome A) :
  Forall (fun d => 1 <= d) dims -> zprod dims < two64 ->
  flat_setup c dims act =
  bind (mapM act (seq 0 (length dims))) (fun axes => Ok (strides dims, axes)).
Proof.
  intros Hd Hp. unfold flat_setup. set (n := length dims).
  assert (G : forall m i axes, (i + m = n)%nat ->
    bind (foldM (fun '(acc, dp, axes) i =>
       do acc' <- (if (0 <? i)%nat
                   then do d <- aget dims (n - i)%nat ; usize_mul c acc d
                   else Ok acc) ;
       do a <- act i ;
       Ok (acc', acc' :: dp, axes ++ [a]))
      ((if (i =? 0)%nat then 1 else zprod (skipn (n - (i - 1)) dims)),
       skipn (n - i) (strides dims), axes) (seq i m)) (fun '(_, dp, axes) => Ok (dp, axes))
    = bind (mapM act (seq i m)) (fun ax => Ok (strides dims, axes ++ ax))).
  { induction m as [|m IH]; intros i axes Him.
    - simpl. rewrite app_nil_r. replace (n - i)%nat with 0%nat by lia. reflexivity.
    - cbn [seq foldM mapM].
      assert (EA : (do acc' <- (if (0 <? i)%nat
                   then do d <- aget dims (n - i)%nat ;
                        usize_mul c (if (i =? 0)%nat then 1 else zprod (skipn (n - (i - 1)) dims)) d
                   else Ok (if (i =? 0)%nat then 1 else zprod (skipn (n - (i - 1)) dims))) ;
                   Ok acc')
              = Ok (zprod (skipn (n - i) dims))).
      { destruct (Nat.eqb_spec i 0) as [->|Hi].
        - simpl. rewrite Nat.sub_0_r. unfold n. rewrite skipn_all. reflexivity.
        - replace (0 <? i)%nat with true by lia.
          destruct (@skipn_last_k _ dims i) as (d & E1 & E2); [fold n; lia|].
          fold n in E1, E2. rewrite (aget_ok _ _ E1). cbn [bind].
          assert (R := @zprod_skipn_le dims (n - i) Hd). rewrite E2 in R |- *.
          rewrite zprod_cons in R |- *.
          rewrite usize_mul_ok by lia. cbn [bind]. f_equal. lia. }
      rewrite bind_ret in EA. rewrite EA. cbn [bind].
      destruct (act i) as [a|e|]; cbn [bind]; auto.
      assert (E : zprod (skipn (n - i) dims) :: skipn (n - i) (strides dims)
                  = skipn (n - S i) (strides dims)).
      { destruct (@skipn_last_k _ dims (S i)) as (d & E1 & E2); [fold n; lia|].
        fold n in E1, E2. rewrite !strides_skipn, E2. simpl. do 3 f_equal; lia || reflexivity. }
      rewrite E.
      replace (zprod (skipn (n - i) dims)) with
        (if (S i =? 0)%nat then 1 else zprod (skipn (n - (S i - 1)) dims))
        by (simpl; do 2 f_equal; lia).
      rewrite IH by lia.
      destruct (mapM act (seq (S i) m)); simpl; auto. rewrite <- app_assoc. reflexivity. }
  specialize (G n 0%nat [] ltac:(lia)). simpl (0 =? 0)%nat in G. cbv iota in G.
  rewrite Nat.sub_0_r in G.
  replace (skipn n (strides dims)) with (@nil Z) in G.
  2:{ unfold n. rewrite <- strides_length, skipn_all. reflexivity. }
  cbn [app] in G. rewrite <- G. clear.
  match goal with |- bind ?a _ = bind ?b _ => change a with b; destruct b as [[[? ?] ?]| |] end; reflexivity.
Qed.

Lemma rec_dimprod_spec c dims :
  Forall (fun d => 1 <= d) dims -> zprod dims < two64 ->
  rec_dimprod c dims = Ok (strides dims).
Proof.
  intros Hd Hp. unfold rec_dimprod. set (n := length dims).
  assert (G : forall m i, (i + m = n)%nat ->
    foldM (fun '(acc, dp) i =>
       do d <- aget dims (n - i - 1)%nat ;
       do acc' <- usize_mul c acc d ;
       Ok (acc', acc :: dp)) (zprod (skipn (n - i) dims), skipn (n - i) (strides dims)) (seq i m)
    = Ok (zprod dims, strides dims)).
  { induction m as [|m IH]; intros i Him.
    - simpl. replace (n - i)%nat with 0%nat by lia. reflexivity.
    - cbn [seq foldM].
      destruct (@skipn_last_k _ dims (S i)) as (d & E1 & E2); [fold n; lia|].
      fold n in E1, E2. replace (n - i - 1)%nat with (n - S i)%nat by lia.
      rewrite (aget_ok _ _ E1). cbn [bind].
      replace (n - (S i - 1))%nat with (n - i)%nat in E2 by lia.
      assert (R := @zprod_skipn_le dims (n - S i) Hd). rewrite E2 in R.
      rewrite zprod_cons in R.
      rewrite usize_mul_ok by lia. cbn [bind].
      replace (zprod (skipn (n - i) dims) * d) with (zprod (skipn (n - S i) dims))
        by (rewrite E2, zprod_cons; ring).
      replace (zprod (skipn (n - i) dims) :: skipn (n - i) (strides dims))
        with (skipn (n - S i) (strides dims)).
      2:{ rewrite !strides_skipn, E2. reflexivity. }
      apply IH. lia. }
  specialize (G n 0%nat ltac:(lia)). rewrite Nat.sub_0_r in G.
  replace (skipn n (strides dims)) with (@nil Z) in G
    by (unfold n; rewrite <- strides_length, skipn_all; reflexivity).
  replace (skipn n dims) with (@nil Z) in G by (unfold n; rewrite skipn_all; reflexivity).
  change (zprod []) with 1 in G. rewrite G. reflexivity.
Qed.

Lemma product_spec c dims : Forall (fun d => 1 <= d) dims -> zprod dims < two64 ->
  product c dims = Ok (zprod dims).
Proof.
  intros Hd Hp. unfold product.
  enough (G : forall a, 0 < a -> a * zprod dims < two64 ->
    foldM (fun a d => usize_mul c a d) a dims = Ok (a * zprod dims)).
  { rewrite G by lia. f_equal. lia. }
  clear Hp. induction Hd as [|d ds H Hds IH]; intros a Ha Hp; cbn [foldM].
  - change (zprod []) with 1. f_equal. lia.
  - rewrite zprod_cons in *. assert (P := zprod_pos Hds).
    rewrite usize_mul_ok by nia. cbn [bind].
    rewrite IH by nia. f_equal. ring.
Qed.
