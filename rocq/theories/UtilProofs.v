(** meshgrid, linspace and the bounds checks. *)
From Coq Require Import Reals Lra PeanoNat Bool Sorted ZifyBool ZifyNat.
From Flocq Require Import Core.Core IEEE754.BinarySingleNaN.
From Verif Require Import Base Ops ModelCore ModelUtils ModelLinear RInst FInst Spec SpecReal Interpolators.
From Verif Require Import CoreLemmas GenLemmas GenProofs R1D RChar RProofs RProofs2 RProofs3 REval FLemmas.
Open Scope R_scope.

(** ** meshgrid *)
Section Mesh.
Context {F : Type}.
Open Scope Z_scope.

Lemma flat_map_length_const A B (f : A -> list B) m l : (forall a, length (f a) = m) ->
  length (flat_map f l) = (length l * m)%nat.
Proof. intros H. induction l; simpl; auto. rewrite app_length, H, IHl. lia. Qed.

Lemma flat_map_nth A B (f : A -> list B) m l i j da db : (forall a, length (f a) = m) ->
  (i < length l)%nat -> (j < m)%nat ->
  nth (i * m + j) (flat_map f l) db = nth j (f (nth i l da)) db.
Proof.
  intros H. revert i. induction l as [|a l IH]; simpl; intros i Hi Hj; [lia|].
  destruct i as [|i].
  - rewrite app_nth1 by (rewrite H; simpl; lia). reflexivity.
  - rewrite app_nth2 by (rewrite H; simpl; lia). rewrite H.
    replace (S i * m + j - m)%nat with (i * m + j)%nat by (simpl; lia). apply IH; lia.
Qed.

Lemma zprod_zlen_nonneg (grids : list (list F)) : 0 <= zprod (map zlen grids).
Proof. induction grids; [unfold zprod; simpl; lia|]. cbn [map]. rewrite zprod_cons. unfold zlen at 1. nia. Qed.

Lemma meshgrid_length (grids : list (list F)) : zlen (meshgrid grids) = zprod (map zlen grids).
Proof.
  induction grids as [|g gs IH]; [reflexivity|]. cbn [meshgrid map]. rewrite zprod_cons.
  unfold zlen at 1. rewrite (@flat_map_length_const _ _ _ (length (meshgrid gs))).
  - rewrite <- IH. unfold zlen. lia.
  - intros. apply map_length.
Qed.

Lemma meshgrid_nth (grids : list (list F)) d idx : in_shape (map zlen grids) idx ->
  nth (Z.to_nat (cindex (map zlen grids) idx)) (meshgrid grids) [] = grid_point d grids idx.
Proof.
  revert idx. induction grids as [|g gs IH]; intros idx H.
  - inversion H; subst. reflexivity.
  - inversion H as [|? i ? is Hi H']; subst. cbn [map cindex meshgrid grid_point].
    assert (R := cindex_range H'). assert (L : Z.of_nat (length (meshgrid gs)) = zprod (map zlen gs)) by apply meshgrid_length.
    set (k := cindex (map zlen gs) is) in *. specialize (IH is H'). fold k in IH.
    replace (Z.to_nat (i * zprod (map zlen gs) + k)) with (Z.to_nat i * length (meshgrid gs) + Z.to_nat k)%nat.
    + rewrite (@flat_map_nth _ _ _ (length (meshgrid gs)) g _ _ d).
      * rewrite (nth_indep _ [] (nth (Z.to_nat i) g d :: [])) by (rewrite map_length; lia).
        rewrite map_nth. f_equal. exact IH.
      * intros. apply map_length.
      * assert (Hi' : (i < Z.of_nat (length g))%Z) by apply Hi. lia.
      * lia.
    + rewrite <- L. rewrite Z2Nat.inj_add, Z2Nat.inj_mul by lia. rewrite Nat2Z.id. reflexivity.
Qed.

Theorem C28_proof_entry A (d : F) (da : A) (grids : list (list F)) (f : list F -> A) idx : in_shape (map zlen grids) idx ->
  entry da (map zlen grids) (map f (meshgrid grids)) idx = f (grid_point d grids idx).
Proof.
  intros H. unfold entry. assert (R := cindex_range H). assert (L : Z.of_nat (length (meshgrid grids)) = zprod (map zlen grids)) by apply meshgrid_length.
  rewrite (nth_indep _ da (f [])) by (rewrite map_length; lia).
  rewrite map_nth. f_equal. apply meshgrid_nth; auto.
Qed.
End Mesh.

Theorem C28_proof_size F (grids : list (list F)) A (f : list F -> A) :
  zlen (map f (meshgrid grids)) = zprod (map zlen grids).
Proof. unfold zlen at 1. rewrite map_length. apply meshgrid_length. Qed.

Lemma grid_point_node grids idx : grid_point 0 grids idx = node_pos (rect_axes grids) idx.
Proof. revert idx. induction grids as [|g gs IH]; intros [|i is]; simpl; auto. f_equal. apply IH. Qed.

Theorem C28_proof_samples grids f : samples (rect_axes grids) (map f (meshgrid grids)) f.
Proof.
  intros idx H. rewrite rect_axes_npts in *. rewrite (C28_proof_entry 0 _ _ _ H).
  f_equal. apply grid_point_node.
Qed.

(** ** linspace *)
Theorem linspace_any F (o : Ops F) c a b n : usize_converts o -> (1 <= n)%nat -> (Z.of_nat n < two64)%Z ->
  exists l, linspace o c a b n = Ok l /\ length l = n /\
  exists m, of_usize o (Z.of_nat n - 1)%Z = Some m /\
  forall i, (i < n)%nat -> exists fi, of_usize o (Z.of_nat i) = Some fi /\
    nth_error l i = Some (fadd o a (fmul o fi (fdiv o (fsub o b a) m))).
Proof.
  intros U Hn Hb. unfold linspace. rewrite usize_sub_ok by (unfold two64 in *; lia). cbn [bind].
  destruct (U (Z.of_nat n - 1)%Z ltac:(unfold two64 in *; lia)) as (m & Em). rewrite Em. cbn [unwrap bind].
  set (dx := fdiv o (fsub o b a) m).
  set (f := fun i => match of_usize o (Z.of_nat i) with Some fi => fadd o a (fmul o fi dx) | None => a end).
  exists (map f (seq 0 n)). split; [|split].
  - apply mapM_ok_map. intros i Hi. apply in_seq in Hi. unfold f.
    destruct (U (Z.of_nat i) ltac:(unfold two64 in *; lia)) as (fi & Ei). rewrite Ei. reflexivity.
  - rewrite map_length, seq_length. reflexivity.
  - exists m. split; auto. intros i Hi.
    destruct (U (Z.of_nat i) ltac:(unfold two64 in *; lia)) as (fi & Ei). exists fi. split; auto.
    rewrite nth_error_map, (nth_error_nth' _ 0%nat) by (rewrite seq_length; auto). simpl. rewrite seq_nth by auto.
    unfold f. simpl. rewrite Ei. reflexivity.
Qed.

Lemma usize_converts_ROps : usize_converts ROps.
Proof. intros n _. exists (IZR n). reflexivity. Qed.

Lemma sorted_of_nth l : (forall i j, (i < j < length l)%nat -> nth i l 0 < nth j l 0) -> strictly_increasing l.
Proof.
  induction l as [|a l IH]; intros H; constructor.
  - apply IH. intros i j Hij. apply (H (S i) (S j)). simpl. lia.
  - rewrite Forall_forall. intros x Hx. apply (In_nth _ _ 0) in Hx as (j & Hj & <-). apply (H 0%nat (S j)). simpl. lia.
Qed.

Theorem C38_proof c a b n : (2 <= n)%nat -> (Z.of_nat n < two64)%Z ->
  exists l, linspace ROps c a b n = Ok l /\ length l = n /\
    (forall i, (i < n)%nat -> nth i l 0 = a + INR i * (b - a) / INR (n - 1)) /\
    nth 0 l 0 = a /\ last l 0 = b /\ (a < b -> strictly_increasing l).
Proof.
  intros Hn Hb. destruct (@linspace_any _ ROps c a b n usize_converts_ROps ltac:(lia) Hb) as (l & E & L & m & Em & H).
  exists l. split; auto. split; auto.
  assert (P : 0 < INR (n - 1)) by (apply lt_0_INR; lia).
  assert (Em' : m = INR (n - 1)).
  { simpl in Em. inversion Em. rewrite INR_IZR_INZ. f_equal. lia. }
  assert (G : forall i, (i < n)%nat -> nth i l 0 = a + INR i * (b - a) / INR (n - 1)).
  { intros i Hi. destruct (H i Hi) as (fi & Ei & En). rewrite (nth_error_nth _ _ 0 En).
    cbn [of_usize ROps] in Ei. inversion Ei. cbn [fadd fmul fdiv fsub ROps]. rewrite Em', <- INR_IZR_INZ. field. lra. }
  split; auto. split; [|split].
  - rewrite G by lia. simpl. field. lra.
  - assert (LL : last l 0 = nth (length l - 1) l 0).
    { clear. induction l as [|a l IH]; auto. destruct l as [|b l]; auto.
      change (last (a :: b :: l) 0) with (last (b :: l) 0). rewrite IH.
      replace (length (a :: b :: l) - 1)%nat with (S (length (b :: l) - 1)) by (simpl; lia). reflexivity. }
    rewrite LL, L, G by lia. field. lra.
  - intros Hab. apply sorted_of_nth. rewrite L. intros i j Hij. rewrite !G by lia.
    assert (INR i < INR j) by (apply lt_INR; lia).
    apply Rplus_lt_compat_l. unfold Rdiv. apply Rmult_lt_compat_r; [apply Rinv_0_lt_compat; auto|].
    apply Rmult_lt_compat_r; lra.
Qed.

(** ** Bounds checks *)
Lemma flags_loop (f : nat -> outcome bool) n out : length out = n ->
  (forall i, (i < n)%nat -> exists b, f i = Ok b) ->
  exists out', batch_loop f (seq 0 n) out = (Ok tt, out') /\ length out' = n /\
    forall i, (i < n)%nat -> f i = Ok (nth i out' false).
Proof.
  intros L H. assert (B := @batch_loop_spec bool false f n 0 out ltac:(lia)).
  destruct (batch_loop f (seq 0 n) out) as [res out']. destruct B as (L' & _ & B).
  destruct res as [[]|e|].
  - exists out'. split; auto. split; [lia|]. intros. apply B. lia.
  - destruct B as (k & Hk & E & _). destruct (H k ltac:(lia)). congruence.
  - destruct B as (k & Hk & E & _). destruct (H k ltac:(lia)). congruence.
Qed.

Section Any.
Context {F : Type} (o : Ops F) (c : cfg).

Theorem check_reg_any dims starts steps obs atol out (d : F) : usize_converts o ->
  length starts = length dims -> length steps = length dims ->
  Forall (fun n => (1 <= n < two64)%Z) dims ->
  length obs = length dims -> length out = length dims ->
  exists out', mlr_check_bounds o c dims starts steps obs atol out = (Ok tt, out') /\
    length out' = length dims /\
    forall k, (k < length dims)%nat -> exists m : F, of_usize o (nth k dims 0 - 1)%Z = Some m /\
      let first := nth k starts d in let lst := fadd o first (fmul o (nth k steps d) m) in
      nth k out' false = violates o (fmin o first lst) (fmax o first lst) atol (nth k obs []).
Proof.
  intros U L1 L2 Hd L3 L4. unfold mlr_check_bounds. rewrite L3, L4, Nat.eqb_refl. cbn [andb negb].
  assert (S : forall i, (i < length dims)%nat -> exists m, of_usize o (nth i dims 0 - 1)%Z = Some m /\
    usize_sub c (nth i dims 0%Z) 1 = Ok (nth i dims 0 - 1)%Z).
  { intros i Hi. rewrite Forall_forall in Hd. assert (B := Hd _ (nth_In dims 0%Z Hi)).
    destruct (U (nth i dims 0 - 1)%Z ltac:(lia)) as (m & Em). exists m. split; auto. apply usize_sub_ok. lia. }
  edestruct flags_loop as (out' & E & L & H); [exact L4| |exists out'; split; [exact E|split; [exact L|]]].
  - intros i Hi. cbv beta. destruct (S i Hi) as (m & Em & Es).
    rewrite (@aget_nth _ starts i d) by lia. rewrite (@aget_nth _ dims i 0%Z) by lia. cbn [bind].
    rewrite Es. cbn [bind]. rewrite Em. rewrite (@aget_nth _ steps i d) by lia. cbn [bind].
    rewrite (@aget_nth _ obs i []) by lia. cbn [bind]. eauto.
  - intros k Hk. specialize (H k Hk). cbv beta in H. destruct (S k Hk) as (m & Em & Es).
    rewrite (@aget_nth _ starts k d) in H by lia. rewrite (@aget_nth _ dims k 0%Z) in H by lia. cbn [bind] in H.
    rewrite Es in H. cbn [bind] in H. rewrite Em in H. rewrite (@aget_nth _ steps k d) in H by lia. cbn [bind] in H.
    rewrite (@aget_nth _ obs k []) in H by lia. cbn [bind] in H. exists m. split; auto. inversion H. reflexivity.
Qed.

Theorem check_rect_any grids obs atol out (d : F) : 
  Forall (fun g => (1 <= length g)%nat) grids ->
  length obs = length grids -> length out = length grids ->
  exists out', mlc_check_bounds o grids obs atol out = (Ok tt, out') /\
    length out' = length grids /\
    forall k, (k < length grids)%nat -> 
      let g := nth k grids [] in
      nth k out' false = violates o (nth 0 g d) (nth (length g - 1) g d) atol (nth k obs []).
Proof.
  intros Hg L3 L4. unfold mlc_check_bounds. rewrite L3, L4, Nat.eqb_refl. cbn [andb].
  replace (forallb (fun g : list F => negb (length g =? 0)%nat) grids) with true.
  2:{ symmetry. apply forallb_forall. rewrite Forall_forall in Hg. intros g Hi. specialize (Hg g Hi). lia. }
  cbn [negb].
  assert (V : forall i, (i < length grids)%nat -> let g := nth i grids [] in
    aget grids i = Ok g /\ aget g 0 = Ok (nth 0 g d) /\ nth_error (rev g) 0 = Some (nth (length g - 1) g d)
    /\ aget obs i = Ok (nth i obs [])).
  { intros i Hi g. assert (Lg : (1 <= length g)%nat) by (rewrite Forall_forall in Hg; apply Hg, nth_In; auto).
    split; [apply aget_nth; auto|]. split; [apply aget_nth; lia|].
    split; [|apply aget_nth; lia].
    rewrite (nth_error_nth' _ d) by (rewrite rev_length; lia). f_equal. rewrite rev_nth by lia. f_equal. }
  edestruct flags_loop as (out' & E & L & H); [exact L4| |exists out'; split; [exact E|split; [exact L|]]].
  - intros i Hi. cbv beta. destruct (V i Hi) as (-> & V2 & V3 & V4). cbn [bind]. rewrite V2. cbn [bind]. rewrite V3, V4. cbn [bind]. eauto.
  - intros k Hk. cbv zeta. specialize (H k Hk). cbv beta in H. destruct (V k Hk) as (E1 & V2 & V3 & V4). rewrite E1 in H. cbn [bind] in H. rewrite V2 in H. cbn [bind] in H. rewrite V3, V4 in H. cbn [bind] in H.
    inversion H. reflexivity.
Qed.

Theorem check_reg_error dims starts steps obs atol out :
  (length obs <> length dims \/ length out <> length dims) ->
  mlr_check_bounds o c dims starts steps obs atol out = (Err msg_dim, out).
Proof.
  intros H. unfold mlr_check_bounds. destruct (_ && _) eqn:E; auto. lia.
Qed.
Theorem check_rect_error grids obs atol out :
  (length obs <> length grids \/ length out <> length grids \/ In [] grids) ->
  mlc_check_bounds o grids obs atol out = (Err msg_dim, out).
Proof.
  intros H. unfold mlc_check_bounds. destruct (_ && _) eqn:E; auto. exfalso.
  apply andb_prop in E as (E1 & E2). destruct H as [H|[H|H]]; [lia|lia|].
  rewrite forallb_forall in E2. specialize (E2 _ H). discriminate.
Qed.
End Any.

Lemma violates_R lo hi atol xs : violates ROps lo hi atol xs = true <-> beyond lo hi atol xs.
Proof.
  unfold violates, beyond. rewrite existsb_exists. split; intros (x & Hx & H); exists x; split; auto.
  - simpl in H. apply orb_prop in H. rewrite !Rleb_true in H. lra.
  - simpl. apply orb_true_intro. rewrite !Rleb_true. lra.
Qed.

Theorem C25_proof_regular c dims starts steps obs atol out :
  length starts = length dims -> length steps = length dims ->
  Forall (fun n => (1 <= n < two64)%Z) dims ->
  length obs = length dims -> length out = length dims ->
  exists out', mlr_check_bounds ROps c dims starts steps obs atol out = (Ok tt, out') /\
    length out' = length dims /\
    forall k, (k < length dims)%nat ->
      let first := nth k starts 0 in let lst := first + nth k steps 0 * IZR (nth k dims 0 - 1)%Z in
      (nth k out' false = true <-> beyond (Rmin first lst) (Rmax first lst) atol (nth k obs [])).
Proof.
  intros L1 L2 Hd L3 L4.
  destruct (@check_reg_any _ ROps c dims starts steps obs atol out 0 usize_converts_ROps L1 L2 Hd L3 L4) as (out' & E & L & H).
  exists out'. split; auto. split; auto. intros k Hk. destruct (H k Hk) as (m & Em & V). simpl in Em. inversion Em; subst m.
  simpl in V. rewrite V. apply violates_R.
Qed.
Theorem C25_proof_rectilinear grids obs atol out :
  Forall (fun g => (1 <= length g)%nat) grids ->
  length obs = length grids -> length out = length grids ->
  exists out', mlc_check_bounds ROps grids obs atol out = (Ok tt, out') /\
    length out' = length grids /\
    forall k, (k < length grids)%nat -> let g := nth k grids [] in
      (nth k out' false = true <-> beyond (nth 0 g 0) (last g 0) atol (nth k obs [])).
Proof.
  intros Hg L3 L4.
  destruct (@check_rect_any _ ROps grids obs atol out 0 Hg L3 L4) as (out' & E & L & H).
  exists out'. split; auto. split; auto. intros k Hk g. specialize (H k Hk). cbv zeta in H. fold g in H. rewrite H.
  replace (last g 0) with (nth (length g - 1) g 0); [apply violates_R|].
  clear. induction g as [|a l IH]; auto. destruct l as [|b l]; auto.
  change (last (a :: b :: l) 0) with (last (b :: l) 0). rewrite <- IH.
  replace (length (a :: b :: l) - 1)%nat with (S (length (b :: l) - 1)) by (simpl; lia). reflexivity.
Qed.

(** ** Bounds checks on IEEE floats *)
Section B.
Variables prec emax : Z.
Context (Hp : Prec_gt_0 prec) (He : Prec_lt_emax prec emax).
Notation fl := (binary_float prec emax).
Notation o := (BOps Hp He).
Notation fin x := (is_finite x = true).


Notation zero := (B754_zero false : fl).

(** Points of the closed interval are not flagged when the tolerance is positive. *)
Lemma inside_not_flagged lo hi atol xs : fin lo -> fin hi -> fin atol -> 0 < B2R atol ->
  Forall (fun x : fl => fin x /\ B2R lo <= B2R x <= B2R hi) xs -> violates o lo hi atol xs = false.
Proof.
  intros Fl Fh Fa Ha H. unfold violates. apply not_true_is_false. rewrite existsb_exists. intros (x & Hx & E).
  rewrite Forall_forall in H. destruct (H x Hx) as (Fx & L1 & L2).
  rewrite (@rounds_not_le _ _ Hp He _ _ zero _ (sub_rounds Hp He x lo Fx Fl)) in E;
    [|reflexivity|rewrite neg_fin; auto|simpl; lra|rewrite neg_val; simpl; lra].
  rewrite (@rounds_not_ge _ _ Hp He _ _ zero _ (sub_rounds Hp He x hi Fx Fh)) in E;
    [|reflexivity|auto|simpl; lra|simpl; lra]. discriminate.
Qed.

(** Points at least [atol] outside the interval are flagged. *)
Lemma beyond_flagged lo hi atol xs : fin lo -> fin hi -> fin atol ->
  Forall (fun x : fl => fin x) xs -> beyond (B2R lo) (B2R hi) (B2R atol) (map B2R xs) ->
  violates o lo hi atol xs = true.
Proof.
  intros Fl Fh Fa H (r & Hr & V). apply in_map_iff in Hr as (x & <- & Hx).
  unfold violates. rewrite existsb_exists. exists x. split; auto. rewrite Forall_forall in H. specialize (H x Hx).
  apply orb_true_intro. destruct V as [V|V]; [left|right].
  - eapply (@rounds_le _ _ Hp He); [apply (sub_rounds Hp He); auto|rewrite neg_fin; auto|rewrite neg_val; lra].
  - eapply (@rounds_ge _ _ Hp He); [apply (sub_rounds Hp He); auto|auto|lra].
Qed.

(** NaN coordinates are never flagged. *)
Lemma nan_not_flagged lo hi atol xs : Forall (fun x : fl => x = B754_nan) xs -> violates o lo hi atol xs = false.
Proof.
  intros H. unfold violates. apply not_true_is_false. rewrite existsb_exists. intros (x & Hx & E).
  rewrite Forall_forall in H. rewrite (H x Hx) in E. destruct lo, hi, atol; discriminate.
Qed.

Lemma usize_converts_B : usize_converts o.
Proof. intros n _. apply of_usize_some. Qed.

(** ** Bounds checks of the two kinds of grid on IEEE floats *)
Theorem check_rect_ieee grids obs atol out :
  Forall (fun g => (1 <= length g)%nat) grids ->
  length obs = length grids -> length out = length grids -> fin atol ->
  Forall (Forall (fun x : fl => fin x)) grids -> Forall (Forall (fun x : fl => fin x)) obs ->
  exists out', mlc_check_bounds o grids obs atol out = (Ok tt, out') /\
    length out' = length grids /\
    forall k, (k < length grids)%nat -> let g := nth k grids [] in
      let lo := B2R (nth 0 g zero) in let hi := B2R (last g zero) in
      (beyond lo hi (B2R atol) (map B2R (nth k obs [])) -> nth k out' false = true) /\
      (0 < B2R atol -> Forall (fun x => lo <= B2R x <= hi) (nth k obs []) -> nth k out' false = false).
Proof.
  intros Hg L3 L4 Fa Fg Fo.
  destruct (@check_rect_any _ o grids obs atol out zero Hg L3 L4) as (out' & E & L & H).
  exists out'. split; auto. split; auto. intros k Hk. cbv zeta. specialize (H k Hk). cbv zeta in H. rewrite H.
  rewrite Forall_forall in Fg, Hg, Fo. assert (Ig : In (nth k grids []) grids) by (apply nth_In; auto).
  specialize (Fg _ Ig). specialize (Hg _ Ig). set (g := nth k grids []) in *.
  assert (Io : In (nth k obs []) obs) by (apply nth_In; lia). specialize (Fo _ Io). set (xs := nth k obs []) in *.
  assert (El : last g zero = nth (length g - 1) g zero).
  { clear. induction g as [|a l IH]; auto. destruct l as [|b l]; auto.
    change (last (a :: b :: l) zero) with (last (b :: l) zero). rewrite IH.
    replace (length (a :: b :: l) - 1)%nat with (S (length (b :: l) - 1)) by (simpl; lia). reflexivity. }
  rewrite El. rewrite Forall_forall in Fg.
  assert (F0 : fin (nth 0 g zero)) by (apply Fg, nth_In; lia).
  assert (F1 : fin (nth (length g - 1) g zero)) by (apply Fg, nth_In; lia).
  split; intros.
  - apply beyond_flagged; auto.
  - apply inside_not_flagged; auto. rewrite Forall_forall in *. auto.
Qed.

Theorem check_reg_ieee c dims starts steps obs atol out :
  length starts = length dims -> length steps = length dims ->
  Forall (fun n => (1 <= n < two64)%Z) dims ->
  length obs = length dims -> length out = length dims -> fin atol ->
  Forall (Forall (fun x : fl => fin x)) obs ->
  exists out', mlr_check_bounds o c dims starts steps obs atol out = (Ok tt, out') /\
    length out' = length dims /\
    forall k, (k < length dims)%nat -> exists m, of_usize o (nth k dims 0 - 1)%Z = Some m /\
      let first := nth k starts zero in let lst := fadd o first (fmul o (nth k steps zero) m) in
      fin first -> fin lst ->
      let lo := Rmin (B2R first) (B2R lst) in let hi := Rmax (B2R first) (B2R lst) in
      (beyond lo hi (B2R atol) (map B2R (nth k obs [])) -> nth k out' false = true) /\
      (0 < B2R atol -> Forall (fun x => lo <= B2R x <= hi) (nth k obs []) -> nth k out' false = false).
Proof.
  intros L1 L2 Hd L3 L4 Fa Fo.
  destruct (@check_reg_any _ o c dims starts steps obs atol out zero usize_converts_B L1 L2 Hd L3 L4) as (out' & E & L & H).
  exists out'. split; auto. split; auto. intros k Hk. destruct (H k Hk) as (m & Em & V). exists m. split; auto.
  cbv zeta in *. intros F0 F1. rewrite V.
  rewrite Forall_forall in Fo. assert (Io : In (nth k obs []) obs) by (apply nth_In; lia). specialize (Fo _ Io).
  destruct (min_fin Hp He _ _ F0 F1) as (Fm & <-). destruct (max_fin Hp He _ _ F0 F1) as (FM & <-).
  split; intros.
  - apply beyond_flagged; auto.
  - apply inside_not_flagged; auto. rewrite Forall_forall in *. auto.
Qed.

(** ** linspace on IEEE floats: no overflow when a and b are not too large *)
Notation emin := (3 - emax - prec)%Z.
Theorem linspace_finite c (a b : fl) n : (8 <= emax)%Z -> (2 <= n)%nat -> (Z.of_nat n < two64)%Z -> (Z.of_nat n <= 2 ^ prec)%Z ->
  fin a -> fin b -> Rabs (B2R a) <= bpow radix2 (emax - 5) -> Rabs (B2R b) <= bpow radix2 (emax - 5) ->
  exists l, linspace o c a b n = Ok l /\ length l = n /\ Forall (fun x => fin x) l.
Proof.
  intros H8 Hn Hb Hpn Fa Fb Ba Bb.
  destruct (@linspace_any _ o c a b n usize_converts_B ltac:(lia) Hb) as (l & E & L & m & Em & H).
  exists l. split; auto. split; auto.
  assert (P2 : (Z.of_nat n - 1 <= 2 ^ prec)%Z) by lia.
  destruct (@of_usize_spec _ _ Hp He _ _ Em ltac:(lia)) as (Fm & Vm).
  assert (Pm : 1 <= B2R m) by (rewrite Vm; apply IZR_le; lia).
  assert (EM : forall e, bpow radix2 (e + 1) = 2 * bpow radix2 e) by (intros; rewrite bpow_plus_1; reflexivity).
  assert (Eb : Rabs (B2R b - B2R a) <= bpow radix2 (emax - 4)).
  { replace (emax - 4)%Z with (emax - 5 + 1)%Z by lia. rewrite EM.
    unfold Rminus. eapply Rle_trans; [apply Rabs_triang|]. rewrite Rabs_Ropp. lra. }
  unfold Prec_gt_0, Prec_lt_emax in *.
  destruct (@rounds_bound _ _ Hp _ _ (emax - 4) (sub_rounds Hp He b a Fb Fa) ltac:(lia) Eb) as (Fs & Vs & Bs).
  set (d := fsub o b a) in *.
  assert (Ed : Rabs (B2R d / B2R m) <= bpow radix2 (emax - 4) / B2R m).
  { unfold Rdiv. rewrite Rabs_mult, (Rabs_right (/ B2R m)).
    - apply Rmult_le_compat_r; auto. left. apply Rinv_0_lt_compat. lra.
    - left. apply Rinv_0_lt_compat. lra. }
  assert (Ed1 : Rabs (B2R d / B2R m) <= bpow radix2 (emax - 4)).
  { eapply Rle_trans; [exact Ed|]. unfold Rdiv. rewrite <- (Rmult_1_r (bpow radix2 (emax - 4))) at 2.
    apply Rmult_le_compat_l; [apply bpow_ge_0|]. rewrite <- Rinv_1. apply Rinv_le; lra. }
  destruct (@rounds_bound _ _ Hp _ _ (emax - 4) (div_rounds Hp He d m Fs ltac:(lra)) ltac:(lia) Ed1) as (Fd & Vd & Bd).
  set (dx := fdiv o d m) in *.
  (* m * |dx| <= 4 * 2^(emax-4) *)
  assert (Mdx : B2R m * Rabs (B2R dx) <= bpow radix2 (emax - 2)).
  { rewrite Vd. destruct (@rnd_error prec emax Hp (B2R d / B2R m)) as (eps & eta & He1 & He2 & _ & ->).
    assert (U : / 2 * bpow radix2 (- prec + 1) <= 1 / 2).
    { apply Rle_trans with (/ 2 * bpow radix2 0); [|simpl; lra].
      apply Rmult_le_compat_l; [lra|]. apply bpow_le. lia. }
    apply Rle_trans with (B2R m * (Rabs (B2R d / B2R m) * (1 + 1 / 2) + / 2 * bpow radix2 emin)).
    - apply Rmult_le_compat_l; [lra|]. eapply Rle_trans; [apply Rabs_triang|].
      apply Rplus_le_compat; auto. rewrite Rabs_mult. apply Rmult_le_compat_l; [apply Rabs_pos|].
      eapply Rle_trans; [apply Rabs_triang|]. rewrite Rabs_R1. lra.
    - assert (X : B2R m * Rabs (B2R d / B2R m) <= bpow radix2 (emax - 4)).
      { apply Rle_trans with (B2R m * (bpow radix2 (emax - 4) / B2R m)).
        - apply Rmult_le_compat_l; lra.
        - right. field. lra. }
      assert (Y : B2R m * bpow radix2 emin <= bpow radix2 (emax - 4)).
      { apply Rle_trans with (bpow radix2 prec * bpow radix2 emin).
        - apply Rmult_le_compat_r; [apply bpow_ge_0|]. rewrite Vm.
          rewrite <- IZR_Zpower by lia. apply IZR_le. exact P2.
        - rewrite <- bpow_plus. apply bpow_le. lia. }
      replace (emax - 2)%Z with (emax - 4 + 1 + 1)%Z by lia. rewrite !EM. assert (Z0 := bpow_ge_0 radix2 (emax - 4)). nra. }
  apply Forall_forall. intros x Hx. apply In_nth_error in Hx as (i & Hi).
  assert (Li : (i < n)%nat) by (rewrite <- L; apply nth_error_Some; congruence).
  destruct (H i Li) as (fi & Ei & En). rewrite Hi in En. inversion En; subst x; clear En.
  destruct (@of_usize_spec _ _ Hp He _ _ Ei ltac:(lia)) as (Fi & Vi).
  assert (Ri : 0 <= B2R fi <= B2R m) by (rewrite Vi, Vm; split; apply IZR_le; lia).
  assert (Bi : Rabs (B2R fi * B2R dx) <= bpow radix2 (emax - 2)).
  { rewrite Rabs_mult, (Rabs_right (B2R fi)) by lra. eapply Rle_trans; [|exact Mdx].
    apply Rmult_le_compat_r; [apply Rabs_pos|lra]. }
  destruct (@rounds_bound _ _ Hp _ _ (emax - 2) (mul_rounds Hp He fi dx Fi Fd) ltac:(lia) Bi) as (Fx & _ & Bx).
  eapply (@rounds_bound _ _ Hp _ _ (emax - 1) (add_rounds Hp He a _ Fa Fx)); [lia|].
  eapply Rle_trans; [apply Rabs_triang|]. replace (emax - 1)%Z with (emax - 2 + 1)%Z by lia. rewrite EM.
  assert (bpow radix2 (emax - 5) <= bpow radix2 (emax - 2)) by (apply bpow_le; lia). lra.
Qed.
End B.

(** ** Arrays built from meshgrid, read back by the interpolators *)
Theorem C28_proof_nodes f grids idx : in_shape (map zlen grids) idx ->
  (forall c dom eval, multilinear c (map f (meshgrid grids)) (rect_axes grids) dom eval ->
     eval (grid_point 0 grids idx) = Ok (f (grid_point 0 grids idx))) /\
  (forall c lin dom eval, multicubic c lin (map f (meshgrid grids)) (rect_axes grids) dom eval ->
     eval (grid_point 0 grids idx) = Ok (f (grid_point 0 grids idx))) /\
  (forall c dom eval, nearest_nd c (map f (meshgrid grids)) (rect_axes grids) dom eval ->
     eval (grid_point 0 grids idx) = Ok (f (grid_point 0 grids idx))).
Proof.
  intros H. assert (H' : in_shape (map npts (rect_axes grids)) idx) by (rewrite rect_axes_npts; exact H).
  assert (S := @C28_proof_samples grids f idx H'). rewrite grid_point_node.
  split; [|split]; intros.
  - erewrite C03_proof_linear by eauto. f_equal. exact S.
  - erewrite C03_proof_cubic by eauto. f_equal. exact S.
  - erewrite C03_proof_nearest by eauto. f_equal. exact S.
Qed.

(** linspace grids are accepted by the constructor. *)
Theorem linspace_accepted c a b n : (2 <= n)%nat -> (Z.of_nat n < two64)%Z -> a < b ->
  exists l, linspace ROps c a b n = Ok l /\ (2 <= zlen l)%Z /\ first_two_increase ROps l.
Proof.
  intros Hn Hb Hab. destruct (@C38_proof c a b n Hn Hb) as (l & E & L & _ & _ & _ & S).
  exists l. split; auto. split; [unfold zlen; lia|]. specialize (S Hab).
  destruct l as [|x [|y l]]; simpl in L; try lia. simpl. apply Rltb_true.
  inversion S as [|? ? ? F]; subst. inversion F; auto.
Qed.

Theorem C38_proof_accepted c grids vals : prefix_products_fit (map zlen grids) ->
  zlen vals = zprod (map zlen grids) ->
  Forall (fun g => exists a b n, a < b /\ (2 <= n)%nat /\ (Z.of_nat n < two64)%Z /\ linspace ROps c a b n = Ok g) grids ->
  mlc_new ROps c grids vals = Ok (mkRect grids (map zlen grids) vals).
Proof.
  intros P Hv Hg. assert (C := @new_checks_mlc _ ROps c vals grids P). cbn [checks_in_order] in C.
  assert (H : forall g, In g grids -> (2 <= zlen g)%Z /\ first_two_increase ROps g).
  { rewrite Forall_forall in Hg. intros g Ig. destruct (Hg g Ig) as (a & b & n & Hab & Hn & Hb & E).
    destruct (@linspace_accepted c a b n Hn Hb Hab) as (l & E' & H). rewrite E in E'. inversion E'; subst. exact H. }
  apply C; auto.
  - apply Forall_forall. apply H.
  - apply Forall_forall. apply H.
Qed.
