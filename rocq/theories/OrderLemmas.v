(** The cell search on rectilinear grids, for any number type with a transitive [<]. *)
From Coq Require Import ZifyBool ZifyNat PeanoNat Reals Lra.
From Flocq Require Import Core.Core IEEE754.BinarySingleNaN.
From Verif Require Import Base Ops RInst FInst ModelCore ModelLinear ModelCubic ModelOneDim.
From Verif Require Import Spec SpecOrder CoreLemmas SearchLemmas.
Open Scope Z_scope.

(** ** Instances *)
Lemma ROps_transitive : lt_transitive ROps.
Proof.
  intros a b c. simpl. unfold Rltb. destruct (Rlt_dec a b), (Rlt_dec b c), (Rlt_dec a c); auto; try discriminate.
  exfalso. lra.
Qed.
Lemma ROps_irreflexive : lt_irreflexive ROps.
Proof. intros a. simpl. unfold Rltb. destruct (Rlt_dec a a); auto. exfalso. lra. Qed.

Section B.
Variables prec emax : Z.
Context (Hp : Prec_gt_0 prec) (He : Prec_lt_emax prec emax).
Notation fl := (binary_float prec emax).

Lemma Bltb_B2R (a b : fl) : is_finite a = true -> is_finite b = true ->
  (Bltb a b = true <-> (B2R a < B2R b)%R).
Proof.
  intros Ha Hb. rewrite Bltb_correct by auto. split.
  - apply Rlt_bool_true_inv || (intros H; destruct (Rlt_bool_spec (B2R a) (B2R b)); auto; discriminate).
  - apply Rlt_bool_true.
Qed.

Lemma Bltb_inv (a b : fl) : Bltb a b = true ->
  (is_finite a = true /\ is_finite b = true /\ (B2R a < B2R b)%R)
  \/ (is_finite a = true /\ b = B754_infinity false)
  \/ (a = B754_infinity true /\ is_finite b = true)
  \/ (a = B754_infinity true /\ b = B754_infinity false).
Proof.
  intros H. destruct (is_finite a) eqn:Fa, (is_finite b) eqn:Fb.
  - left. repeat split; auto. apply Bltb_B2R; auto.
  - destruct b as [|[]| |]; try discriminate; destruct a as [[]|[]| |[]]; try discriminate; auto 6.
  - destruct a as [|[]| |]; try discriminate; destruct b as [[]|[]| |[]]; try discriminate; auto 6.
  - destruct a as [|[]| |]; try discriminate; destruct b as [|[]| |]; try discriminate; auto 6.
Qed.

Lemma BOps_transitive : lt_transitive (BOps Hp He).
Proof.
  intros a b c Hab Hbc. cbn [flt BOps] in *.
  destruct (Bltb_inv _ _ Hab) as [(Fa & Fb & L1)|[(Fa & ->)|[(-> & Fb)|(-> & ->)]]];
  destruct (Bltb_inv _ _ Hbc) as [(Fb' & Fc & L2)|[(Fb' & ->)|[(E & Fc)|(E & ->)]]]; try discriminate;
    try (subst; discriminate).
  - apply Bltb_B2R; auto. lra.
  - destruct a as [[]| | |[]]; try discriminate; reflexivity.
  - destruct c as [[]| | |[]]; try discriminate; reflexivity.
  - reflexivity.
Qed.
Lemma BOps_irreflexive : lt_irreflexive (BOps Hp He).
Proof.
  intros a. cbn [flt BOps]. destruct (Bltb a a) eqn:E; auto. exfalso.
  destruct (Bltb_inv _ _ E) as [(Fa & Fb & L1)|[(Fa & ->)|[(-> & Fb)|(-> & H)]]]; try discriminate. lra.
Qed.
End B.

(** ** The search *)
Section Search.
Context {F : Type} (o : Ops F) (c : cfg).

Lemma increasing_prefix g x : lt_transitive o -> increasing_grid o g ->
  prefix_true (fun v => flt o v x) g.
Proof.
  intros T I i j a b Hij Ha Hb Hp. destruct (Nat.eq_dec i j) as [->|Hne]; [congruence|].
  apply (T a b x); auto. apply (I i j); auto. lia.
Qed.

Lemma filter_split A (p : A -> bool) l q : (q <= length l)%nat ->
  (forall j a, (j < q)%nat -> nth_error l j = Some a -> p a = true) ->
  (forall j a, (q <= j)%nat -> nth_error l j = Some a -> p a = false) ->
  length (filter p l) = q.
Proof.
  revert q. induction l as [|a l IH]; intros q Hq H1 H2; simpl in *; [lia|].
  destruct q as [|q].
  - rewrite (H2 0%nat a) by (auto; lia). apply IH; [lia|intros; lia|].
    intros j b _ Hb. apply (H2 (S j) b); auto. lia.
  - rewrite (H1 0%nat a) by (auto; lia). simpl. f_equal. apply IH; [lia| |].
    + intros j b Hj Hb. apply (H1 (S j) b); auto. lia.
    + intros j b Hj Hb. apply (H2 (S j) b); auto. lia.
Qed.

Lemma search_spec g x : prefix_true (fun v => flt o v x) g ->
  partition_point (fun v => flt o v x) g = Ok (count_below o x g) /\
  (forall j a, Z.of_nat j < count_below o x g -> nth_error g j = Some a -> flt o a x = true) /\
  (forall j a, count_below o x g <= Z.of_nat j -> nth_error g j = Some a -> flt o a x = false) /\
  0 <= count_below o x g <= zlen g.
Proof.
  intros P. destruct (partition_point_spec (fun v => flt o v x) g) as (q & E & Hq & H).
  destruct (H P) as (H1 & H2). assert (C := filter_split _ _ Hq H1 H2).
  unfold count_below, zlen. rewrite C. split; [exact E|]. split; [|split].
  - intros j a Hj. apply H1. lia.
  - intros j a Hj. apply H2. lia.
  - lia.
Qed.

Lemma search_comparisons g x : g <> [] ->
  exists k, partition_point_cnt (fun v => flt o v x) g = Ok (k, S (Nat.log2_up (length g))).
Proof.
  intros Hg. destruct (partition_point_cnt_spec (fun v => flt o v x) g) as (q & E & _).
  exists q. rewrite E. destruct g; [congruence|reflexivity].
Qed.

(** The clipped cell number. *)
Definition clipped_cell (x : F) (g : list F) : Z := Z.min (Z.max (count_below o x g - 1) 0) (zlen g - 2).

Lemma clipped_bracketing g x : prefix_true (fun v => flt o v x) g -> 2 <= zlen g ->
  bracketing_cell o x g (clipped_cell x g).
Proof.
  intros P Hg. destruct (@search_spec _ _ P) as (_ & H1 & H2 & R). unfold bracketing_cell, clipped_cell.
  split; [lia|]. split.
  - intros a Hi Ha. apply (H1 (Z.to_nat (Z.min (Z.max (count_below o x g - 1) 0) (zlen g - 2))) a); auto. lia.
  - intros b Hi Hb. apply (H2 (Z.to_nat (Z.min (Z.max (count_below o x g - 1) 0) (zlen g - 2) + 1)) b); auto. lia.
Qed.

Definition extrap_of (x : F) (g : list F) (e : extrap) : Prop :=
  match g with
  | [] => False
  | g0 :: _ => match e with
      | ExtrapLow => flt o x g0 = true
      | ExtrapHigh => flt o x g0 = false /\ flt o (last g g0) x = true
      | Inside => flt o x g0 = false /\ flt o (last g g0) x = false
      end
  end.

Lemma last_nth A (l : list A) d : last l d = nth (length l - 1) l d.
Proof.
  induction l as [|a l IH]; auto. destruct l as [|b l]; auto.
  change (last (a :: b :: l) d) with (last (b :: l) d). rewrite IH.
  replace (length (a :: b :: l) - 1)%nat with (S (length (b :: l) - 1)) by (simpl; lia). reflexivity.
Qed.

Lemma c1_index_spec g vals x : prefix_true (fun v => flt o v x) g -> 2 <= zlen g <= isize_max ->
  exists e, c1_index o c (mkC1 g vals) x = Ok (clipped_cell x g, e) /\ extrap_of x g e.
Proof.
  intros P Hg. destruct (@search_spec _ _ P) as (E & _ & _ & R).
  unfold c1_index. cbn [c1_grid]. rewrite E. cbn [bind].
  rewrite as_isize_small by lia.
  rewrite isize_sub_ok by (unfold isize_min, isize_max in *; lia). cbn [bind].
  rewrite usize_sub_ok by (unfold two64, isize_max in *; lia). cbn [bind].
  assert (Ei : Z.min (as_usize (Z.max (count_below o x g - 1) 0)) (zlen g - 2) = clipped_cell x g).
  { unfold clipped_cell, as_usize. rewrite Z.mod_small by (unfold two64, isize_max in *; lia). reflexivity. }
  rewrite Ei. destruct g as [|g0 g]; [unfold zlen in Hg; simpl in Hg; lia|].
  rewrite (@idx_nth _ _ 0 g0) by lia. cbn [bind]. change (nth (Z.to_nat 0) (g0 :: g) g0) with g0.
  unfold extrap_of. rewrite last_nth.
  destruct (flt o x g0) eqn:E0; [exists ExtrapLow; auto|].
  rewrite usize_sub_ok by (unfold two64, isize_max in *; lia). cbn [bind].
  rewrite (@idx_nth _ _ (zlen (g0 :: g) - 1) g0) by lia. cbn [bind].
  replace (Z.to_nat (zlen (g0 :: g) - 1)) with (length (g0 :: g) - 1)%nat by (unfold zlen; lia).
  destruct (flt o (nth (length (g0 :: g) - 1) (g0 :: g) g0) x) eqn:E1; [exists ExtrapHigh|exists Inside]; auto.
Qed.

Lemma rect_get_loc_spec (s : rectilinear F) x k g : nth_error (g_grids s) k = Some g ->
  nth_error (g_dims s) k = Some (zlen g) ->
  prefix_true (fun v => flt o v x) g -> 2 <= zlen g <= isize_max ->
  rect_get_loc o c s x k = Ok (clipped_cell x g).
Proof.
  intros Eg Ed P Hg. destruct (@search_spec _ _ P) as (E & _ & _ & R).
  unfold rect_get_loc. rewrite (aget_ok _ _ Eg). cbn [bind]. rewrite E. cbn [bind].
  rewrite as_isize_small by lia.
  rewrite isize_sub_ok by (unfold isize_min, isize_max in *; lia). cbn [bind].
  rewrite (aget_ok _ _ Ed). cbn [bind]. rewrite clip_loc_eq by lia. reflexivity.
Qed.

Lemma crect_get_loc_spec (s : rectilinear F) x k g : nth_error (g_grids s) k = Some g ->
  nth_error (g_dims s) k = Some (zlen g) ->
  prefix_true (fun v => flt o v x) g -> 4 <= zlen g <= isize_max ->
  crect_get_loc o c s x k
  = Ok (Z.min (Z.max (count_below o x g - 2) 0) (zlen g - 4),
        let n := count_below o x g in
        if n =? 0 then OutsideLow else if n =? 1 then InsideLow else if n =? zlen g then OutsideHigh
        else if n =? zlen g - 1 then InsideHigh else SatNone).
Proof.
  intros Eg Ed P Hg. destruct (@search_spec _ _ P) as (E & _ & _ & R).
  unfold crect_get_loc. rewrite (aget_ok _ _ Eg). cbn [bind]. rewrite E. cbn [bind].
  rewrite as_isize_small by lia.
  rewrite isize_sub_ok by (unfold isize_min, isize_max in *; lia). cbn [bind].
  rewrite (aget_ok _ _ Ed). cbn [bind]. rewrite clip_loc_eq by lia. rewrite as_isize_small by lia.
  rewrite !isize_sub_ok by (unfold isize_min, isize_max in *; lia). cbn [bind].
  set (n := count_below o x g) in *. cbv zeta.
  replace (n - 2 =? -2) with (n =? 0) by lia. destruct (n =? 0); auto.
  replace (n - 2 =? -1) with (n =? 1) by lia. destruct (n =? 1); auto.
  replace (n - 2 =? zlen g - 2) with (n =? zlen g) by lia. destruct (n =? zlen g); auto.
  replace (n - 2 =? zlen g - 3) with (n =? zlen g - 1) by lia. destruct (n =? zlen g - 1); auto.
Qed.
End Search.
