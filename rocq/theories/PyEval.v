(** Proofs about evaluations of Python objects (C105). *)
From Coq Require Import Reals Lra ZArith Lia List Bool PeanoNat String.
From Flocq Require Import Core.Core IEEE754.BinarySingleNaN.
From Verif Require Import Base Ops FInst ModelCore ModelLinear ModelNearest ModelCubic ModelPython ModelSerial Spec SpecCalls SpecPython SpecSerial SpecPyEval.
From Verif Require Import ModelLayout SpecLayout LayoutProofs GenProofs3 UtilProofs SerialProofs SerialProofs2 SerialProofs3 PropertiesCalls PropertiesPython PropertiesSerial PropertiesUtils.
Import ListNotations.
Unset Implicit Arguments.
Open Scope Z_scope.

Lemma sound_d d : differences_sound (ops d).
Proof. destruct d; [exact (C47_differences_ieee 24 128 Hp32 He32)|exact (C47_differences_ieee 53 1024 Hp64 He64)]. Qed.
Lemma usize_d d : usize_converts (ops d).
Proof. destruct d; intros n Hn; eexists; reflexivity. Qed.

Section Seen.
Context {d : dtype} (out : option (list (num d))) (out0 : list (num d)).
Context (Ho : forall b, out = Some b -> out0 = b).
Let answer (r : outcome unit * list (num d)) := (seen r, option_map (fun _ => typed d (snd r)) out).

Lemma seen_returns r : succeeds out0 r -> eval_returns (length out0) out (answer r).
Proof.
  destruct r as (s & data). intros (E & L). cbn [fst snd] in E, L. subst s. exists data. split; [exact L|reflexivity].
Qed.
Lemma seen_refuses r : refused out0 r -> eval_refuses out (answer r).
Proof using Ho.
  intros (e & ->). exists e. unfold answer. cbn [seen fst snd]. destruct out as [b|]; [|reflexivity].
  rewrite (Ho b eq_refl). reflexivity.
Qed.
Lemma seen_stops msg r : stopped msg out0 r -> eval_stops msg (length out0) out (answer r).
Proof.
  destruct r as (s & data). intros (E & L). cbn [fst snd] in E, L. subst s. exists data. split; [exact L|reflexivity].
Qed.
End Seen.

Lemma output_given {F} (o : Ops F) obs out out0 : output_array o obs out out0 -> forall b, out = Some b -> out0 = b.
Proof. intros H b ->. exact H. Qed.

Lemma sizes_map {F} k (grids : list (list F)) : Forall (fun n => k <= n) (map zlen grids) <-> Forall (fun g => k <= zlen g) grids.
Proof. rewrite Forall_map. reflexivity. Qed.

Lemma limits fam : match fam with Nearest => 6%nat | _ => 8%nat end = maxdims fam.
Proof. destruct fam; reflexivity. Qed.
Lemma object_valid_rect fam d grids vals lin obs m :
  rectilinear_object fam (RectModel (map (stored d) grids) (stored d vals) lin) ->
  (can_evaluate fam (map zlen grids) obs m <-> valid_rectilinear (ops d) (points_needed fam) (maxdims fam) grids vals obs m) /\
  (length grids <= maxdims fam)%nat.
Proof.
  intros H. apply C47_rectilinear_object in H. rewrite limits in H.
  destruct (C47_rectilinear_accepts _ _ _ _ _ (sound_d d) H) as (A & B & C).
  split; [|lia]. unfold can_evaluate, valid_rectilinear. rewrite map_length, sizes_map. split.
  - intros (E & F & G). repeat split; try assumption; try lia.
    rewrite Forall_forall in *. intros g Hg. specialize (G g Hg).
    assert (2 <= zlen g) by (destruct fam; cbn in G; lia).
    destruct g as [|a [|b g]]; [unfold zlen in *; cbn in *; lia|unfold zlen in *; cbn in *; lia|].
    exact (C _ 0%nat a b Hg eq_refl eq_refl).
  - intros (_ & E & F & _ & G & _). auto.
Qed.
Lemma object_valid_reg fam d dims starts steps vals lin obs m :
  regular_object fam (RegModel dims (stored d starts) (stored d steps) (stored d vals) lin) ->
  (can_evaluate fam dims obs m <-> valid_regular (ops d) (points_needed fam) (maxdims fam) dims starts steps vals obs m) /\
  (length dims <= maxdims fam)%nat /\ length starts = length dims /\ length steps = length dims.
Proof.
  intros H. apply C47_regular_object in H. rewrite limits in H.
  destruct (C47_regular_accepts _ _ _ _ _ _ _ H) as (A & B & C & D & E).
  split; [|repeat split; try assumption; lia]. unfold can_evaluate, valid_regular. split.
  - intros (F & G & K). repeat split; try assumption; lia.
  - intros (_ & _ & _ & F & G & _ & K & _). auto.
Qed.

Lemma flag_shape fam lin : has_fields fam lin = true -> match fam with Multicubic => exists b, lin = Some b | _ => lin = None end.
Proof. destruct fam, lin; cbn; intros H; try discriminate H; eauto. Qed.

Lemma eval_rectilinear c fam d grids vals lin obs out out0 :
  rectilinear_object fam (RectModel (map (stored d) grids) (stored d vals) lin) ->
  (length obs <= 8)%nat -> output_array (ops d) obs out out0 ->
  prefix_products_fit (map zlen grids) -> zlen vals <= isize_max ->
  (fam = Multicubic -> (length grids <= 4)%nat -> length obs = length grids) ->
  let call := rectilinear_eval c fam (RectModel (map (stored d) grids) (stored d vals) lin) (map (typed d) obs) (option_map (typed d) out) in
  (can_evaluate fam (map zlen grids) obs (length out0) -> eval_returns (length out0) out call) /\
  (~ can_evaluate fam (map zlen grids) obs (length out0) -> eval_refuses out call).
Proof.
  intros O L A P V K. pose proof (output_given _ _ _ _ A) as Ho.
  destruct (object_valid_rect fam d grids vals lin obs (length out0) O) as (E & N). cbv zeta. rewrite E.
  apply SerialProofs.rectilinear_object_made, SerialProofs.make_rectilinear_inv in O.
  destruct O as (_ & Hf & _). apply flag_shape in Hf. cbn [cm_lin] in Hf. clear E.
  destruct fam; cbn [maxdims points_needed] in *.
  - subst lin. rewrite (C49_linear_rectilinear c d obs out out0 L A grids vals N).
    destruct (C96_linear_rectilinear _ (ops d) c grids vals obs out0 P V) as (X & Y).
    split; intros Q; [apply seen_returns|apply (seen_refuses out out0 Ho)]; auto.
  - subst lin. rewrite (C49_nearest_rectilinear c d obs out out0 L A grids vals) by lia.
    destruct (C96_nearest_rectilinear _ (ops d) c grids vals obs out0 P V) as (X & Y).
    split; intros Q; [apply seen_returns|apply (seen_refuses out out0 Ho)]; auto.
  - destruct Hf as (b & ->). rewrite (C49_cubic_rectilinear c d obs out out0 L A grids vals b N).
    destruct (C96_cubic_rectilinear _ (ops d) c grids vals obs out0 b P V (K eq_refl)) as (X & Y).
    split; intros Q; [apply seen_returns|apply (seen_refuses out out0 Ho)]; auto.
Qed.

Lemma eval_regular c fam d dims starts steps vals lin obs out out0 :
  regular_object fam (RegModel dims (stored d starts) (stored d steps) (stored d vals) lin) ->
  (length obs <= 8)%nat -> output_array (ops d) obs out out0 ->
  Forall (fun k => 0 <= k) dims -> prefix_products_fit dims -> zlen vals <= isize_max ->
  (fam = Multicubic -> ovf_checks c = false \/ above_lowest (ops d) starts steps obs (length out0)) ->
  (fam = Multicubic -> (length dims <= 4)%nat -> length obs = length dims) ->
  let call := regular_eval c fam (RegModel dims (stored d starts) (stored d steps) (stored d vals) lin) (map (typed d) obs) (option_map (typed d) out) in
  (can_evaluate fam dims obs (length out0) ->
     (observations_fit (ops d) starts steps obs (length out0) -> eval_returns (length out0) out call) /\
     (~ observations_fit (ops d) starts steps obs (length out0) -> eval_stops "Unrepresentable coordinate value" (length out0) out call)) /\
  (~ can_evaluate fam dims obs (length out0) -> eval_refuses out call).
Proof.
  intros O L A Z P V W K. pose proof (output_given _ _ _ _ A) as Ho.
  destruct (object_valid_reg fam d dims starts steps vals lin obs (length out0) O) as (E & N & Ns & Nh). cbv zeta. rewrite E.
  apply SerialProofs.regular_object_made, SerialProofs.make_regular_inv in O.
  destruct O as (_ & Hf & _). apply flag_shape in Hf. cbn [rm_lin] in Hf. clear E.
  destruct fam; cbn [maxdims points_needed] in *.
  - subst lin. rewrite (C49_linear_regular c d obs out out0 L A dims starts steps vals Z).
    destruct (C96_linear_regular _ (ops d) c dims starts steps vals obs out0 (usize_d d) P V) as (X & Y).
    split; intros Q; [destruct (X Q) as (X1 & X2); split; intros R; [apply seen_returns|apply seen_stops]|apply (seen_refuses out out0 Ho)]; auto.
  - subst lin. rewrite (C49_nearest_regular c d obs out out0 L A dims starts steps vals Z).
    destruct (C96_nearest_regular _ (ops d) c dims starts steps vals obs out0 (usize_d d) P V) as (X & Y).
    split; intros Q; [destruct (X Q) as (X1 & X2); split; intros R; [apply seen_returns|apply seen_stops]|apply (seen_refuses out out0 Ho)]; auto.
  - destruct Hf as (b & ->). rewrite (C49_cubic_regular c d obs out out0 L A dims starts steps vals b Z).
    destruct (C96_cubic_regular _ (ops d) c dims starts steps vals obs out0 (usize_d d) P V b (W eq_refl)) as (X & Y).
    { intros Q. split; [exact Ns|]. split; [exact Nh|]. exact (K eq_refl Q). }
    split; intros Q; [destruct (X Q) as (X1 & X2); split; intros R; [apply seen_returns|apply seen_stops]|apply (seen_refuses out out0 Ho)]; auto.
Qed.

Lemma eval_nothing_regular c fam m : regular_eval c fam m [] None = (Raise IndexError, None).
Proof. reflexivity. Qed.
Lemma eval_nothing_rectilinear c fam m : rectilinear_eval c fam m [] None = (Raise IndexError, None).
Proof. reflexivity. Qed.
Lemma dims_negative dims : ~ Forall (fun k => 0 <= k) dims -> dims_ok dims = false.
Proof.
  intros H. destruct (dims_ok dims) eqn:E; [|reflexivity]. exfalso. apply H. unfold dims_ok in E. rewrite forallb_forall in E.
  apply Forall_forall. intros k Hk. apply Z.leb_le. exact (E k Hk).
Qed.
Lemma eval_negative c fam m obs out : ~ Forall (fun k => 0 <= k) (rm_dims m) -> obs <> [] \/ out <> None ->
  regular_eval c fam m obs out = (Raise OverflowError, out).
Proof.
  intros H N. unfold regular_eval, regular_call. rewrite (dims_negative _ H). cbn [negb].
  destruct out as [b|]; [reflexivity|]. destruct obs as [|x l]; [destruct N as [N|N]; destruct (N eq_refl)|reflexivity].
Qed.

(** ** check_bounds *)
Lemma empty_in {A} (l : list (list A)) : In [] l \/ ~ In [] l.
Proof.
  induction l as [|[|x a] l IH]; [right; intros []|left; left; reflexivity|].
  destruct IH as [H|H]; [left; right; exact H|right; intros [K|K]; [discriminate K|exact (H K)]].
Qed.
Lemma check_rectilinear fam d grids vals lin obs (atol : f64) :
  rectilinear_object fam (RectModel (map (stored d) grids) (stored d vals) lin) -> (length obs <= 8)%nat ->
  let call := rectilinear_check_bounds (RectModel (map (stored d) grids) (stored d vals) lin) (map (typed d) obs) atol in
  let can := length obs = length grids /\ ~ In [] grids in
  (can -> exists flags, call = Ret flags /\ length flags = length grids) /\
  (~ can -> call = Raise (AssertionError "Dimension mismatch")).
Proof.
  intros O L. destruct (object_valid_rect fam d grids vals lin obs 0 O) as (_ & N).
  unfold rectilinear_check_bounds. cbn [cm_grids cm_vals]. rewrite dtype_stored. cbv zeta. rewrite view_views_stored, views_typed.
  unfold class_check_bounds, raw_check_bounds_rectilinear.
  assert (U : unpack_ok grids && unpack_ok obs = true).
  { unfold unpack_ok. apply andb_true_intro. split; apply Nat.leb_le; [destruct fam; cbn in N; lia|exact L]. }
  change (@unpack_ok (list (elt (format_of d)))) with (@unpack_ok (list (num d))). rewrite U. cbn [negb]. split.
  - intros (E & G).
    destruct (@check_rect_any _ (ops d) grids obs (from_f64 (format_of d) atol) (repeat false (length grids)) (fzero (ops d))) as (flags & C & Lf & _).
    + apply Forall_forall. intros g Hg. destruct g; [destruct (G Hg)|cbn; lia].
    + exact E.
    + apply repeat_length.
    + exists flags. split; [|exact Lf].
      match goal with |- context [mlc_check_bounds ?a0 ?a1 ?a2 ?a3 ?a4] => replace (mlc_check_bounds a0 a1 a2 a3 a4) with (@Ok unit tt, flags) by (symmetry; exact C) end. reflexivity.
  - intros C. match goal with |- context [mlc_check_bounds ?a0 ?a1 ?a2 ?a3 ?a4] => replace (mlc_check_bounds a0 a1 a2 a3 a4) with (@Err unit msg_dim, a4); [reflexivity|] end.
    symmetry. apply C25_rectilinear_error.
    destruct (Nat.eq_dec (length obs) (length grids)) as [E|E]; [|left; exact E]. right. right.
    destruct (empty_in grids) as [I|I]; [exact I|]. destruct (C (conj E I)).
Qed.
(** ** When the bounds check of a regular grid returns *)
Lemma check_reg_returns {F} (o : Ops F) c dims starts steps obs atol out : usize_converts o ->
  Forall (fun k => 0 <= k < two64) dims -> length obs = length dims -> length out = length dims ->
  let call := mlr_check_bounds o c dims starts steps obs atol out in
  let can := (length dims <= length starts)%nat /\ (length dims <= length steps)%nat /\ (ovf_checks c = true -> ~ In 0 dims) in
  (can -> exists out', call = (Ok tt, out') /\ length out' = length dims) /\ (~ can -> fst call = Panic).
Proof.
  intros U G Lo Lu. cbv zeta. unfold mlr_check_bounds. rewrite Lo, Lu, Nat.eqb_refl. cbn [andb negb].
  match goal with |- context [batch_loop ?g _ _] => set (f := g) end.
  assert (Hf : forall i, (i < length dims)%nat -> (exists b, f i = Ok b) \/ f i = Panic /\
    ((length starts <= i)%nat \/ (length steps <= i)%nat \/ ovf_checks c = true /\ nth i dims 0 = 0)).
  { intros i Hi. unfold f. destruct (le_lt_dec (length starts) i) as [Hs|Hs].
    { right. split; [|left; exact Hs]. unfold aget at 1. rewrite (proj2 (nth_error_None starts i) Hs). reflexivity. }
    destruct (@CoreLemmas.aget_lt _ starts i Hs) as (s & ->). cbn [bind]. rewrite (@CoreLemmas.aget_nth _ dims i 0 Hi). cbn [bind].
    assert (B : 0 <= nth i dims 0 < two64) by (rewrite Forall_forall in G; apply G, nth_In, Hi).
    assert (D : (exists d1, usize_sub c (nth i dims 0) 1 = Ok d1 /\ 0 <= d1 < two64) \/
                (usize_sub c (nth i dims 0) 1 = Panic /\ ovf_checks c = true /\ nth i dims 0 = 0)).
    { unfold usize_sub, usize_res. destruct ((0 <=? nth i dims 0 - 1) && (nth i dims 0 - 1 <? two64)) eqn:E.
      - left. eexists. split; [reflexivity|]. lia.
      - destruct (ovf_checks c) eqn:O; [right; split; [reflexivity|]; split; [reflexivity|]; lia|].
        left. eexists. split; [reflexivity|]. apply Z.mod_pos_bound. reflexivity. }
    destruct D as [(d1 & -> & Bd)|(-> & O & Z0)]; cbn [bind]; [|right; split; [reflexivity|right; right; split; assumption]].
    destruct (U d1 Bd) as (v & ->). destruct (le_lt_dec (length steps) i) as [Ht|Ht].
    { right. split; [|right; left; exact Ht]. unfold aget at 1. rewrite (proj2 (nth_error_None steps i) Ht). reflexivity. }
    destruct (@CoreLemmas.aget_lt _ steps i Ht) as (st & ->). cbn [bind]. left. rewrite (@CoreLemmas.aget_nth _ obs i [] ltac:(lia)). cbn [bind]. eexists. reflexivity. }
  pose proof (@GenLemmas.batch_loop_spec _ false f (length dims) 0 out ltac:(lia)) as S. cbv beta zeta in S.
  destruct (batch_loop f (seq 0 (length dims)) out) as (res & out'). destruct S as (L & _ & S). split.
  - intros (C1 & C2 & C3). exists out'. split; [|lia]. destruct res as [[]|e|]; [reflexivity| |].
    + destruct S as (k & Hk & E & _). destruct (Hf k ltac:(lia)) as [(b & B)|(B & _)]; rewrite B in E; discriminate.
    + destruct S as (k & Hk & E & _). destruct (Hf k ltac:(lia)) as [(b & B)|(B & [H|[H|(H1 & H2)]])]; [rewrite B in E; discriminate|lia|lia|].
      destruct (C3 H1). rewrite <- H2. apply nth_In. lia.
  - intros N. destruct res as [[]|e|]; [exfalso; apply N| |reflexivity].
    + assert (A : forall i, (i < length dims)%nat -> exists b, f i = Ok b) by (intros i Hi; eexists; apply (S i); lia).
      split; [|split].
      * destruct (le_lt_dec (length dims) (length starts)) as [H|H]; [exact H|]. destruct (A _ H) as (b & B). unfold f in B.
        unfold aget at 1 in B. rewrite (proj2 (nth_error_None starts (length starts)) (Nat.le_refl _)) in B. discriminate B.
      * destruct (le_lt_dec (length dims) (length steps)) as [H|H]; [exact H|]. destruct (A _ H) as (b & B). exfalso.
        destruct (Hf _ H) as [_|(B' & _)]; [|rewrite B' in B; discriminate]. unfold f in B.
        destruct (aget starts (length steps)) as [s|e|]; [|discriminate..]. cbn [bind] in B.
        rewrite (@CoreLemmas.aget_nth _ dims (length steps) 0 H) in B. cbn [bind] in B.
        destruct (usize_sub c (nth (length steps) dims 0) 1) as [d1|e|] eqn:E1; [|discriminate..]. cbn [bind] in B.
        assert (Bd : 0 <= d1 < two64).
        { revert E1. unfold usize_sub, usize_res.
          destruct ((0 <=? nth (length steps) dims 0 - 1) && (nth (length steps) dims 0 - 1 <? two64)) eqn:E.
          - intros [= <-]. lia.
          - destruct (ovf_checks c); [discriminate|]. intros [= <-]. apply Z.mod_pos_bound. reflexivity. }
        destruct (U d1 Bd) as (v & V). rewrite V in B. unfold aget at 1 in B.
        rewrite (proj2 (nth_error_None steps (length steps)) (Nat.le_refl _)) in B. discriminate B.
      * intros O I. destruct (In_nth _ _ 0 I) as (i & Hi & Z0). destruct (A _ Hi) as (b & B). unfold f in B.
        destruct (aget starts i) as [s|e|]; [|discriminate..]. cbn [bind] in B. rewrite (@CoreLemmas.aget_nth _ dims i 0 Hi), Z0 in B.
        cbn [bind] in B. unfold usize_sub, usize_res in B. rewrite O in B. discriminate B.
    + destruct S as (k & Hk & E & _). destruct (Hf k ltac:(lia)) as [(b & B)|(B & _)]; rewrite B in E; discriminate.
Qed.

Lemma check_regular c fam d dims starts steps vals lin obs (atol : f64) :
  regular_object fam (RegModel dims (stored d starts) (stored d steps) (stored d vals) lin) -> (length obs <= 8)%nat ->
  Forall (fun k => 0 <= k < two64) dims ->
  let call := regular_check_bounds c (RegModel dims (stored d starts) (stored d steps) (stored d vals) lin) (map (typed d) obs) atol in
  (length obs = length dims -> (ovf_checks c = true -> ~ In 0 dims) -> exists flags, call = Ret flags /\ length flags = length dims) /\
  (length obs = length dims -> ovf_checks c = true -> In 0 dims -> call = Raise PanicException) /\
  (length obs <> length dims -> call = Raise (AssertionError "Dimension mismatch")).
Proof.
  intros O L G. destruct (object_valid_reg fam d dims starts steps vals lin obs 0 O) as (_ & _ & Ns & Nh).
  unfold regular_check_bounds. cbn [rm_dims rm_starts rm_steps rm_vals]. rewrite dtype_stored. cbv zeta.
  rewrite dims_nonneg by (eapply Forall_impl; [|exact G]; simpl; lia). cbn [negb]. rewrite !view_wrap, views_typed.
  unfold class_check_bounds, raw_check_bounds_regular.
  rewrite dims_nonneg by (eapply Forall_impl; [|exact G]; simpl; lia). cbn [negb].
  assert (U : @unpack_ok (list (num d)) obs = true) by (apply Nat.leb_le; exact L).
  change (@unpack_ok (list (elt (format_of d)))) with (@unpack_ok (list (num d))). rewrite U. cbn [negb].
  assert (R : length obs = length dims -> _) by (intros E; exact (@check_reg_returns _ (ops d) c dims starts steps obs (from_f64 (format_of d) atol) (repeat false (length dims)) (usize_d d) G E (repeat_length _ _))).
  cbv zeta in R. split; [|split].
  - intros E Z0. destruct (proj1 (R E)) as (flags & C & Lf); [rewrite Ns, Nh; repeat split; try lia; exact Z0|].
    exists flags. split; [|exact Lf].
    match goal with |- context [mlr_check_bounds ?a0 ?a1 ?a2 ?a3 ?a4 ?a5 ?a6 ?a7] => replace (mlr_check_bounds a0 a1 a2 a3 a4 a5 a6 a7) with (@Ok unit tt, flags) by (symmetry; exact C) end. reflexivity.
  - intros E V I. assert (P := proj2 (R E) (fun C => proj2 (proj2 C) V I)).
    match goal with |- context [mlr_check_bounds ?a0 ?a1 ?a2 ?a3 ?a4 ?a5 ?a6 ?a7] => change (fst (mlr_check_bounds a0 a1 a2 a3 a4 a5 a6 a7) = Panic) in P; destruct (mlr_check_bounds a0 a1 a2 a3 a4 a5 a6 a7) as (r & data) end.
    cbn [fst] in P. subst r. reflexivity.
  - intros E. match goal with |- context [mlr_check_bounds ?a0 ?a1 ?a2 ?a3 ?a4 ?a5 ?a6 ?a7] => replace (mlr_check_bounds a0 a1 a2 a3 a4 a5 a6 a7) with (@Err unit msg_dim, a7); [reflexivity|] end.
    symmetry. apply C25_regular_error. left. exact E.
Qed.

(** ** More than eight arrays *)
Lemma Forall2_firstn {A B} (P : A -> B -> Prop) n l m : Forall2 P l m -> Forall2 P (firstn n l) (firstn n m).
Proof.
  intros H. revert n. induction H as [|a b l m Hab H IH]; intros [|n]; cbn [firstn]; constructor; auto.
Qed.
Lemma forall2_length {A B} (P : A -> B -> Prop) l m : Forall2 P l m -> length l = length m.
Proof. induction 1; cbn; congruence. Qed.
Lemma many_layout {F} (o : Ops F) raw obs obs' : Forall2 holds obs obs' -> (8 < length obs)%nat ->
  (forall xs b, (8 < length xs)%nat -> fst (raw xs b) = Raise PanicException) ->
  (Forall (fun a => one_dim a = true) obs -> Forall (fun a => c_contiguous a = true) (firstn 9 obs) ->
     layout_eval o raw obs = Some (Raise PanicException)) /\
  (Exists (fun a => one_dim a = false) obs \/ Exists (fun a => c_contiguous a = false) (firstn 9 obs) ->
     layout_eval o raw obs = Some (Raise TypeError)).
Proof.
  intros H L R. destruct obs as [|a obs]; [cbn in L; lia|]. unfold layout_eval.
  pose proof (Forall2_firstn _ 9 _ _ H) as H9.
  destruct (forallb one_dim (a :: obs)) eqn:O; cbn [negb].
  - split.
    + intros O1 C. rewrite (slices_ok (firstn 9 (a :: obs)) _ H9).
      * assert (N : (8 < length (map nd_data (firstn 9 obs')))%nat).
        { rewrite map_length. rewrite <- (forall2_length _ _ _ H9). rewrite firstn_length. lia. }
        specialize (R _ (repeat (fzero o) (nprod (shape a))) N). destruct (raw _ _) as (r & data). cbn [fst] in R. subst r. reflexivity.
      * apply Forall_forall. intros x Hx. split; [|rewrite Forall_forall in C; exact (C x Hx)].
        rewrite Forall_forall in O1. apply O1. rewrite <- (firstn_skipn 9 (a :: obs)). apply in_or_app. left. exact Hx.
    + intros [E|E].
      * exfalso. rewrite forallb_forall in O. apply Exists_exists in E. destruct E as (x & Hx & E). rewrite (O x Hx) in E. discriminate E.
      * rewrite (slices_refused _ _ H9); [reflexivity|]. apply Exists_exists in E. destruct E as (x & Hx & E).
        apply Exists_exists. exists x. auto.
  - split; [|reflexivity]. intros O1 _. exfalso.
    assert (T : forallb one_dim (a :: obs) = true) by (apply forallb_forall; rewrite Forall_forall in O1; exact O1). congruence.
Qed.

Lemma unpack_many {A} (l : list A) : (8 < length l)%nat -> unpack_ok l = false.
Proof. intros H. apply Nat.leb_gt. exact H. Qed.
Lemma raw_many {F} (o : Ops F) c dims starts steps vals grids lin xs b : (8 < length xs)%nat -> Forall (fun k => 0 <= k) dims ->
  Forall (fun r => fst r = Raise PanicException)
    [raw_linear_regular o c dims starts steps vals xs b; raw_nearest_regular o c dims starts steps vals xs b;
     raw_cubic_regular o c dims starts steps vals lin xs b; raw_linear_rectilinear o c grids vals xs b;
     raw_nearest_rectilinear o c grids vals xs b; raw_cubic_rectilinear o c grids vals lin xs b].
Proof.
  intros L D. unfold raw_linear_regular, raw_nearest_regular, raw_cubic_regular, raw_linear_rectilinear, raw_nearest_rectilinear, raw_cubic_rectilinear.
  rewrite (unpack_many xs L), (dims_nonneg dims D), andb_false_r. cbn [negb].
  repeat (apply Forall_cons; [reflexivity|]). apply Forall_nil.
Qed.
Lemma zeros_typed d x : zeros_like (typed d x) = typed d (repeat (fzero (ops d)) (length x)).
Proof. destruct d; reflexivity. Qed.
Lemma view_typed_one d x : np_view (format_of d) (typed d x) = Some x.
Proof. destruct d; reflexivity. Qed.
Lemma out_typed d obs out : obs <> [] ->
  exists b, out_or_zeros (option_map (typed d) out) (map (typed d) obs) = Ret (typed d b).
Proof.
  intros N. destruct out as [b|]; [exists b; reflexivity|]. destruct obs as [|x obs]; [destruct (N eq_refl)|].
  exists (repeat (fzero (ops d)) (length x)). cbn [map out_or_zeros option_map py_get nth_error py_bind]. rewrite zeros_typed. reflexivity.
Qed.
Lemma eval_many_rectilinear c fam d grids vals lin (obs : list (list (num d))) (out : option (list (num d))) : (8 < length obs)%nat ->
  fst (rectilinear_eval c fam (RectModel (map (stored d) grids) (stored d vals) lin) (map (typed d) obs) (option_map (typed d) out)) = Raise PanicException.
Proof.
  intros L. unfold rectilinear_eval. destruct (out_typed d obs out) as (b & E); [intros ->; cbn in L; lia|]. rewrite E.
  unfold rectilinear_call. cbn [cm_vals cm_grids cm_lin]. rewrite dtype_stored.
  change (NpFloat (stored d vals)) with (typed d vals). rewrite map_map. change (map (fun x => NpFloat (stored d x)) grids) with (map (typed d) grids).
  rewrite !views_typed, !view_typed_one.
  pose proof (@raw_many _ (ops d) c [] [] [] vals grids (lin_flag lin) obs b L (Forall_nil _)) as R.
  assert (Q : fst (rectilinear_raw c (format_of d) fam (lin_flag lin) grids vals obs b) = Raise PanicException).
  { apply Forall_inv_tail, Forall_inv_tail, Forall_inv_tail in R. destruct fam; cbn [rectilinear_raw].
    - exact (Forall_inv R).
    - exact (Forall_inv (Forall_inv_tail R)).
    - exact (Forall_inv (Forall_inv_tail (Forall_inv_tail R))). }
  destruct (rectilinear_raw _ _ _ _ _ _ _ _) as (r & data). cbn [fst] in Q. subst r. reflexivity.
Qed.
Lemma eval_many_regular c fam d dims starts steps vals lin (obs : list (list (num d))) (out : option (list (num d))) : (8 < length obs)%nat ->
  Forall (fun k => 0 <= k) dims ->
  fst (regular_eval c fam (RegModel dims (stored d starts) (stored d steps) (stored d vals) lin) (map (typed d) obs) (option_map (typed d) out)) = Raise PanicException.
Proof.
  intros L D. unfold regular_eval. destruct (out_typed d obs out) as (b & E); [intros ->; cbn in L; lia|]. rewrite E.
  unfold regular_call. cbn [rm_dims rm_starts rm_steps rm_vals rm_lin]. rewrite dtype_stored, (dims_nonneg dims D). cbn [negb].
  change (NpFloat (stored d vals)) with (typed d vals). change (NpFloat (stored d starts)) with (typed d starts). change (NpFloat (stored d steps)) with (typed d steps).
  rewrite !views_typed, !view_typed_one.
  pose proof (@raw_many _ (ops d) c dims starts steps vals [] (lin_flag lin) obs b L D) as R.
  assert (Q : fst (regular_raw c (format_of d) fam (lin_flag lin) dims starts steps vals obs b) = Raise PanicException).
  { destruct fam; cbn [regular_raw].
    - exact (Forall_inv R).
    - exact (Forall_inv (Forall_inv_tail R)).
    - exact (Forall_inv (Forall_inv_tail (Forall_inv_tail R))). }
  destruct (regular_raw _ _ _ _ _ _ _ _ _ _) as (r & data). cbn [fst] in Q. subst r. reflexivity.
Qed.
