(** One-dimensional interpolators: which inputs the constructors accept, and panics. *)
From Coq Require Import Reals Lra ZArith Bool ZifyBool Psatz List.
From Flocq Require Import Core.Core IEEE754.BinarySingleNaN.
From Verif Require Import Base Ops FInst RInst ModelCore ModelOneDim Spec SpecTotal1D SpecCalls
  CoreLemmas SearchLemmas GenLemmas GenProofs3 OneDimProofs OneDimMore FLemmas FError.
Import ListNotations.
Unset Implicit Arguments.
Open Scope list_scope.
Open Scope Z_scope.

Section Any.
Context {F : Type} (o : Ops F) (c : cfg).

(** Every method is a function of what `at` returns. *)
Lemma method_ok at_ ev x s : method_1d o c at_ ev -> at_ x = Ok s -> exists r, ev x = Ok r.
Proof.
  intros M E; destruct M; unfold linear1, hold_last1, left1, right1, nearest1; rewrite E; cbn [bind]; eexists; reflexivity.
Qed.
Lemma method_err at_ ev x e : method_1d o c at_ ev -> at_ x = Err e -> ev x = Err e.
Proof. intros M E; destruct M; unfold linear1, hold_last1, left1, right1, nearest1; rewrite E; reflexivity. Qed.
Lemma method_panic at_ ev x : method_1d o c at_ ev -> at_ x = Panic -> ev x = Panic.
Proof. intros M E; destruct M; unfold linear1, hold_last1, left1, right1, nearest1; rewrite E; reflexivity. Qed.

Theorem c1_new_exact (grid vals : list F) :
  (length grid = length vals /\ (2 <= length grid)%nat -> c1_new grid vals = Ok (mkC1 grid vals)) /\
  (~ (length grid = length vals /\ (2 <= length grid)%nat) -> c1_new grid vals = Err msg_len).
Proof.
  unfold c1_new. destruct (negb _ || _) eqn:E; split; intros H; auto; exfalso; [lia|apply H; lia].
Qed.

Lemma c1_at_total (grid vals : list F) g x : zlen vals <= isize_max -> c1_new grid vals = Ok g ->
  exists s, c1_at o c g x = Ok s.
Proof.
  intros Hn Hg. apply c1_new_inv in Hg as (-> & El & Hl).
  assert (Ez : zlen grid = zlen vals) by (unfold zlen; lia).
  assert (Hz : 2 <= zlen grid) by (unfold zlen; lia).
  destruct (partition_point_spec (fun v => flt o v x) grid) as (q & E & Hq & _).
  destruct grid as [|g0 grid']; [simpl in Hl; lia|]. destruct vals as [|v0 vals']; [simpl in El; lia|].
  set (grid := g0 :: grid') in *. set (vals := v0 :: vals') in *.
  unfold c1_at, c1_index. cbn [c1_grid c1_vals]. rewrite E. cbn [bind].
  assert (Hq' : 0 <= Z.of_nat q <= zlen grid) by (unfold zlen; lia).
  rewrite as_isize_small by lia.
  unfold isize_sub, isize_res. replace (_ && _) with true by (unfold isize_min, isize_max in *; lia). cbn [bind].
  rewrite !usize_sub_ok by (unfold two64, isize_max in *; lia). cbn [bind].
  set (i := Z.min (as_usize (Z.max (Z.of_nat q - 1) 0)) (zlen grid - 2)).
  assert (Hi : 0 <= i <= zlen grid - 2).
  { unfold i, as_usize. rewrite Z.mod_small by (unfold two64, isize_max in *; lia). lia. }
  rewrite (@idx_nth _ grid 0 g0) by lia. cbn [bind].
  rewrite (@idx_nth _ grid (zlen grid - 1) g0) by lia. cbn [bind].
  assert (K : forall e, exists s, (do x0 <- idx grid i; do i1 <- usize_add c i 1; do x1 <- idx grid i1;
     do y0 <- idx vals i; do y1 <- idx vals i1; Ok (mkSample x0 y0 x1 y1 e)) = Ok s).
  { intros e. rewrite (@idx_nth _ grid i g0) by lia. cbn [bind].
    rewrite usize_add_ok by (unfold two64, isize_max in *; lia). cbn [bind].
    rewrite (@idx_nth _ grid (i + 1) g0) by lia. cbn [bind].
    rewrite (@idx_nth _ vals i v0) by lia. cbn [bind].
    rewrite (@idx_nth _ vals (i + 1) v0) by lia. cbn [bind]. eexists. reflexivity. }
  destruct (flt o x _); [exact (K ExtrapLow)|]. destruct (flt o _ x); [exact (K ExtrapHigh)|exact (K Inside)].
Qed.

Theorem rectilinear_total (grid vals : list F) g ev x : zlen vals <= isize_max -> c1_new grid vals = Ok g ->
  method_1d o c (c1_at o c g) ev -> exists r, ev x = Ok r.
Proof. intros Hn Hg M. destruct (c1_at_total grid vals g x Hn Hg) as (s & E). eapply method_ok; eauto. Qed.

Lemma r1_new_inv start step (vals : list F) g : r1_new o c start step vals = Ok g ->
  r1_vals g = vals /\ r1_start g = start /\ r1_step g = step.
Proof.
  unfold r1_new. intros H. apply bind_ok in H as (m & _ & H). apply bind_ok in H as (mf & _ & H). inversion H. auto.
Qed.

(** The cell number of an observation, as computed. *)
Definition cell_number start step x := to_isize o (ffloor o (fdiv o (fsub o x start) step)).

Lemma r1_at_err start step (vals : list F) g x : r1_new o c start step vals = Ok g ->
  cell_number start step x = None -> r1_at o c g x = Err msg_num.
Proof.
  intros Hg E. apply r1_new_inv in Hg as (Ev & Es & Et). unfold r1_at, r1_index. rewrite Es, Et.
  unfold cell_number in E. rewrite E. reflexivity.
Qed.
Lemma r1_at_total start step (vals : list F) g x i : 2 <= zlen vals <= isize_max -> r1_new o c start step vals = Ok g ->
  cell_number start step x = Some i -> (forall n, of_usize o n <> None) -> exists s, r1_at o c g x = Ok s.
Proof.
  intros Hn Hg E N. apply r1_new_inv in Hg as (Ev & Es & Et). unfold r1_at, r1_index. rewrite Es, Et, Ev.
  unfold cell_number in E. rewrite E. cbn [ok_or bind].
  rewrite usize_sub_ok by (unfold two64, isize_max in *; lia). cbn [bind]. rewrite as_isize_small by lia.
  set (j := Z.min (Z.max i 0) (zlen vals - 2)). assert (Hj : 0 <= j <= zlen vals - 2) by lia.
  replace (as_usize j) with j by (unfold as_usize; rewrite Z.mod_small; unfold two64, isize_max in *; lia).
  destruct (of_usize o j) as [fj|] eqn:Ej; [|elim (N j Ej)]. cbn [ok_or bind].
  destruct vals as [|v0 vals']; [unfold zlen in Hn; simpl in Hn; lia|]. set (vals := v0 :: vals') in *.
  rewrite (@idx_nth _ vals j v0) by lia. cbn [bind].
  rewrite usize_add_ok by (unfold two64, isize_max in *; lia). cbn [bind].
  rewrite (@idx_nth _ vals (j + 1) v0) by lia. cbn [bind]. eexists. reflexivity.
Qed.
Theorem regular_total start step (vals : list F) g ev x : 2 <= zlen vals <= isize_max -> r1_new o c start step vals = Ok g ->
  method_1d o c (r1_at o c g) ev -> (exists r, ev x = Ok r) \/ ev x = Err msg_num.
Proof.
  intros Hn Hg M. assert (Hg' := Hg). apply r1_new_inv in Hg as (Ev & Es & Et).
  assert (A : (exists s, r1_at o c g x = Ok s) \/ r1_at o c g x = Err msg_num).
  { unfold r1_at, r1_index. rewrite Es, Et, Ev.
    destruct (to_isize o _) as [i|]; [|right; reflexivity]. cbn [ok_or bind].
    rewrite usize_sub_ok by (unfold two64, isize_max in *; lia). cbn [bind]. rewrite as_isize_small by lia.
    set (j := Z.min (Z.max i 0) (zlen vals - 2)). assert (Hj : 0 <= j <= zlen vals - 2) by lia.
    replace (as_usize j) with j by (unfold as_usize; rewrite Z.mod_small; unfold two64, isize_max in *; lia).
    destruct (of_usize o j) as [fj|]; [|right; reflexivity]. cbn [ok_or bind].
    destruct vals as [|v0 vals']; [unfold zlen in Hn; simpl in Hn; lia|]. set (vals := v0 :: vals') in *.
    rewrite (@idx_nth _ vals j v0) by lia. cbn [bind].
    rewrite usize_add_ok by (unfold two64, isize_max in *; lia). cbn [bind].
    rewrite (@idx_nth _ vals (j + 1) v0) by lia. cbn [bind]. left. eexists. reflexivity. }
  destruct A as [(s & A)|A]; [left; eapply method_ok; eauto|right; eapply method_err; eauto].
Qed.

Lemma r1_at_short start step (vals : list F) g x i : zlen vals < 2 -> r1_new o c start step vals = Ok g ->
  cell_number start step x = Some i -> (forall n, of_usize o n <> None) -> r1_at o c g x = Panic.
Proof.
  intros Hn Hg E N. apply r1_new_inv in Hg as (Ev & Es & Et). unfold r1_at, r1_index. rewrite Es, Et, Ev.
  unfold cell_number in E. rewrite E. cbn [ok_or bind].
  assert (H0 : 0 <= zlen vals) by (unfold zlen; lia).
  unfold usize_sub, usize_res. replace (_ && _) with false by lia.
  destruct (ovf_checks c); [reflexivity|]. cbn [bind].
  replace ((zlen vals - 2) mod two64) with (zlen vals - 2 + two64)
    by (rewrite <- (Z_mod_plus_full _ 1), Z.mod_small; unfold two64; lia).
  unfold as_isize. replace (_ <=? _) with false by (unfold two64, isize_max; lia).
  replace (zlen vals - 2 + two64 - two64) with (zlen vals - 2) by lia.
  replace (Z.min (Z.max i 0) (zlen vals - 2)) with (zlen vals - 2) by lia.
  destruct (of_usize o _) as [fj|] eqn:Ej; [|elim (N _ Ej)]. cbn [ok_or bind].
  unfold idx at 1. unfold as_usize.
  replace ((zlen vals - 2) mod two64) with (zlen vals - 2 + two64)
    by (rewrite <- (Z_mod_plus_full _ 1), Z.mod_small; unfold two64; lia).
  replace (_ && _) with false by (unfold two64; lia). reflexivity.
Qed.

(** A batch panics only if one of its points does. *)
Theorem batch_1d (one : F -> outcome F) locs out :
  (forall x, In x locs -> one x <> Panic) -> fst (eval1 one locs out) <> Panic /\ eval1_alloc o one locs <> Panic.
Proof.
  intros H.
  assert (K : forall out, fst (eval1 one locs out) <> Panic).
  { clear out. intros out. destruct (Nat.eq_dec (length locs) (length out)) as [E|E].
    - assert (B := @eval1_spec _ (fzero o) one locs out E). destruct B as (_ & B).
      destruct (fst (eval1 one locs out)); try discriminate.
      destruct B as (i & Hi & B & _). simpl in B. intros _. apply (H (nth i locs (fzero o))); [apply nth_In; lia|exact B].
    - rewrite (@eval1_mismatch _ one locs out E). discriminate. }
  split; [apply K|]. unfold eval1_alloc, alloc_result. specialize (K (repeat (fzero o) (length locs))).
  destruct (fst (eval1 _ _ _)); try discriminate. congruence.
Qed.
End Any.

Section IEEE.
Variables prec emax : Z.
Context (Hp : Prec_gt_0 prec) (He : Prec_lt_emax prec emax).
Notation fl := (binary_float prec emax).
Notation o := (BOps Hp He).

Lemma cell_some (start step x : fl) : steps_fit Hp He start step x -> exists i, cell_number o start step x = Some i.
Proof.
  intros (Fq & R). eexists. unfold cell_number. apply (to_isize_fits prec emax Hp He); [exact Fq|exact R].
Qed.
Lemma cell_fits (start step x : fl) i : cell_number o start step x = Some i -> steps_fit Hp He start step x.
Proof.
  intros E. apply to_isize_floor in E as (Fq & Ei & R). split; [exact Fq|].
  change (fdiv o (fsub o x start) step) with (Bdiv mode_NE (Bminus mode_NE x start) step) in *.
  set (q := Bdiv _ _ _) in *. unfold isize_min, isize_max in R. split.
  - rewrite <- opp_IZR. eapply Rle_trans; [|apply Zfloor_lb]. apply IZR_le. rewrite <- Ei. lia.
  - eapply Rlt_le_trans; [apply Zfloor_ub|]. rewrite <- plus_IZR. apply IZR_le. rewrite <- Ei. lia.
Qed.
Theorem whole_steps_ieee (start step x : fl) : whole_steps o start step x <> None <-> steps_fit Hp He start step x.
Proof.
  change (whole_steps o start step x) with (cell_number o start step x). split.
  - destruct (cell_number o start step x) as [i|] eqn:E; [|congruence]. intros _. eapply cell_fits; eauto.
  - intros H. destruct (cell_some _ _ _ H) as (i & ->). discriminate.
Qed.
Lemma of_usize_some : forall n, of_usize o n <> None.
Proof. intros n. discriminate. Qed.

Theorem r1_new_ieee c (start step : fl) vals :
  (vals <> [] -> zlen vals <= isize_max -> exists g, r1_new o c start step vals = Ok g) /\
  (vals = [] -> if ovf_checks c then r1_new o c start step vals = Panic else exists g, r1_new o c start step vals = Ok g).
Proof.
  split.
  - intros Hv Hn. unfold r1_new. rewrite usize_sub_ok; [cbn [bind ok_or of_usize BOps]; eexists; reflexivity|].
    destruct vals; [congruence|]. unfold zlen, two64, isize_max in *. simpl length in *. lia.
  - intros ->. unfold r1_new, usize_sub, usize_res. change (zlen (@nil fl)) with 0. cbn [Z.sub Z.leb andb].
    destruct (ovf_checks c); simpl; [reflexivity|]. eexists. reflexivity.
Qed.
Theorem regular_ieee c (start step : fl) vals g ev x : 2 <= zlen vals <= isize_max -> r1_new o c start step vals = Ok g ->
  method_1d o c (r1_at o c g) ev ->
  (steps_fit Hp He start step x -> exists r, ev x = Ok r) /\ (~ steps_fit Hp He start step x -> ev x = Err msg_num).
Proof.
  intros Hn Hg M. split; intros S.
  - destruct (cell_some _ _ _ S) as (i & E).
    destruct (r1_at_total o c start step vals g x i Hn Hg E of_usize_some) as (s & A). eapply method_ok; eauto.
  - destruct (cell_number o start step x) as [i|] eqn:E; [elim S; eapply cell_fits; eauto|].
    eapply method_err; [exact M|]. eapply r1_at_err; eauto.
Qed.
Theorem regular_short c (start step : fl) vals g ev x : zlen vals < 2 -> r1_new o c start step vals = Ok g ->
  method_1d o c (r1_at o c g) ev -> steps_fit Hp He start step x -> ev x = Panic.
Proof.
  intros Hn Hg M S. destruct (cell_some _ _ _ S) as (i & E). eapply method_panic; [exact M|].
  exact (r1_at_short o c start step vals g x i Hn Hg E of_usize_some).
Qed.
End IEEE.
