(** The nearest and step interpolators never compute with the values. *)
From Coq Require Import PeanoNat Bool ZifyNat ZifyBool.
From Verif Require Import Base Ops ModelCore ModelLinear ModelNearest ModelOneDim ModelPython Spec CoreLemmas GenLemmas SpecRelabel.
Unset Implicit Arguments.
Open Scope Z_scope.

Lemma relabel_idx A B (g : A -> B) l i : idx (map g l) i = relabel g (idx l i).
Proof. unfold idx, zlen. rewrite map_length. destruct ((0 <=? i) && (i <? Z.of_nat (length l))); [|reflexivity]. unfold aget. rewrite nth_error_map. destruct (nth_error l (Z.to_nat i)); reflexivity. Qed.
Lemma relabel_upd A B (g : A -> B) l i v : upd (map g l) i (g v) = map g (upd l i v).
Proof. revert i. induction l as [|a l IH]; intros [|i]; simpl; auto. rewrite IH. reflexivity. Qed.
Lemma relabel_bind A B C (g : B -> C) (m : outcome A) (f : A -> outcome B) (f' : A -> outcome C) :
  (forall a, f' a = relabel g (f a)) -> bind m f' = relabel g (bind m f).
Proof. intros H. destruct m; simpl; auto. Qed.
Lemma relabel_index A B (g : A -> B) c loc dimprod l : index_arr c loc dimprod (map g l) = relabel g (index_arr c loc dimprod l).
Proof. unfold index_arr. apply relabel_bind. intros i. apply relabel_idx. Qed.

Lemma relabel_loop A B (g : A -> B) (f : nat -> outcome A) (f' : nat -> outcome B) is out : (forall i, f' i = relabel g (f i)) ->
  batch_loop f' is (map g out) = relabel_array g (batch_loop f is out).
Proof.
  intros H. revert out. induction is as [|i is IH]; intros out; simpl; auto. rewrite H. destruct (f i); simpl; auto.
  rewrite relabel_upd. apply IH.
Qed.
(** A loop that succeeds leaves nothing of the array it was given. *)
Lemma loop_same A (f : nat -> outcome A) out out' : length out = length out' ->
  alloc_result (batch_loop f (seq 0 (length out)) out) = alloc_result (batch_loop f (seq 0 (length out)) out').
Proof.
  intros L. destruct out as [|d out0]; [destruct out'; [reflexivity|discriminate]|]. set (out := d :: out0) in *.
  assert (S := @batch_loop_spec A d f (length out) 0 out eq_refl). assert (S' := @batch_loop_spec A d f (length out) 0 out' L).
  assert (E : fst (batch_loop f (seq 0 (length out)) out) = fst (batch_loop f (seq 0 (length out)) out')).
  { generalize (seq 0 (length out)). clear S S'. clearbody out. intros is. revert out out' L.
    induction is as [|i is IH]; intros out out' L; simpl; auto. destruct (f i); auto. apply IH. rewrite !upd_length. exact L. }
  destruct (batch_loop f (seq 0 (length out)) out) as [r l]. destruct (batch_loop f (seq 0 (length out)) out') as [r' l'].
  simpl in E. subst r'. unfold alloc_result. simpl. destruct r as [u| |]; auto. f_equal.
  destruct S as (L1 & _ & H1). destruct S' as (L2 & _ & H2). apply (nth_ext _ _ d d); [lia|].
  intros j Hj. assert (Q : Ok (nth j l d) = Ok (nth j l' d)) by (rewrite <- H1, <- H2 by lia; reflexivity). congruence.
Qed.

Section G.
Context {F : Type} (o : Ops F) (c : cfg) (g : F -> F).

Lemma gather_batch n one one' x out : (forall p, one' p = relabel g (one p)) ->
  interp_batch n one' x (map g out) = relabel_array g (interp_batch n one x out).
Proof.
  intros H. unfold interp_batch. rewrite map_length. destruct (negb _); [reflexivity|]. destruct (negb _); [reflexivity|].
  apply relabel_loop. intros i. apply relabel_bind. exact H.
Qed.
Lemma batch_same n one x (out out' : list F) : length out = length out' ->
  alloc_result (interp_batch n one x out) = alloc_result (interp_batch n one x out').
Proof.
  intros L. unfold interp_batch. rewrite <- L. destruct (negb _); [reflexivity|]. destruct (negb _); [reflexivity|]. apply loop_same; auto.
Qed.
Lemma alloc_relabel (r : outcome unit * list F) : alloc_result (relabel_array g r) = relabel (map g) (alloc_result r).
Proof. destruct r as [[]]; reflexivity. Qed.

(** ** Regular grids *)
Definition relabel_reg (s : regular F) : regular F := mkRegular (r_dims s) (r_starts s) (r_steps s) (map g (r_vals s)).
Lemma nr_new_relabel dims starts steps vals : nr_new o c dims starts steps (map g vals) = relabel relabel_reg (nr_new o c dims starts steps vals).
Proof.
  unfold nr_new, mlr_new. apply relabel_bind. intros n. unfold zlen. rewrite map_length.
  destruct (negb _); [reflexivity|]. destruct (existsb _ _); [reflexivity|]. destruct (negb _); reflexivity.
Qed.
Lemma nr_one_relabel s x : nr_interp_one o c (relabel_reg s) x = relabel g (nr_interp_one o c s x).
Proof.
  unfold nr_interp_one. cbn [relabel_reg r_dims r_vals]. change (reg_get_loc o (relabel_reg s)) with (reg_get_loc o s).
  change (reg_dt o (use_fma c) (relabel_reg s)) with (reg_dt o (use_fma c) s).
  apply relabel_bind. intros (dimprod & loc). apply relabel_index.
Qed.
Lemma nr_interpn_relabel dims starts steps vals obs out :
  nr_interpn o c dims starts steps (map g vals) obs (map g out) = relabel_array g (nr_interpn o c dims starts steps vals obs out).
Proof.
  unfold nr_interpn. destruct (_ || _); [reflexivity|]. destruct (_ && _); [|reflexivity]. unfold and_then at 1 3.
  destruct (try_into_unwrap (length dims) dims) as [d| |]; [|reflexivity|reflexivity].
  destruct (try_into_unwrap (length dims) starts) as [st| |]; [|reflexivity|reflexivity].
  destruct (try_into_unwrap (length dims) steps) as [sp| |]; [|reflexivity|reflexivity].
  cbn [bind]. rewrite nr_new_relabel. destruct (nr_new o c d st sp vals) as [s| |]; [|reflexivity|reflexivity].
  cbn [relabel]. destruct (try_into_unwrap (length dims) obs) as [ob| |]; [|reflexivity|reflexivity]. cbn [and_then].
  unfold nr_interp. apply gather_batch. intros p. apply nr_one_relabel.
Qed.
Lemma nr_interpn_same dims starts steps vals obs out out' : length out = length out' ->
  alloc_result (nr_interpn o c dims starts steps vals obs out) = alloc_result (nr_interpn o c dims starts steps vals obs out').
Proof.
  intros L. unfold nr_interpn. destruct (_ || _); [reflexivity|]. destruct (_ && _); [|reflexivity]. unfold and_then.
  destruct (bind _ _) as [s| |]; [|reflexivity|reflexivity]. destruct (try_into_unwrap (length dims) obs) as [ob| |]; [|reflexivity|reflexivity].
  apply batch_same; auto.
Qed.
Lemma nr_alloc_relabel dims starts steps vals obs :
  nr_interpn_alloc o c dims starts steps (map g vals) obs = relabel (map g) (nr_interpn_alloc o c dims starts steps vals obs).
Proof.
  unfold nr_interpn_alloc. apply relabel_bind. intros out. rewrite <- alloc_relabel, <- nr_interpn_relabel.
  apply nr_interpn_same. rewrite map_length. reflexivity.
Qed.

(** ** Rectilinear grids *)
Definition relabel_rect (s : rectilinear F) : rectilinear F := mkRect (g_grids s) (g_dims s) (map g (g_vals s)).
Lemma nc_new_relabel grids vals : nc_new o c grids (map g vals) = relabel relabel_rect (nc_new o c grids vals).
Proof.
  unfold nc_new, mlc_new. apply relabel_bind. intros n. unfold zlen at 1 3. rewrite map_length.
  destruct (negb _); [reflexivity|]. destruct (existsb _ _); [reflexivity|]. apply relabel_bind. intros b. destruct (negb _); reflexivity.
Qed.
Lemma nc_one_relabel s x : nc_interp_one o c (relabel_rect s) x = relabel g (nc_interp_one o c s x).
Proof.
  unfold nc_interp_one. cbn [relabel_rect g_dims g_vals]. change (rect_get_loc o c (relabel_rect s)) with (rect_get_loc o c s).
  change (rect_dt o c (relabel_rect s)) with (rect_dt o c s).
  apply relabel_bind. intros (dimprod & loc). apply relabel_index.
Qed.
Lemma nc_interpn_relabel grids vals obs out :
  nc_interpn o c grids (map g vals) obs (map g out) = relabel_array g (nc_interpn o c grids vals obs out).
Proof.
  unfold nc_interpn. destruct (negb _); [reflexivity|]. destruct (_ && _); [|reflexivity]. unfold and_then at 1 3.
  destruct (try_into_unwrap (length grids) grids) as [d| |]; [|reflexivity|reflexivity].
  cbn [bind]. rewrite nc_new_relabel. destruct (nc_new o c d vals) as [s| |]; [|reflexivity|reflexivity].
  cbn [relabel]. destruct (try_into_unwrap (length grids) obs) as [ob| |]; [|reflexivity|reflexivity]. cbn [and_then].
  unfold nc_interp. apply gather_batch. intros p. apply nc_one_relabel.
Qed.
Lemma nc_interpn_same grids vals obs out out' : length out = length out' ->
  alloc_result (nc_interpn o c grids vals obs out) = alloc_result (nc_interpn o c grids vals obs out').
Proof.
  intros L. unfold nc_interpn. destruct (negb _); [reflexivity|]. destruct (_ && _); [|reflexivity]. unfold and_then.
  destruct (bind _ _) as [s| |]; [|reflexivity|reflexivity]. destruct (try_into_unwrap (length grids) obs) as [ob| |]; [|reflexivity|reflexivity].
  apply batch_same; auto.
Qed.
Lemma nc_alloc_relabel grids vals obs :
  nc_interpn_alloc o c grids (map g vals) obs = relabel (map g) (nc_interpn_alloc o c grids vals obs).
Proof.
  unfold nc_interpn_alloc. apply relabel_bind. intros out. rewrite <- alloc_relabel, <- nc_interpn_relabel.
  apply nc_interpn_same. rewrite map_length. reflexivity.
Qed.

(** ** One dimension *)
Definition relabel_sample (s : grid_sample F) : grid_sample F := mkSample (sx0 s) (g (sy0 s)) (sx1 s) (g (sy1 s)) (sextrap s).
Definition relabel_r1 (s : regular1 F) : regular1 F := mkR1 (r1_start s) (r1_stop s) (r1_step s) (map g (r1_vals s)).
Definition relabel_c1 (s : rect1 F) : rect1 F := mkC1 (c1_grid s) (map g (c1_vals s)).
Lemma r1_new_relabel start step vals : r1_new o c start step (map g vals) = relabel relabel_r1 (r1_new o c start step vals).
Proof. unfold r1_new, zlen. rewrite map_length. apply relabel_bind. intros m. apply relabel_bind. reflexivity. Qed.
Lemma r1_at_relabel s loc : r1_at o c (relabel_r1 s) loc = relabel relabel_sample (r1_at o c s loc).
Proof.
  unfold r1_at. replace (r1_index o c (relabel_r1 s) loc) with (r1_index o c s loc)
    by (unfold r1_index, zlen; cbn [relabel_r1 r1_vals r1_start r1_step r1_stop]; rewrite map_length; reflexivity).
  apply relabel_bind. intros (i & ex). apply relabel_bind. intros fi. cbn [relabel_r1 r1_vals r1_start r1_step].
  rewrite relabel_idx. destruct (idx (r1_vals s) i); [|reflexivity|reflexivity]. cbn [relabel bind].
  apply relabel_bind. intros i1. rewrite relabel_idx. destruct (idx (r1_vals s) i1); reflexivity.
Qed.
Lemma c1_new_relabel grid vals : c1_new grid (map g vals) = relabel relabel_c1 (c1_new grid vals).
Proof. unfold c1_new. rewrite map_length. destruct (_ || _); reflexivity. Qed.
Lemma c1_at_relabel s loc : c1_at o c (relabel_c1 s) loc = relabel relabel_sample (c1_at o c s loc).
Proof.
  unfold c1_at. change (c1_index o c (relabel_c1 s) loc) with (c1_index o c s loc).
  apply relabel_bind. intros (i & ex). cbn [relabel_c1 c1_vals c1_grid]. apply relabel_bind. intros x0.
  apply relabel_bind. intros i1. apply relabel_bind. intros x1.
  rewrite relabel_idx. destruct (idx (c1_vals s) i); [|reflexivity|reflexivity]. cbn [relabel bind].
  rewrite relabel_idx. destruct (idx (c1_vals s) i1); reflexivity.
Qed.
Section Steps.
Variables at_ at' : F -> outcome (grid_sample F).
Hypothesis Hat : forall loc, at' loc = relabel relabel_sample (at_ loc).
Lemma left1_relabel loc : left1 at' loc = relabel g (left1 at_ loc).
Proof using Hat. unfold left1. rewrite Hat. destruct (at_ loc) as [s| |]; simpl; auto. destruct (sextrap s); reflexivity. Qed.
Lemma right1_relabel loc : right1 at' loc = relabel g (right1 at_ loc).
Proof using Hat. unfold right1. rewrite Hat. destruct (at_ loc) as [s| |]; simpl; auto. destruct (sextrap s); reflexivity. Qed.
Lemma nearest1_relabel loc : nearest1 o at' loc = relabel g (nearest1 o at_ loc).
Proof using Hat. unfold nearest1. rewrite Hat. destruct (at_ loc) as [s| |]; simpl; auto. destruct (fle _ _ _); reflexivity. Qed.
End Steps.
Lemma eval1_relabel one one' locs out : (forall p, one' p = relabel g (one p)) ->
  eval1 one' locs (map g out) = relabel_array g (eval1 one locs out).
Proof.
  intros H. unfold eval1. rewrite map_length. destruct (negb _); [reflexivity|].
  apply relabel_loop. intros i. apply relabel_bind. exact H.
Qed.
Lemma eval1_same one locs (out out' : list F) : length out = length out' -> alloc_result (eval1 one locs out) = alloc_result (eval1 one locs out').
Proof.
  intros L. unfold eval1. rewrite <- L. destruct (Nat.eqb_spec (length locs) (length out)) as [E|]; [|reflexivity]. simpl. rewrite E.
  apply loop_same; auto.
Qed.
Lemma eval1_alloc_relabel one one' locs : (forall p, one' p = relabel g (one p)) ->
  eval1_alloc o one' locs = relabel (map g) (eval1_alloc o one locs).
Proof.
  intros H. unfold eval1_alloc. rewrite <- alloc_relabel, <- (eval1_relabel one one') by exact H. apply eval1_same. rewrite map_length. reflexivity.
Qed.
End G.

(** ** The Python package *)
Section Py.
Context {F : Type} (o : Ops F) (c : cfg) (g : F -> F).
Definition ends (r : py unit * list F) : py (list F) := py_do _ <- fst r ; Ret (snd r).
Lemma raw_ends (r r' : outcome unit * list F) : alloc_result r = relabel (map g) (alloc_result r') ->
  ends (raw_result r) = relabel_py (map g) (ends (raw_result r')).
Proof using Type.
  destruct r as [[[]|e|] l], r' as [[[]|e'|] l']; simpl; intros H; try discriminate H; try reflexivity; injection H as ->; reflexivity.
Qed.
Lemma raw_nr_relabel dims starts steps vals obs out :
  ends (raw_nearest_regular o c dims starts steps (map g vals) obs out) =
  relabel_py (map g) (ends (raw_nearest_regular o c dims starts steps vals obs out)).
Proof using Type.
  unfold raw_nearest_regular. destruct (negb _); [reflexivity|]. destruct (negb _); [reflexivity|]. apply raw_ends.
  rewrite <- alloc_relabel, <- nr_interpn_relabel. apply nr_interpn_same. rewrite map_length. reflexivity.
Qed.
Lemma raw_nc_relabel grids vals obs out :
  ends (raw_nearest_rectilinear o c grids (map g vals) obs out) =
  relabel_py (map g) (ends (raw_nearest_rectilinear o c grids vals obs out)).
Proof using Type.
  unfold raw_nearest_rectilinear. destruct (negb _); [reflexivity|]. apply raw_ends.
  rewrite <- alloc_relabel, <- nc_interpn_relabel. apply nc_interpn_same. rewrite map_length. reflexivity.
Qed.
Lemma class_relabel (raw raw' : list (list F) -> list F -> py unit * list F) obs out :
  (forall x y, ends (raw' x y) = relabel_py (map g) (ends (raw x y))) ->
  class_eval o raw' obs out = relabel_py (map g) (class_eval o raw obs out).
Proof using Type.
  intros H. unfold class_eval. destruct (match out with Some b => Ret b | None => _ end) as [b|e]; [|reflexivity]. cbn [py_bind].
  specialize (H obs b). unfold ends in H. destruct (raw obs b), (raw' obs b). exact H.
Qed.
Lemma py_nearest_relabel obs grids vals out lin assume cb atol :
  fst (py_interpn o c obs grids (relabel_nd g vals) "nearest" out lin assume cb atol) =
  relabel_py (relabel_nd g) (fst (py_interpn o c obs grids vals "nearest" out lin assume cb atol)).
Proof using Type.
  unfold py_interpn. destruct (choose_out o out obs) as [[out1 own]|e]; [|reflexivity]. cbn [py_bind].
  destruct (if assume then Ret true else _) as [reg|e]; [|reflexivity]. cbn [py_bind].
  match goal with |- context [py_bind (if reg then ?a else ?b) _] => destruct (if reg then a else b) as [[[dims starts] steps]|e]; [|reflexivity] end.
  cbn [py_bind].
  match goal with |- context [py_bind (if cb then ?a else ?b) _] => destruct (if cb then a else b) as [u|e]; [|reflexivity] end.
  cbn [py_bind]. unfold py_dispatch. cbn [String.eqb Ascii.eqb Bool.eqb relabel_nd nd_data].
  assert (K : forall r r' : py unit * list F, ends r' = relabel_py (map g) (ends r) ->
    fst (let (a, data) := r' in (py_do _ <- a ; Ret (mkNd (nd_shape out1) data), if own then Some data else option_map nd_data out)) =
    relabel_py (relabel_nd g) (fst (let (a, data) := r in (py_do _ <- a ; Ret (mkNd (nd_shape out1) data), if own then Some data else option_map nd_data out)))).
  { intros [[a|e] l] [[a'|e'] l'] H; unfold ends in H; simpl in *; try discriminate H; [injection H as ->; reflexivity|congruence]. }
  destruct reg; apply K; [apply raw_nr_relabel|apply raw_nc_relabel].
Qed.
End Py.
