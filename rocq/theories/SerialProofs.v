(** Proofs about element types and JSON serialisation. *)
From Coq Require Import Reals Lia Lra.
From Flocq Require Import Core.Core IEEE754.BinarySingleNaN.
From Verif Require Import Base Ops FInst ModelCore ModelLinear ModelNearest ModelCubic ModelPython ModelSerial
  Spec SpecPython SpecSerial PyProofs.
Unset Implicit Arguments.
Open Scope Z_scope.

(** ** Conversions *)
Section Convert.
Context (p e p' e' : Z) (Hp : Prec_gt_0 p) (He : Prec_lt_emax p e) (Hp' : Prec_gt_0 p') (He' : Prec_lt_emax p' e').

Lemma B2R_finite_F2R : forall s m ex H,
  @B2R p e (B754_finite s m ex H) = F2R (Float radix2 (SpecFloat.cond_Zopp s (Zpos m)) ex).
Proof. reflexivity. Qed.

Lemma convert_exact : forall x : binary_float p e, is_finite x = true ->
  generic_format radix2 (SpecFloat.fexp p' e') (B2R x) -> (Rabs (B2R x) < bpow radix2 e')%R ->
  B2R (convert p e p' e' Hp' He' x) = B2R x /\ is_finite (convert p e p' e' Hp' He' x) = true /\
  Bsign (convert p e p' e' Hp' He' x) = Bsign x.
Proof.
  intros x Fx Gx Lx. destruct x as [s|s| |s m ex H]; try discriminate Fx.
  - repeat split; reflexivity.
  - cbn [convert]. rewrite B2R_finite_F2R in Gx, Lx |- *.
    pose proof (binary_normalize_correct p' e' Hp' He' mode_NE (SpecFloat.cond_Zopp s (Zpos m)) ex s) as Q.
    cbv zeta in Q. rewrite round_generic in Q by (try apply valid_rnd_N; exact Gx).
    rewrite Rlt_bool_true in Q by exact Lx. destruct Q as (Q1 & Q2 & Q3).
    repeat split; [exact Q1|exact Q2|]. rewrite Q3. cbn [Bsign].
    destruct s; cbn [SpecFloat.cond_Zopp Z.opp].
    + rewrite Rcompare_Lt; [reflexivity|]. apply F2R_lt_0. reflexivity.
    + rewrite Rcompare_Gt; [reflexivity|]. apply F2R_gt_0. reflexivity.
Qed.

Lemma convert_round : forall x : binary_float p e, is_finite x = true ->
  (Rabs (round radix2 (SpecFloat.fexp p' e') ZnearestE (B2R x)) < bpow radix2 e')%R ->
  B2R (convert p e p' e' Hp' He' x) = round radix2 (SpecFloat.fexp p' e') ZnearestE (B2R x).
Proof.
  intros x Fx Lx. destruct x as [s|s| |s m ex H]; try discriminate Fx.
  - cbn [convert]. change (B2R (B754_zero s)) with 0%R. rewrite round_0 by apply valid_rnd_N. reflexivity.
  - cbn [convert]. rewrite B2R_finite_F2R in Lx |- *.
    pose proof (binary_normalize_correct p' e' Hp' He' mode_NE (SpecFloat.cond_Zopp s (Zpos m)) ex s) as Q.
    cbv zeta in Q. cbn [round_mode] in Q.
    rewrite Rlt_bool_true in Q by exact Lx. exact (proj1 Q).
Qed.
End Convert.

Lemma f32_in_f64 : forall x : f32, generic_format radix2 (SpecFloat.fexp 53 1024) (B2R x).
Proof.
  intro x. apply generic_inclusion_mag with (fexp1 := SpecFloat.fexp 24 128).
  - intros _. unfold SpecFloat.fexp, SpecFloat.emin. lia.
  - apply generic_format_B2R.
Qed.

Lemma widen_exact : forall x : f32, is_finite x = true ->
  B2R (widen x) = B2R x /\ is_finite (widen x) = true /\ Bsign (widen x) = Bsign x.
Proof.
  intros x Fx. apply convert_exact; [exact Fx|apply f32_in_f64|].
  eapply Rlt_trans; [apply abs_B2R_lt_emax|]. apply bpow_lt. reflexivity.
Qed.

Lemma narrow_widen : forall x : f32, narrow (widen x) = x.
Proof.
  intro x. destruct (is_finite x) eqn:Fx.
  - destruct (widen_exact x Fx) as (W1 & W2 & W3).
    destruct (convert_exact 53 1024 24 128 Hp32 He32 (widen x) W2) as (N1 & N2 & N3).
    + rewrite W1. apply generic_format_B2R.
    + rewrite W1. apply abs_B2R_lt_emax.
    + apply B2R_Bsign_inj; [exact N2|exact Fx| |].
      * unfold narrow. rewrite N1. exact W1.
      * unfold narrow. rewrite N3. exact W3.
  - destruct x as [s|s| |s m ex H]; try discriminate Fx; reflexivity.
Qed.

(** ** JSON *)
Lemma py_map_ret : forall A B (f : A -> py B) (g : A -> B) l, (forall a, f a = Ret (g a)) ->
  py_map f l = Ret (map g l).
Proof. intros A B f g l H. induction l as [|a l IH]; [reflexivity|]. cbn [py_map map]. rewrite H, IH. reflexivity. Qed.
Lemma py_map_map : forall A B C (f : B -> py C) (g : A -> B) l, py_map f (map g l) = py_map (fun a => f (g a)) l.
Proof. intros A B C f g l. induction l as [|a l IH]; [reflexivity|]. cbn [py_map map]. rewrite IH. reflexivity. Qed.

Lemma load_dump_array : forall a, load_array (dump_array a) = Ret a.
Proof.
  intro a. unfold load_array, dump_array.
  change (only ["data"%string; "dtype"%string] _) with true. cbv iota.
  change (member "dtype"%string _) with (Some (JString (dtype_name (dtype_of a)))).
  change (member "data"%string _) with (Some (JText (JList (map JFloat (tolist a))))). cbv iota.
  destruct a as [l|l]; cbn [dtype_of dtype_name String.eqb Ascii.eqb Bool.eqb py_bind tolist].
  - rewrite py_map_map, (py_map_ret _ _ _ (fun x => x)) by reflexivity. cbn [py_bind]. rewrite map_id, map_map.
    f_equal. f_equal. rewrite <- (map_id l) at 2. apply map_ext. exact narrow_widen.
  - rewrite py_map_map, (py_map_ret _ _ _ (fun x => x)) by reflexivity. cbn [py_bind]. rewrite map_id. reflexivity.
Qed.

Lemma make_regular_inv : forall fam m0 m, make_regular fam m0 = Ret m ->
  m = m0 /\ has_fields fam (rm_lin m) = true /\ regular_valid fam m = true.
Proof.
  intros fam m0 m. unfold make_regular. destruct (has_fields fam (rm_lin m0) && regular_valid fam m0) eqn:E; [|discriminate].
  intro Q. injection Q as <-. apply andb_prop in E. destruct E. auto.
Qed.
Lemma make_rectilinear_inv : forall fam m0 m, make_rectilinear fam m0 = Ret m ->
  m = m0 /\ has_fields fam (cm_lin m) = true /\ rectilinear_valid fam m = true.
Proof.
  intros fam m0 m. unfold make_rectilinear. destruct (has_fields fam (cm_lin m0) && rectilinear_valid fam m0) eqn:E; [|discriminate].
  intro Q. injection Q as <-. apply andb_prop in E. destruct E. auto.
Qed.

Lemma py_bind_ret : forall A B (m : py A) (f : A -> py B) b, py_bind m f = Ret b -> exists a, m = Ret a /\ f a = Ret b.
Proof. intros A B [a|x] f b H; [exists a; auto|discriminate]. Qed.

Lemma load_regular_made : forall fam j m, load_regular fam j = Ret m -> exists m0, make_regular fam m0 = Ret m.
Proof.
  intros fam j m H. unfold load_regular in H. destruct j as [| | | | | | |l]; try discriminate H.
  destruct (only _ l); [|discriminate H].
  apply py_bind_ret in H. destruct H as (dims & _ & H).
  apply py_bind_ret in H. destruct H as (starts & _ & H).
  apply py_bind_ret in H. destruct H as (steps & _ & H).
  apply py_bind_ret in H. destruct H as (vals & _ & H).
  apply py_bind_ret in H. destruct H as (lin & _ & H). eexists. exact H.
Qed.
Lemma load_rectilinear_made : forall fam j m, load_rectilinear fam j = Ret m -> exists m0, make_rectilinear fam m0 = Ret m.
Proof.
  intros fam j m H. unfold load_rectilinear in H. destruct j as [| | | | | | |l]; try discriminate H.
  destruct (only _ l); [|discriminate H].
  apply py_bind_ret in H. destruct H as (grids & _ & H).
  apply py_bind_ret in H. destruct H as (vals & _ & H).
  apply py_bind_ret in H. destruct H as (lin & _ & H). eexists. exact H.
Qed.

Lemma regular_object_made : forall fam m, regular_object fam m -> make_regular fam m = Ret m.
Proof.
  assert (K : forall fam m0 m, make_regular fam m0 = Ret m -> make_regular fam m = Ret m).
  { intros fam m0 m H. destruct (make_regular_inv _ _ _ H) as (-> & _). exact H. }
  intros fam m [m0 m1 H|dims st hs vs lin m1 H|j m1 H].
  - exact (K _ _ _ H).
  - exact (K _ _ _ H).
  - apply load_regular_made in H. destruct H as (m0 & H). exact (K _ _ _ H).
Qed.
Lemma rectilinear_object_made : forall fam m, rectilinear_object fam m -> make_rectilinear fam m = Ret m.
Proof.
  assert (K : forall fam m0 m, make_rectilinear fam m0 = Ret m -> make_rectilinear fam m = Ret m).
  { intros fam m0 m H. destruct (make_rectilinear_inv _ _ _ H) as (-> & _). exact H. }
  intros fam m [m0 m1 H|grids vs lin m1 H|j m1 H].
  - exact (K _ _ _ H).
  - exact (K _ _ _ H).
  - apply load_rectilinear_made in H. destruct H as (m0 & H). exact (K _ _ _ H).
Qed.

Lemma C48_proof_regular : forall fam m, regular_object fam m -> load_regular fam (dump_regular m) = Ret m.
Proof.
  intros fam m H. apply regular_object_made in H.
  destruct (make_regular_inv _ _ _ H) as (_ & Hf & _).
  destruct m as [dims st hs vs lin]. cbn [rm_lin] in Hf.
  assert (D : py_map load_int (map JInt dims) = Ret dims).
  { rewrite py_map_map, (py_map_ret _ _ _ (fun x => x)) by reflexivity. rewrite map_id. reflexivity. }
  destruct fam, lin as [b|]; try discriminate Hf;
    unfold load_regular, dump_regular; cbn [rm_dims rm_starts rm_steps rm_vals rm_lin];
    match goal with |- context [only ?k ?l] => change (only k l) with true end; cbv iota;
    match goal with |- context [need "dims" ?l] => change (need "dims"%string l) with (@Ret json (JList (map JInt dims))) end;
    cbn [py_bind load_list]; rewrite D; cbn [py_bind];
    match goal with |- context [need "starts" ?l] => change (need "starts"%string l) with (@Ret json (dump_array st)) end;
    match goal with |- context [need "steps" ?l] => change (need "steps"%string l) with (@Ret json (dump_array hs)) end;
    match goal with |- context [need "vals" ?l] => change (need "vals"%string l) with (@Ret json (dump_array vs)) end;
    cbn [py_bind]; rewrite !load_dump_array; cbn [py_bind]; exact H.
Qed.

Lemma C48_proof_rectilinear : forall fam m, rectilinear_object fam m -> load_rectilinear fam (dump_rectilinear m) = Ret m.
Proof.
  intros fam m H. apply rectilinear_object_made in H.
  destruct (make_rectilinear_inv _ _ _ H) as (_ & Hf & _).
  destruct m as [gs vs lin]. cbn [cm_lin] in Hf.
  assert (D : py_map load_array (map dump_array gs) = Ret gs).
  { rewrite py_map_map, (py_map_ret _ _ _ (fun x => x)) by (intro; apply load_dump_array). rewrite map_id. reflexivity. }
  destruct fam, lin as [b|]; try discriminate Hf;
    unfold load_rectilinear, dump_rectilinear; cbn [cm_grids cm_vals cm_lin];
    match goal with |- context [only ?k ?l] => change (only k l) with true end; cbv iota;
    match goal with |- context [need "grids" ?l] => change (need "grids"%string l) with (@Ret json (JList (map dump_array gs))) end;
    cbn [py_bind load_list]; rewrite D; cbn [py_bind];
    match goal with |- context [need "vals" ?l] => change (need "vals"%string l) with (@Ret json (dump_array vs)) end;
    cbn [py_bind]; rewrite !load_dump_array; cbn [py_bind]; exact H.
Qed.

(** ** Element types *)
Lemma view_wrap : forall d l, view (format_of d) (stored d l) = Some l.
Proof. intros [|] l; reflexivity. Qed.
Lemma np_view_typed : forall d l, np_view (format_of d) (typed d l) = Some l.
Proof. intros [|] l; reflexivity. Qed.
Lemma dtype_stored : forall d l, dtype_of (stored d l) = d.
Proof. intros [|] l; reflexivity. Qed.
Lemma views_typed : forall d ls, views (np_view (format_of d)) (map (typed d) ls) = Some ls.
Proof. intros d ls. induction ls as [|l ls IH]; [reflexivity|]. cbn [views map]. rewrite np_view_typed, IH. reflexivity. Qed.
Lemma views_stored : forall d ls, views (np_view (format_of d)) (map NpFloat (map (stored d) ls)) = Some ls.
Proof. intros d ls. rewrite map_map. apply views_typed. Qed.
Lemma np_view_some : forall d x l, np_view (format_of d) x = Some l -> x = typed d l.
Proof.
  intros d x l H. destruct x as [a|z]; [|discriminate H].
  destruct d, a; try discriminate H; injection H as <-; reflexivity.
Qed.
Lemma np_view_has_type : forall d x, ~ has_type d x -> np_view (format_of d) x = None.
Proof.
  intros d x H. destruct (np_view (format_of d) x) as [l|] eqn:E; [|reflexivity].
  exfalso. apply H. exists l. apply np_view_some. exact E.
Qed.
Lemma views_none : forall d xs, ~ Forall (has_type d) xs -> views (np_view (format_of d)) xs = None.
Proof.
  intros d xs. induction xs as [|x xs IH]; intro H; [exfalso; apply H; constructor|].
  cbn [views]. destruct (np_view (format_of d) x) as [l|] eqn:E; [|reflexivity].
  rewrite IH; [reflexivity|]. intro K. apply H. constructor; [|exact K].
  exists l. apply np_view_some. exact E.
Qed.
Lemma zeros_typed : forall d l, zeros_like (typed d l) = typed d (repeat (fzero (ops d)) (length l)).
Proof. intros [|] l; reflexivity. Qed.

Lemma out_typed : forall d obs out out0, output_array (ops d) obs out out0 ->
  out_or_zeros (option_map (typed d) out) (map (typed d) obs) = Ret (typed d out0).
Proof.
  intros d obs [b|] out0 H; cbn [output_array option_map] in *.
  - rewrite H. reflexivity.
  - destruct H as (x & Hx & ->). unfold out_or_zeros, py_get.
    destruct obs as [|y obs]; [discriminate Hx|]. injection Hx as ->.
    cbn [map nth_error py_bind]. rewrite zeros_typed. reflexivity.
Qed.

Lemma dims_nonneg : forall dims, Forall (fun k => 0 <= k) dims -> dims_ok dims = true.
Proof.
  intros dims H. apply forallb_forall. intros x Hx. rewrite Forall_forall in H. apply Z.leb_le. apply H. exact Hx.
Qed.
Lemma unpack_le : forall A (l : list A), (length l <= 8)%nat -> unpack_ok l = true.
Proof. intros A l H. apply Nat.leb_le. exact H. Qed.

Lemma finish_seen : forall d (out : option (list (num d))) (r : outcome unit * list (num d)),
  finish (option_map (typed d) out) (let (a, data) := raw_result r in (a, typed d data)) =
  (seen r, option_map (fun _ => typed d (snd r)) out).
Proof. intros d out [[u|msg|] data]; destruct out; reflexivity. Qed.

Section Same.
Context (c : cfg) (d : dtype) (obs : list (list (num d))) (out : option (list (num d))) (out0 : list (num d))
  (Hobs : (length obs <= 8)%nat) (Hout : output_array (ops d) obs out out0).

Lemma same_regular : forall fam lin dims starts steps vals r, Forall (fun k => 0 <= k) dims ->
  regular_raw c (format_of d) fam (lin_flag lin) dims starts steps vals obs out0 = raw_result r ->
  regular_eval c fam (RegModel dims (stored d starts) (stored d steps) (stored d vals) lin)
    (map (typed d) obs) (option_map (typed d) out) = (seen r, option_map (fun _ => typed d (snd r)) out).
Proof using Hout.
  intros fam lin dims starts steps vals r Hd Hr. unfold regular_eval.
  rewrite (out_typed _ _ _ _ Hout). cbn [rm_dims rm_starts rm_steps rm_vals rm_lin].
  rewrite dtype_stored. unfold regular_call. rewrite (dims_nonneg _ Hd). cbn [negb].
  rewrite views_typed. cbn [np_view]. rewrite !view_wrap. rewrite np_view_typed.
  rewrite Hr. apply finish_seen.
Qed.
Lemma same_rectilinear : forall fam lin grids vals r,
  rectilinear_raw c (format_of d) fam (lin_flag lin) grids vals obs out0 = raw_result r ->
  rectilinear_eval c fam (RectModel (map (stored d) grids) (stored d vals) lin)
    (map (typed d) obs) (option_map (typed d) out) = (seen r, option_map (fun _ => typed d (snd r)) out).
Proof using Hout.
  intros fam lin grids vals r Hr. unfold rectilinear_eval.
  rewrite (out_typed _ _ _ _ Hout). cbn [cm_grids cm_vals cm_lin].
  rewrite dtype_stored. unfold rectilinear_call.
  rewrite views_typed, views_stored. cbn [np_view]. rewrite !view_wrap, np_view_typed.
  rewrite Hr. apply finish_seen.
Qed.

Lemma C49_proof_linear_regular : forall dims starts steps vals, Forall (fun k => 0 <= k) dims ->
  let r := mlr_interpn (ops d) c dims starts steps vals obs out0 in
  regular_eval c Multilinear (RegModel dims (stored d starts) (stored d steps) (stored d vals) None)
    (map (typed d) obs) (option_map (typed d) out) = (seen r, option_map (fun _ => typed d (snd r)) out).
Proof using All.
  intros dims starts steps vals Hd r. apply same_regular; [exact Hd|].
  cbn [regular_raw]. unfold raw_linear_regular. rewrite (dims_nonneg _ Hd).
  pose proof (unpack_le _ _ Hobs) as U. unfold num in U. rewrite U. reflexivity.
Qed.
Lemma C49_proof_nearest_regular : forall dims starts steps vals, Forall (fun k => 0 <= k) dims ->
  let r := nr_interpn (ops d) c dims starts steps vals obs out0 in
  regular_eval c Nearest (RegModel dims (stored d starts) (stored d steps) (stored d vals) None)
    (map (typed d) obs) (option_map (typed d) out) = (seen r, option_map (fun _ => typed d (snd r)) out).
Proof using All.
  intros dims starts steps vals Hd r. apply same_regular; [exact Hd|].
  cbn [regular_raw]. unfold raw_nearest_regular. rewrite (dims_nonneg _ Hd).
  pose proof (unpack_le _ _ Hobs) as U. unfold num in U. rewrite U. reflexivity.
Qed.
Lemma C49_proof_cubic_regular : forall dims starts steps vals lin, Forall (fun k => 0 <= k) dims ->
  let r := mcr_interpn (ops d) c dims starts steps vals lin obs out0 in
  regular_eval c Multicubic (RegModel dims (stored d starts) (stored d steps) (stored d vals) (Some lin))
    (map (typed d) obs) (option_map (typed d) out) = (seen r, option_map (fun _ => typed d (snd r)) out).
Proof using All.
  intros dims starts steps vals lin Hd r. apply same_regular; [exact Hd|].
  cbn [regular_raw lin_flag]. unfold raw_cubic_regular. rewrite (dims_nonneg _ Hd).
  pose proof (unpack_le _ _ Hobs) as U. unfold num in U. rewrite U. reflexivity.
Qed.
Lemma C49_proof_linear_rectilinear : forall grids vals, (length grids <= 8)%nat ->
  let r := mlc_interpn (ops d) c grids vals obs out0 in
  rectilinear_eval c Multilinear (RectModel (map (stored d) grids) (stored d vals) None)
    (map (typed d) obs) (option_map (typed d) out) = (seen r, option_map (fun _ => typed d (snd r)) out).
Proof using All.
  intros grids vals Hg r. apply same_rectilinear.
  cbn [rectilinear_raw]. unfold raw_linear_rectilinear. 
  pose proof (unpack_le _ _ Hobs) as U. pose proof (unpack_le _ _ Hg) as V. unfold num in U, V. rewrite U, V. reflexivity.
Qed.
Lemma C49_proof_nearest_rectilinear : forall grids vals, (length grids <= 8)%nat ->
  let r := nc_interpn (ops d) c grids vals obs out0 in
  rectilinear_eval c Nearest (RectModel (map (stored d) grids) (stored d vals) None)
    (map (typed d) obs) (option_map (typed d) out) = (seen r, option_map (fun _ => typed d (snd r)) out).
Proof using All.
  intros grids vals Hg r. apply same_rectilinear.
  cbn [rectilinear_raw]. unfold raw_nearest_rectilinear. 
  pose proof (unpack_le _ _ Hobs) as U. pose proof (unpack_le _ _ Hg) as V. unfold num in U, V. rewrite U, V. reflexivity.
Qed.
Lemma C49_proof_cubic_rectilinear : forall grids vals lin, (length grids <= 8)%nat ->
  let r := mcc_interpn (ops d) c grids vals lin obs out0 in
  rectilinear_eval c Multicubic (RectModel (map (stored d) grids) (stored d vals) (Some lin))
    (map (typed d) obs) (option_map (typed d) out) = (seen r, option_map (fun _ => typed d (snd r)) out).
Proof using All.
  intros grids vals lin Hg r. apply same_rectilinear.
  cbn [rectilinear_raw lin_flag]. unfold raw_cubic_rectilinear. 
  pose proof (unpack_le _ _ Hobs) as U. pose proof (unpack_le _ _ Hg) as V. unfold num in U, V. rewrite U, V. reflexivity.
Qed.
End Same.

Lemma out_or_zeros_total : forall out obs, obs <> [] \/ out <> None ->
  exists b, out_or_zeros out obs = Ret b.
Proof.
  intros [b|] obs H; [exists b; reflexivity|].
  destruct H as [H|H]; [|congruence]. destruct obs as [|x obs]; [congruence|]. eexists. reflexivity.
Qed.

(** The first array argument that has another element type stops the call. *)
Lemma finish_type_error : forall (out : option nparray) b,
  out = None \/ out = Some b -> finish out (Raise TypeError, b) = (Raise TypeError, out).
Proof. intros out b [-> | ->]; reflexivity. Qed.

Lemma out_or_zeros_some : forall out obs b, out_or_zeros out obs = Ret b -> out = None \/ out = Some b.
Proof. intros [x|] obs b H; [|left; reflexivity]. injection H as <-. right. reflexivity. Qed.

Lemma C49_proof_mixed_regular : forall c fam m obs out, Forall (fun k => 0 <= k) (rm_dims m) ->
  obs <> [] \/ out <> None ->
  let d := dtype_of (rm_vals m) in
  dtype_of (rm_starts m) <> d \/ dtype_of (rm_steps m) <> d \/ ~ Forall (has_type d) obs \/
  (exists b, out = Some b /\ ~ has_type d b) ->
  regular_eval c fam m obs out = (Raise TypeError, out).
Proof.
  intros c fam m obs out Hd Hne d H. unfold regular_eval.
  destruct (out_or_zeros_total _ _ Hne) as (b & Hb). rewrite Hb.
  pose proof (out_or_zeros_some _ _ _ Hb) as Ho. fold d.
  unfold regular_call. rewrite (dims_nonneg _ Hd). cbn [negb].
  assert (V : forall a, dtype_of a <> d -> np_view (format_of d) (NpFloat a) = None).
  { intros a Ha. clearbody d. destruct a, d; cbn in Ha |- *; congruence. }
  destruct (np_view (format_of d) (NpFloat (rm_starts m))) as [l1|] eqn:E1; [|apply finish_type_error; exact Ho].
  destruct (np_view (format_of d) (NpFloat (rm_steps m))) as [l2|] eqn:E2; [|apply finish_type_error; exact Ho].
  destruct (np_view (format_of d) (NpFloat (rm_vals m))) as [l3|] eqn:E3; [|apply finish_type_error; exact Ho].
  destruct H as [H|[H|[H|H]]].
  - rewrite (V _ H) in E1. discriminate E1.
  - rewrite (V _ H) in E2. discriminate E2.
  - rewrite (views_none _ _ H). apply finish_type_error; exact Ho.
  - destruct H as (b' & Hb' & Ht). subst out. injection Hb as <-.
    destruct (views (np_view (format_of d)) obs); [|reflexivity].
    rewrite (np_view_has_type _ _ Ht). reflexivity.
Qed.

Lemma C49_proof_mixed_rectilinear : forall c fam m obs out,
  obs <> [] \/ out <> None ->
  let d := dtype_of (cm_vals m) in
  (exists g, In g (cm_grids m) /\ dtype_of g <> d) \/ ~ Forall (has_type d) obs \/
  (exists b, out = Some b /\ ~ has_type d b) ->
  rectilinear_eval c fam m obs out = (Raise TypeError, out).
Proof.
  intros c fam m obs out Hne d H. unfold rectilinear_eval.
  destruct (out_or_zeros_total _ _ Hne) as (b & Hb). rewrite Hb.
  pose proof (out_or_zeros_some _ _ _ Hb) as Ho. fold d.
  unfold rectilinear_call.
  destruct (views (np_view (format_of d)) (map NpFloat (cm_grids m))) as [l1|] eqn:E1; [|apply finish_type_error; exact Ho].
  destruct (np_view (format_of d) (NpFloat (cm_vals m))) as [l3|] eqn:E3; [|apply finish_type_error; exact Ho].
  destruct H as [H|[H|H]].
  - destruct H as (g & Hg & Ht). rewrite views_none in E1; [discriminate E1|].
    intro K. rewrite Forall_forall in K. destruct (K (NpFloat g)) as (l & Hl); [apply in_map; exact Hg|].
    apply Ht. injection Hl as ->. apply dtype_stored.
  - rewrite (views_none _ _ H). apply finish_type_error; exact Ho.
  - destruct H as (b' & Hb' & Ht). subst out. injection Hb as <-.
    destruct (views (np_view (format_of d)) obs); [|reflexivity].
    rewrite (np_view_has_type _ _ Ht). reflexivity.
Qed.
