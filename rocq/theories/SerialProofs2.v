(** Proofs about element types in `interpn` and in the constructors. *)
From Coq Require Import Reals Lia Lra.
From Flocq Require Import Core.Core IEEE754.BinarySingleNaN.
From Verif Require Import Base Ops FInst ModelCore ModelLinear ModelNearest ModelCubic ModelPython ModelSerial
  Spec SpecPython SpecSerial PyProofs SerialProofs.
Unset Implicit Arguments.
Open Scope Z_scope.

Definition lift_choice (d : dtype) (r : py (ndarray (num d) * bool)) : py (tarray * bool) :=
  match r with Ret (a, own) => Ret (tnd d a, own) | Raise e => Raise e end.

Lemma choose_typed : forall d out obs,
  typed_choose_out (option_map (tnd d) out) (map (tnd d) obs) = lift_choice d (choose_out (ops d) out obs).
Proof.
  intros d out obs.
  assert (Fr : (py_do o0 <- py_get (map (tnd d) obs) 0 ; Ret (mkT (t_shape o0) (zeros_like (t_data o0)), false))%string =
     lift_choice d (py_do o0 <- py_get obs 0 ;
        Ret (mkNd (nd_shape o0) (repeat (fzero (ops d)) (length (nd_data o0))), false))).
  { destruct obs as [|x obs]; [reflexivity|]. cbn [map py_get nth_error py_bind lift_choice tnd t_data t_shape nd_shape nd_data]. rewrite zeros_typed. reflexivity. }
  unfold typed_choose_out, choose_out. destruct out as [b|]; cbn [option_map]; [|exact Fr].
  destruct b as [sh l]. cbn [tnd t_data nd_data].
  destruct d; [change (typed Float32 l) with (NpFloat (F32Array l))|change (typed Float64 l) with (NpFloat (F64Array l))]; cbv iota;
    (destruct l as [|v l]; [exact Fr|]); (destruct l as [|w l]; [|reflexivity]); cbn [length forallb];
    rewrite andb_true_r;
    [change (feq (ops Float32)) with (feq F32Ops); change (fzero (ops Float32)) with (fzero F32Ops) in *;
       destruct (feq F32Ops v (fzero F32Ops))
    |change (feq (ops Float64)) with (feq F64Ops); change (fzero (ops Float64)) with (fzero F64Ops) in *;
       destruct (feq F64Ops v (fzero F64Ops))]; exact Fr || reflexivity.
Qed.

Lemma regular_typed : forall d gs acc,
  grids_regular_from acc (map (typed d) gs) = check_regular_from (ops d) acc gs.
Proof.
  intros d gs. induction gs as [|g gs IH]; intro acc; [reflexivity|].
  cbn [map grids_regular_from check_regular_from].
  assert (E : (if acc then grid_regular (typed d g) else Ret false) =
    (if acc then py_do d0 <- py_get (np_diff (ops d) g) 0 ; Ret (forallb (fun h => feq (ops d) h d0) (np_diff (ops d) g))
     else Ret false)).
  { destruct acc; [|reflexivity]. destruct d; reflexivity. }
  rewrite E. match goal with |- py_bind ?m _ = py_bind ?m' _ => change m' with m; destruct m as [b|e] end;
    [apply IH|reflexivity].
Qed.

Lemma bind_ret : forall A (m : py A), py_bind m Ret = m.
Proof. intros A [a|e]; reflexivity. Qed.
Lemma start_typed : forall d g, grid_start (format_of d) (typed d g) = py_get g 0.
Proof. intros [|] g; exact (bind_ret _ _). Qed.
Lemma step_typed : forall d g, grid_step (format_of d) (typed d g) =
  py_do g1 <- py_get g 1 ; py_do g0 <- py_get g 0 ; Ret (fsub (ops d) g1 g0).
Proof. intros [|] g; reflexivity. Qed.

Lemma py_map_ext : forall A B (f g : A -> py B) l, (forall a, f a = g a) -> py_map f l = py_map g l.
Proof. intros A B f g l H. induction l as [|a l IH]; [reflexivity|]. cbn [py_map]. rewrite H, IH. reflexivity. Qed.

Lemma sizes_typed : forall d gs, map (fun g => Z.of_nat (np_size g)) (map (typed d) gs) = map zlen gs.
Proof. intros d gs. rewrite map_map. apply map_ext. intro g. destruct d; reflexivity. Qed.

Lemma bounds_typed : forall c d reg dims starts steps gs xs atol,
  typed_check_bounds c (format_of d) reg dims starts steps (map (typed d) gs) (map (typed d) xs) atol =
  py_check_bounds (ops d) c reg dims starts steps gs xs (from_f64 (format_of d) atol).
Proof.
  intros c d reg dims starts steps gs xs atol. unfold typed_check_bounds, py_check_bounds.
  rewrite !views_typed. destruct reg; cbn [py_bind]; reflexivity.
Qed.

Lemma dims_zlen : forall A (gs : list (list A)), dims_ok (map zlen gs) = true.
Proof.
  intros A gs. apply dims_nonneg. apply Forall_forall. intros x Hx. apply in_map_iff in Hx.
  destruct Hx as (g & <- & _). unfold zlen. lia.
Qed.

Lemma call_regular_typed : forall c d fam lin dims starts steps vals xs b, dims_ok dims = true ->
  regular_call c (format_of d) fam lin dims (typed d starts) (typed d steps) (typed d vals) (map (typed d) xs) (typed d b) =
  (let (r, data) := regular_raw c (format_of d) fam lin dims starts steps vals xs b in (r, typed d data)).
Proof.
  intros c d fam lin dims starts steps vals xs b Hd. unfold regular_call. rewrite Hd. cbn [negb].
  rewrite views_typed, !np_view_typed. reflexivity.
Qed.
Lemma call_rectilinear_typed : forall c d fam lin gs vals xs b,
  rectilinear_call c (format_of d) fam lin (map (typed d) gs) (typed d vals) (map (typed d) xs) (typed d b) =
  (let (r, data) := rectilinear_raw c (format_of d) fam lin gs vals xs b in (r, typed d data)).
Proof. intros. unfold rectilinear_call. rewrite !views_typed, !np_view_typed. reflexivity. Qed.

Lemma dispatch_family : forall c d reg method dims starts steps gs vals lin xs b,
  py_dispatch (ops d) c reg method dims starts steps gs vals lin xs b =
  match method_family method with
  | Ret fam => if reg then regular_raw c (format_of d) fam lin dims starts steps vals xs b
               else rectilinear_raw c (format_of d) fam lin gs vals xs b
  | Raise e => (Raise e, b)
  end.
Proof.
  intros. unfold py_dispatch, method_family.
  destruct (String.eqb method "linear"); [destruct reg; reflexivity|].
  destruct (String.eqb method "nearest"); [destruct reg; reflexivity|].
  destruct (String.eqb method "cubic"); [destruct reg; reflexivity|reflexivity].
Qed.

Lemma C49_proof_interpn : forall c d obs grids vals method out lin assume cb atol,
  typed_interpn c (map (tnd d) obs) (map (tnd d) grids) (tnd d vals) method (option_map (tnd d) out) lin assume cb atol =
  tnd_result (py_interpn (ops d) c obs grids vals method out lin assume cb (from_f64 (format_of d) atol)).
Proof.
  intros c d obs grids vals method out lin assume cb atol.
  unfold typed_interpn, py_interpn. rewrite choose_typed.
  assert (Eb : option_map t_data (option_map (tnd d) out) = option_map (typed d) (option_map nd_data out)).
  { destruct out; reflexivity. }
  rewrite Eb. unfold tnd_result.
  destruct (choose_out (ops d) out obs) as [[out1 own]|e] eqn:Ec; [|reflexivity].
  assert (Ho : own = true -> option_map nd_data out = Some (nd_data out1)).
  { intros ->. unfold choose_out in Ec. destruct out as [b|].
    - destruct (nd_data b) as [|v [|w l]] eqn:El; [| |discriminate Ec].
      + destruct (py_get obs 0); discriminate Ec.
      + destruct (feq (ops d) v (fzero (ops d))); [destruct (py_get obs 0); discriminate Ec|].
        injection Ec as <-. reflexivity.
    - destruct (py_get obs 0); discriminate Ec. }
  cbn [lift_choice py_bind].
  assert (Mo : forall l, map t_data (map (tnd d) l) = map (typed d) (map nd_data l)).
  { intro l. rewrite !map_map. reflexivity. }
  rewrite !Mo. set (gs := map nd_data grids). set (xs := map nd_data obs).
  change (t_data (tnd d vals)) with (NpFloat (stored d (nd_data vals))). cbn [py_bind]. rewrite dtype_stored.
  rewrite regular_typed. fold (check_regular (ops d) gs).
  destruct (if assume then Ret true else check_regular (ops d) gs) as [reg|e]; [|reflexivity]. cbn [py_bind].
  destruct reg.
  - rewrite !py_map_map, (py_map_ext _ _ _ _ gs (start_typed d)), (py_map_ext _ _ _ _ gs (step_typed d)), sizes_typed.
    unfold num in *.
    match goal with |- context [py_bind (py_map ?f gs) ?k] => destruct (py_map f gs) as [starts|e] end; [|reflexivity].
    cbn [py_bind].
    match goal with |- context [py_bind (py_map ?f gs) ?k] => destruct (py_map f gs) as [steps|e] end; [|reflexivity].
    cbn [py_bind].
    pose proof (bounds_typed c d true (map zlen gs) starts steps gs xs atol) as Q. unfold num in Q. rewrite Q.
    match goal with |- context [if cb then ?m else Ret tt] =>
      destruct (if cb then m else Ret tt) as [u|e] end; [|reflexivity].
    cbn [py_bind]. 
    pose proof (dispatch_family c d true method (map zlen gs) starts steps gs (nd_data vals) lin xs (nd_data out1)) as Q2.
    unfold num in Q2. rewrite Q2. clear Q Q2. destruct (method_family method) as [fam|e]; cbn [py_bind].
    + change (NpFloat (wrap (format_of d) starts)) with (typed d starts).
      change (NpFloat (wrap (format_of d) steps)) with (typed d steps).
      change (NpFloat (stored d (nd_data vals))) with (typed d (nd_data vals)).
      change (t_data (tnd d out1)) with (typed d (nd_data out1)).
      pose proof (call_regular_typed c d fam lin (map zlen gs) starts steps (nd_data vals) xs (nd_data out1) (dims_zlen _ _)) as Q.
      unfold num in Q. rewrite Q.
      destruct (regular_raw _ _ _ _ _ _ _ _ _ _) as [r data]. destruct r as [u'|e]; cbn; destruct own; reflexivity.
    + cbn [fst snd]. destruct own; [rewrite (Ho eq_refl)|]; reflexivity.
  - cbn [py_bind]. unfold num in *.
    pose proof (bounds_typed c d false [] [] [] gs xs atol) as Q. unfold num in Q. rewrite Q.
    match goal with |- context [if cb then ?m else Ret tt] =>
      destruct (if cb then m else Ret tt) as [u|e] end; [|reflexivity].
    cbn [py_bind]. 
    pose proof (dispatch_family c d false method [] [] [] gs (nd_data vals) lin xs (nd_data out1)) as Q2.
    unfold num in Q2. rewrite Q2. clear Q Q2. destruct (method_family method) as [fam|e]; cbn [py_bind].
    + change (NpFloat (stored d (nd_data vals))) with (typed d (nd_data vals)).
      change (t_data (tnd d out1)) with (typed d (nd_data out1)).
      pose proof (call_rectilinear_typed c d fam lin gs (nd_data vals) xs (nd_data out1)) as Q.
      unfold num in Q. rewrite Q.
      destruct (rectilinear_raw _ _ _ _ _ _ _ _) as [r data]. destruct r as [u'|e]; cbn; destruct own; reflexivity.
    + cbn [fst snd]. destruct own; [rewrite (Ho eq_refl)|]; reflexivity.
Qed.

(** ** Mixed element types in `interpn` *)
Lemma choose_buffer : forall out obs out1 own, typed_choose_out out obs = Ret (out1, own) ->
  own = true -> option_map t_data out = Some (t_data out1).
Proof.
  intros out obs out1 own H ->. unfold typed_choose_out in H.
  assert (Fr : forall b, (py_do o0 <- py_get obs 0 ; Ret (mkT (t_shape o0) (zeros_like (t_data o0)), false)) <> Ret (b, true)).
  { intro b. destruct (py_get obs 0); discriminate. }
  destruct out as [b|]; [|exfalso; exact (Fr _ H)].
  assert (Pk : forall (n : nat) (zero : bool),
    match n with
    | O => py_do o0 <- py_get obs 0 ; Ret (mkT (t_shape o0) (zeros_like (t_data o0)), false)
    | S O => if zero then py_do o0 <- py_get obs 0 ; Ret (mkT (t_shape o0) (zeros_like (t_data o0)), false) else Ret (b, true)
    | _ => Raise ValueError
    end = Ret (out1, true) -> b = out1).
  { intros [|[|n]] zero K; [exfalso; exact (Fr _ K)| |discriminate K].
    destruct zero; [exfalso; exact (Fr _ K)|]. injection K as <-. reflexivity. }
  cbn [option_map]. f_equal. f_equal.
  destruct (t_data b) as [[l|l]|l]; apply Pk in H; exact H.
Qed.

Lemma regular_call_obs : forall c d fam lin dims st hs vs obs b, ~ Forall (has_type d) obs -> dims_ok dims = true ->
  regular_call c (format_of d) fam lin dims st hs vs obs b = (Raise TypeError, b).
Proof.
  intros c d fam lin dims st hs vs obs b H Hd. unfold regular_call. rewrite Hd. cbn [negb]. rewrite (views_none _ _ H).
  destruct (np_view _ st); [|reflexivity]. destruct (np_view _ hs); [|reflexivity]. destruct (np_view _ vs); reflexivity.
Qed.
Lemma rectilinear_call_obs : forall c d fam lin gs vs obs b, ~ Forall (has_type d) obs ->
  rectilinear_call c (format_of d) fam lin gs vs obs b = (Raise TypeError, b).
Proof.
  intros c d fam lin gs vs obs b H. unfold rectilinear_call. rewrite (views_none _ _ H).
  destruct (views _ gs); [|reflexivity]. destruct (np_view _ vs); reflexivity.
Qed.

Lemma C49_proof_interpn_mixed : forall c d l obs grids vals method out lin assume cb atol,
  t_data vals = typed d l -> ~ Forall (fun x => has_type d (t_data x)) obs ->
  exists e, typed_interpn c obs grids vals method out lin assume cb atol = (Raise e, option_map t_data out).
Proof.
  intros c d l obs grids vals method out lin assume cb atol Hv Ho.
  assert (Ho' : ~ Forall (has_type d) (map t_data obs)) by (rewrite Forall_map; exact Ho).
  unfold typed_interpn.
  destruct (typed_choose_out out obs) as [[out1 own]|e] eqn:Ec; [|eexists; reflexivity].
  pose proof (choose_buffer _ _ _ _ Ec) as Hb.
  cbn [py_bind]. rewrite Hv. change (dtype_of (stored d l)) with (dtype_of (stored d l)). cbn [typed py_bind].
  rewrite dtype_stored.
  destruct (if assume then Ret true else grids_regular_from true (map t_data grids)) as [reg|e];
    [|eexists; reflexivity]. cbn [py_bind].
  destruct reg.
  - destruct (py_map (grid_start (format_of d)) (map t_data grids)) as [st|e]; [|eexists; reflexivity]. cbn [py_bind].
    destruct (py_map (grid_step (format_of d)) (map t_data grids)) as [hs|e]; [|eexists; reflexivity]. cbn [py_bind].
    match goal with |- context [if cb then ?m else Ret tt] =>
      destruct (if cb then m else Ret tt) as [u|e] end; [|eexists; reflexivity]. cbn [py_bind].
    destruct (method_family method) as [fam|e]; [|eexists; reflexivity]. cbn [py_bind].
    rewrite regular_call_obs by (try exact Ho'; apply dims_nonneg; apply Forall_forall; intros x Hx;
      apply in_map_iff in Hx; destruct Hx as (g & <- & _); lia).
    exists TypeError. cbn [py_bind]. destruct own; [rewrite (Hb eq_refl)|]; reflexivity.
  - cbn [py_bind].
    match goal with |- context [if cb then ?m else Ret tt] =>
      destruct (if cb then m else Ret tt) as [u|e] end; [|eexists; reflexivity]. cbn [py_bind].
    destruct (method_family method) as [fam|e]; [|eexists; reflexivity]. cbn [py_bind].
    rewrite rectilinear_call_obs by exact Ho'.
    exists TypeError. cbn [py_bind]. destruct own; [rewrite (Hb eq_refl)|]; reflexivity.
Qed.

(** Grids of another element type. *)
Section Grids.
Context (c : cfg) (d d' : dtype) (obs : list (ndarray (num d))) (grids : list (ndarray (num d')))
  (vals o0 : ndarray (num d)) (lin assume : bool) (atol : f64)
  (Ho : hd_error obs = Some o0) (Lo : (length obs <= 8)%nat)
  (Hg : Forall (fun g => (2 <= length (nd_data g))%nat) grids).
Let gs : list (list (num d')) := map nd_data grids.
Let xs : list (list (num d)) := map nd_data obs.
Let zeros : list (num d) := repeat (fzero (ops d)) (length (nd_data o0)).
Let call method := typed_interpn c (map (tnd d) obs) (map (tnd d') grids) (tnd d vals) method None lin assume false atol.

Lemma first_obs : typed_choose_out None (map (tnd d) obs) = Ret (mkT (nd_shape o0) (typed d zeros), false).
Proof using All.
  unfold typed_choose_out. destruct obs as [|x l]; [discriminate Ho|]. injection Ho as ->.
  cbn [map py_get nth_error py_bind tnd t_shape t_data]. rewrite zeros_typed. reflexivity.
Qed.

Lemma grid_data : map t_data (map (tnd d') grids) = map (typed d') gs.
Proof using All. unfold gs. rewrite !map_map. reflexivity. Qed.
Lemma obs_data : map t_data (map (tnd d) obs) = map (typed d) xs.
Proof using All. unfold xs. rewrite !map_map. reflexivity. Qed.

Lemma gs_two : Forall (fun g => (2 <= length g)%nat) gs.
Proof using Hg. unfold gs. rewrite Forall_map. exact Hg. Qed.

Lemma starts_conv : py_map (grid_start (format_of d)) (map (typed d') gs) =
  Ret (map (conv d' d) (firsts (fzero (ops d')) gs)).
Proof using All.
  rewrite py_map_map. unfold firsts. rewrite map_map. apply py_map_ok. intros g Hi.
  pose proof (proj1 (Forall_forall _ _) gs_two g Hi) as L. cbv beta in L.
  assert (E : grid_start (format_of d) (typed d' g) = py_do x <- py_get g 0 ; Ret (conv d' d x)).
  { destruct d'; reflexivity. }
  rewrite E, (py_get_nth g 0 (fzero (ops d'))) by lia. reflexivity.
Qed.
Lemma steps_conv : py_map (grid_step (format_of d)) (map (typed d') gs) =
  Ret (map (conv d' d) (spacings (ops d') (fzero (ops d')) gs)).
Proof using All.
  rewrite py_map_map. unfold spacings. rewrite map_map. apply py_map_ok. intros g Hi.
  pose proof (proj1 (Forall_forall _ _) gs_two g Hi) as L. cbv beta in L.
  assert (E : grid_step (format_of d) (typed d' g) =
    py_do b <- py_get g 1 ; py_do a <- py_get g 0 ; Ret (conv d' d (fsub (ops d') b a))).
  { destruct d'; reflexivity. }
  rewrite E, (py_get_nth g 0 (fzero (ops d'))), (py_get_nth g 1 (fzero (ops d'))) by lia. reflexivity.
Qed.

Lemma seen_shape : forall (r : outcome unit * list (num d)) sh (a : py unit) data,
  (let (a, data) := raw_result r in (a, typed d data)) = (a, data) ->
  py_bind a (fun _ => Ret (mkT sh data)) = py_bind (seen r) (fun x => Ret (mkT sh x)).
Proof. intros [[u|msg|] l] sh a data H; injection H as <- <-; reflexivity. Qed.

Lemma grids_regular_case : assume = true \/ Forall (evenly_spaced (ops d')) gs ->
  let dims := map zlen gs in
  let starts := map (conv d' d) (firsts (fzero (ops d')) gs) in
  let steps := map (conv d' d) (spacings (ops d') (fzero (ops d')) gs) in
  let shaped r := (py_bind (seen r) (fun x => Ret (mkT (nd_shape o0) x)), @None nparray) in
  call "linear" = shaped (mlr_interpn (ops d) c dims starts steps (nd_data vals) xs zeros) /\
  call "nearest" = shaped (nr_interpn (ops d) c dims starts steps (nd_data vals) xs zeros) /\
  call "cubic" = shaped (mcr_interpn (ops d) c dims starts steps (nd_data vals) lin xs zeros).
Proof using All.
  intros He dims starts steps shaped.
  assert (R : (if assume then Ret true else grids_regular_from true (map (typed d') gs)) = Ret true).
  { destruct assume; [reflexivity|]. destruct He as [He|He]; [discriminate He|].
    rewrite regular_typed. destruct (check_regular_from_spec (ops d') gs true gs_two) as (b & -> & Hb).
    f_equal. apply Hb. auto. }
  assert (K : forall method fam r, method_family method = Ret fam ->
    regular_raw c (format_of d) fam lin dims starts steps (nd_data vals) xs zeros = raw_result r ->
    call method = shaped r).
  { intros method fam r Hm Hr. unfold call, typed_interpn. rewrite first_obs. cbn [py_bind].
    rewrite grid_data, obs_data. change (t_data (tnd d vals)) with (NpFloat (stored d (nd_data vals))).
    cbn [py_bind]. rewrite dtype_stored, R. cbn [py_bind]. rewrite starts_conv, steps_conv. cbn [py_bind].
    rewrite sizes_typed, Hm. cbn [py_bind t_data].
    match goal with |- context [regular_call ?a1 ?a2 ?a3 ?a4 ?a5 ?a6 ?a7 ?a8 ?a9 ?a10] =>
      change (regular_call a1 a2 a3 a4 a5 a6 a7 a8 a9 a10) with
        (regular_call c (format_of d) fam lin dims (typed d starts) (typed d steps) (typed d (nd_data vals))
           (map (typed d) xs) (typed d zeros)) end.
    rewrite (call_regular_typed c d fam lin dims starts steps (nd_data vals) xs zeros) by apply dims_zlen.
    rewrite Hr. unfold shaped. destruct r as [[u|msg|] l]; reflexivity. }
  assert (U := unpack_le _ xs). unfold xs at 1 in U. rewrite map_length in U. specialize (U Lo). unfold num in U.
  assert (D : dims_ok dims = true) by apply dims_zlen.
  repeat split; eapply K; try reflexivity; cbn [regular_raw];
    unfold raw_linear_regular, raw_nearest_regular, raw_cubic_regular; rewrite D, U; reflexivity.
Qed.

Lemma grids_irregular_case : d <> d' -> assume = false -> ~ Forall (evenly_spaced (ops d')) gs ->
  forall method, In method ["linear"; "nearest"; "cubic"]%string -> call method = (Raise TypeError, None).
Proof using All.
  intros Hd Ha He method Hm.
  assert (R : (if assume then Ret true else grids_regular_from true (map (typed d') gs)) = Ret false).
  { rewrite Ha, regular_typed. destruct (check_regular_from_spec (ops d') gs true gs_two) as (b & -> & Hb).
    f_equal. destruct b; [|reflexivity]. exfalso. apply He. apply Hb. reflexivity. }
  assert (V : views (np_view (format_of d)) (map (typed d') gs) = None).
  { apply views_none. rewrite Forall_map. intro K. destruct gs as [|g l]; [apply He; constructor|].
    inversion K as [|g' l' (x & Hx) K']; subst. clear - Hx Hd. destruct d, d'; try congruence; discriminate Hx. }
  assert (Fm : exists fam, method_family method = Ret fam).
  { destruct Hm as [<-|[<-|[<-|[]]]]; eexists; reflexivity. }
  destruct Fm as (fam & Fm).
  unfold call, typed_interpn. rewrite first_obs. cbn [py_bind].
  rewrite grid_data, obs_data. change (t_data (tnd d vals)) with (NpFloat (stored d (nd_data vals))).
  cbn [py_bind]. rewrite dtype_stored, R. cbn [py_bind]. rewrite Fm. cbn [py_bind t_data].
  unfold rectilinear_call. rewrite V. reflexivity.
Qed.
End Grids.

(** ** Constructors *)
Lemma store_same : forall d l, store d (typed d l) = stored d l.
Proof. intros [|] l; unfold store, stored; cbn; rewrite map_id; reflexivity. Qed.
Lemma store_conv : forall d d' l, store d' (typed d l) = stored d' (map (conv d d') l).
Proof. intros [|] d' l; reflexivity. Qed.
Lemma dtype_store : forall d x, dtype_of (store d x) = d.
Proof. intros [|] x; reflexivity. Qed.
Lemma arrtype_typed : forall d l, arrtype (typed d l) = d.
Proof. intros [|] l; reflexivity. Qed.

Lemma C50_proof_regular : forall fam d d1 d2 dims starts steps vals lin m,
  regular_new fam dims (typed d1 starts) (typed d2 steps) (typed d vals) lin = Ret m ->
  m = RegModel dims (stored d (map (conv d1 d) starts)) (stored d (map (conv d2 d) steps)) (stored d vals) lin.
Proof.
  intros fam d d1 d2 dims starts steps vals lin m H. unfold regular_new in H.
  destruct (make_regular_inv _ _ _ H) as (-> & _). rewrite arrtype_typed, !store_conv.
  f_equal. rewrite <- store_conv. apply store_same.
Qed.
Lemma C50_proof_rectilinear : forall fam d d1 grids vals lin m,
  rectilinear_new fam (map (typed d1) grids) (typed d vals) lin = Ret m ->
  m = RectModel (map (fun g => stored d (map (conv d1 d) g)) grids) (stored d vals) lin.
Proof.
  intros fam d d1 grids vals lin m H. unfold rectilinear_new in H.
  destruct (make_rectilinear_inv _ _ _ H) as (-> & _). rewrite arrtype_typed, store_same, map_map.
  f_equal. apply map_ext. intro g. apply store_conv.
Qed.
Lemma conv_same : forall d l, map (conv d d) l = l.
Proof. intros [|] l; apply map_id. Qed.

(** One element type. *)
Lemma C50_proof_new_regular : forall fam dims starts steps vals lin m,
  regular_new fam dims starts steps vals lin = Ret m ->
  dtype_of (rm_starts m) = dtype_of (rm_vals m) /\ dtype_of (rm_steps m) = dtype_of (rm_vals m).
Proof.
  intros fam dims starts steps vals lin m H. unfold regular_new in H.
  destruct (make_regular_inv _ _ _ H) as (-> & _). cbn [rm_starts rm_steps rm_vals]. rewrite !dtype_store. auto.
Qed.
Lemma dtype_eqb_eq : forall a b, dtype_eqb a b = true -> a = b.
Proof. intros [|] [|] H; congruence || reflexivity || discriminate H. Qed.
Lemma C50_proof_rectilinear_types : forall fam m, rectilinear_object fam m ->
  forall g, In g (cm_grids m) -> dtype_of g = dtype_of (cm_vals m).
Proof.
  intros fam m H g Hg. apply rectilinear_object_made in H. destruct (make_rectilinear_inv _ _ _ H) as (_ & _ & V).
  unfold rectilinear_valid in V. apply andb_prop in V. destruct V as (_ & V).
  rewrite forallb_forall in V. apply dtype_eqb_eq. apply V. exact Hg.
Qed.
Lemma C50_proof_steps_type : forall fam m, regular_object fam m ->
  dtype_of (rm_steps m) = dtype_of (rm_vals m) /\ (fam = Nearest -> dtype_of (rm_starts m) = dtype_of (rm_vals m)).
Proof.
  intros fam m H. apply regular_object_made in H. destruct (make_regular_inv _ _ _ H) as (_ & _ & V).
  unfold regular_valid in V. apply andb_prop in V. destruct V as (V & V2). apply andb_prop in V. destruct V as (_ & V1).
  split; [apply dtype_eqb_eq; exact V2|]. intros ->. apply dtype_eqb_eq. exact V1.
Qed.

(** Validity in terms of the validator for one element type (C47). *)
Lemma regular_valid_class : forall fam d dims starts steps vals lin,
  regular_object fam (RegModel dims (stored d starts) (stored d steps) (stored d vals) lin) ->
  class_regular_ok (ops d) (maxdims fam) dims starts steps vals = true.
Proof.
  intros fam d dims starts steps vals lin H. apply regular_object_made in H.
  destruct (make_regular_inv _ _ _ H) as (_ & _ & V). unfold regular_valid in V. cbn [rm_dims rm_starts rm_steps rm_vals] in V.
  apply andb_prop in V. destruct V as (V & _). apply andb_prop in V. destruct V as (V & _).
  unfold class_regular_ok. destruct d; exact V.
Qed.
Lemma rectilinear_valid_class : forall fam d grids vals lin,
  rectilinear_object fam (RectModel (map (stored d) grids) (stored d vals) lin) ->
  class_rectilinear_ok (ops d) (maxdims fam) grids vals = true.
Proof.
  intros fam d grids vals lin H. apply rectilinear_object_made in H.
  destruct (make_rectilinear_inv _ _ _ H) as (_ & _ & V). unfold rectilinear_valid in V. cbn [cm_grids cm_vals] in V.
  apply andb_prop in V. destruct V as (V & _). rewrite map_length, map_map in V.
  unfold class_rectilinear_ok.
  assert (E1 : map (fun x => Z.of_nat (asize (stored d x))) grids = map zlen grids).
  { apply map_ext. intro g. destruct d; reflexivity. }
  assert (E2 : forallb ascending (map (stored d) grids) =
    forallb (fun g => forallb (fun h => flt (ops d) (fzero (ops d)) h) (np_diff (ops d) g)) grids).
  { clear. induction grids as [|g gs IH]; [reflexivity|]. cbn [map forallb]. rewrite IH. destruct d; reflexivity. }
  assert (E3 : Z.of_nat (asize (stored d vals)) = zlen vals) by (destruct d; reflexivity).
  rewrite E1, E2, E3 in V. exact V.
Qed.

(** Only declared fields, and all of them. *)
Lemma only_in : forall keys l k v, only keys l = true -> In (k, v) l -> In k keys.
Proof.
  intros keys l k v H Hi. unfold only in H. rewrite forallb_forall in H. specialize (H _ Hi). cbn [fst] in H.
  apply existsb_exists in H. destruct H as (x & Hx & E). apply String.eqb_eq in E. subst x. exact Hx.
Qed.
Lemma need_in : forall k l j, need k l = Ret j -> In k (map fst l).
Proof.
  intros k l j H. unfold need, member in H. destruct (find _ l) as [p|] eqn:E; [|discriminate H].
  apply find_some in E. destruct E as (Hi & E). apply String.eqb_eq in E. subst k. apply in_map. exact Hi.
Qed.
Lemma C48_proof_fields_regular : forall fam l m, load_regular fam (JObj l) = Ret m ->
  forall k, In k (map fst l) <-> In k (["dims"; "starts"; "steps"; "vals"]%string ++ lin_key fam).
Proof.
  intros fam l m H k. unfold load_regular in H.
  match type of H with (if ?b then _ else _) = _ => destruct b eqn:E end; [|discriminate H]. split.
  - intro Hk. apply in_map_iff in Hk. destruct Hk as ((k', v) & <- & Hk). exact (only_in _ _ _ _ E Hk).
  - apply py_bind_ret in H. destruct H as (dims & H1 & H). apply py_bind_ret in H1. destruct H1 as (j1 & H1 & _).
    apply py_bind_ret in H. destruct H as (starts & H2 & H). apply py_bind_ret in H2. destruct H2 as (j2 & H2 & _).
    apply py_bind_ret in H. destruct H as (steps & H3 & H). apply py_bind_ret in H3. destruct H3 as (j3 & H3 & _).
    apply py_bind_ret in H. destruct H as (vals & H4 & H). apply py_bind_ret in H4. destruct H4 as (j4 & H4 & _).
    apply py_bind_ret in H. destruct H as (lin & H5 & _).
    intro Hk. cbn [app] in Hk.
    destruct Hk as [<-|[<-|[<-|[<-|Hk]]]]; try (eapply need_in; eassumption).
    destruct fam; cbn [lin_key] in Hk; try contradiction. destruct Hk as [<-|[]].
    cbn [load_lin] in H5. apply py_bind_ret in H5. destruct H5 as (j5 & H5 & _). eapply need_in; eassumption.
Qed.
Lemma C48_proof_fields_rectilinear : forall fam l m, load_rectilinear fam (JObj l) = Ret m ->
  forall k, In k (map fst l) <-> In k (["grids"; "vals"]%string ++ lin_key fam).
Proof.
  intros fam l m H k. unfold load_rectilinear in H.
  match type of H with (if ?b then _ else _) = _ => destruct b eqn:E end; [|discriminate H]. split.
  - intro Hk. apply in_map_iff in Hk. destruct Hk as ((k', v) & <- & Hk). exact (only_in _ _ _ _ E Hk).
  - apply py_bind_ret in H. destruct H as (grids & H1 & H). apply py_bind_ret in H1. destruct H1 as (j1 & H1 & _).
    apply py_bind_ret in H. destruct H as (vals & H4 & H). apply py_bind_ret in H4. destruct H4 as (j4 & H4 & _).
    apply py_bind_ret in H. destruct H as (lin & H5 & _).
    intro Hk. cbn [app] in Hk.
    destruct Hk as [<-|[<-|Hk]]; try (eapply need_in; eassumption).
    destruct fam; cbn [lin_key] in Hk; try contradiction. destruct Hk as [<-|[]].
    cbn [load_lin] in H5. apply py_bind_ret in H5. destruct H5 as (j5 & H5 & _). eapply need_in; eassumption.
Qed.
