(** What is loaded from a document, and check_bounds of the classes with element types. *)
From Coq Require Import Reals Lia Lra List Bool.
From Flocq Require Import Core.Core IEEE754.BinarySingleNaN.
From Verif Require Import Base Ops FInst ModelCore ModelLinear ModelNearest ModelCubic ModelPython ModelSerial
  Spec SpecReal SpecPython SpecSerial SpecDocument PyProofs SerialProofs SerialProofs2 PyBounds.
Import ListNotations.
Unset Implicit Arguments.
Open Scope string_scope.
Open Scope Z_scope.
Open Scope list_scope.

(** ** Members *)
Lemma member_in k l j : member k l = Some j -> In (k, j) l.
Proof.
  unfold member. destruct (find _ l) as [p|] eqn:E; [|discriminate]. intros H. injection H as <-.
  apply find_some in E. destruct E as (Hi & E). apply String.eqb_eq in E. subst k. destruct p; exact Hi.
Qed.
Lemma in_member k l j : NoDup (map fst l) -> In (k, j) l -> member k l = Some j.
Proof.
  unfold member. induction l as [|(k', v) l IH]; intros N Hi; [destruct Hi|]. inversion N as [|? ? Hn N']; subst. cbn [find fst].
  destruct Hi as [Hi|Hi].
  - injection Hi as -> ->. rewrite String.eqb_refl. reflexivity.
  - destruct (String.eqb k' k) eqn:E; [|apply IH; auto]. apply String.eqb_eq in E. subst k'.
    exfalso. apply Hn. apply in_map_iff. exists (k, j). auto.
Qed.
Lemma need_inv k l j : need k l = Ret j -> In (k, j) l.
Proof. unfold need. destruct (member k l) eqn:E; [|discriminate]. intros H. injection H as <-. apply member_in. exact E. Qed.
Lemma in_need k l j : NoDup (map fst l) -> In (k, j) l -> need k l = Ret j.
Proof. intros N H. unfold need. rewrite (in_member _ _ _ N H). reflexivity. Qed.
Lemma only_keys keys l : (forall k, In k (map fst l) -> In k keys) -> only keys l = true.
Proof.
  intros H. unfold only. apply forallb_forall. intros (k, v) Hi. apply existsb_exists. exists k. cbn [fst].
  split; [|apply String.eqb_refl]. apply H. apply in_map_iff. exists (k, v). auto.
Qed.
Lemma only_inv keys l : only keys l = true -> forall k, In k (map fst l) -> In k keys.
Proof. intros H k Hk. apply in_map_iff in Hk. destruct Hk as ((k', v) & <- & Hk). exact (only_in _ _ _ _ H Hk). Qed.
Lemma in_key {k : string} {l} {j : json} : In (k, j) l -> In k (map fst l).
Proof. intros H. apply in_map_iff. exists (k, j). auto. Qed.

(** ** Lists *)
Lemma py_map_forall2 {A B} (f : A -> py B) (P : A -> B -> Prop) l m :
  (forall a b, f a = Ret b -> P a b) -> py_map f l = Ret m -> Forall2 P l m.
Proof.
  intros H. revert m. induction l as [|a l IH]; intros m E; cbn [py_map] in E.
  - injection E as <-. constructor.
  - apply py_bind_ret in E. destruct E as (b & E1 & E). apply py_bind_ret in E. destruct E as (bs & E2 & E).
    injection E as <-. constructor; auto.
Qed.
Lemma forall2_py_map {A B} (f : A -> py B) (P : A -> B -> Prop) l m :
  (forall a b, In a l -> P a b -> f a = Ret b) -> Forall2 P l m -> py_map f l = Ret m.
Proof.
  intros H F. induction F as [|a b l m Hab F IH]; [reflexivity|]. cbn [py_map].
  rewrite (H a b) by (auto; left; reflexivity). cbn [py_bind].
  rewrite IH by (intros; apply H; auto; right; auto). reflexivity.
Qed.

(** ** Numbers and arrays *)
Lemma number_means j x : number j = Ret x -> means_number j x.
Proof.
  destruct j as [|b|z|y|s|j|l|l]; cbn [number]; intros H; try discriminate H.
  - injection H as <-. constructor.
  - injection H as <-. constructor.
  - destruct (is_finite (int_to_f64 z)) eqn:E; [|discriminate H]. injection H as <-. constructor. exact E.
  - injection H as <-. constructor.
Qed.
Lemma means_number_load j x : means_number j x -> number j = Ret x.
Proof. intros [y|z E|b|]; cbn [number]; auto. rewrite E. reflexivity. Qed.

Lemma load_array_means j a : load_array j = Ret a -> means_array j a.
Proof.
  unfold load_array. destruct j as [| | | | | | |l]; try discriminate.
  destruct (only ["data"; "dtype"] l) eqn:Ek; [|discriminate].
  destruct (member "dtype" l) as [[| | | |s| | |]|] eqn:Ed; try discriminate.
  destruct (member "data" l) as [data|] eqn:Ex; [|discriminate].
  intros H. apply py_bind_ret in H. destruct H as (d & Hd & H). apply py_bind_ret in H. destruct H as (items & Hi & H).
  apply py_bind_ret in H. destruct H as (xs & Hx & H).
  apply member_in in Ed. apply member_in in Ex.
  exists l, items, xs. split; [reflexivity|]. split; [|split; [|split]].
  - intros k. split; [apply only_inv; exact Ek|]. intros [<-|[<-|[]]]; [exact (in_key Ex)|exact (in_key Ed)].
  - destruct data as [| | | | |[| | | | | |its|]|its|]; try discriminate Hi; injection Hi as <-; auto.
  - exact (py_map_forall2 _ _ _ _ number_means Hx).
  - destruct (String.eqb s "float32") eqn:E1.
    + apply String.eqb_eq in E1. subst s. injection Hd as <-. injection H as <-. left. auto.
    + destruct (String.eqb s "float64") eqn:E2; [|discriminate Hd].
      apply String.eqb_eq in E2. subst s. injection Hd as <-. injection H as <-. right. auto.
Qed.
Lemma means_array_load j a : distinct_keys j -> means_array j a -> load_array j = Ret a.
Proof.
  intros N (l & items & xs & -> & K & Hd & Hx & Ht).
  assert (N' : NoDup (map fst l)) by (inversion N as [? N'| |? A]; subst; [exact N'|exfalso; exact (A l eq_refl)]).
  unfold load_array. rewrite only_keys by (intros k Hk; apply K; exact Hk).
  assert (M : py_map number items = Ret xs) by exact (forall2_py_map _ _ _ _ (fun a b _ => means_number_load a b) Hx).
  destruct Ht as [(T & ->)|(T & ->)]; destruct Hd as [D|D];
    rewrite (in_member _ _ _ N' T), (in_member _ _ _ N' D); cbn [String.eqb Ascii.eqb Bool.eqb py_bind]; rewrite M; reflexivity.
Qed.
Lemma ints_load dims : py_map load_int (map JInt dims) = Ret dims.
Proof. rewrite py_map_map, (py_map_ret _ _ _ (fun x => x)) by reflexivity. rewrite map_id. reflexivity. Qed.
Lemma ints_inv l dims : py_map load_int l = Ret dims -> l = map JInt dims.
Proof.
  intros H. apply (py_map_forall2 load_int (fun j z => j = JInt z)) in H.
  - induction H as [|j z l m E F IH]; [reflexivity|]. cbn [map]. subst j. rewrite IH. reflexivity.
  - intros [| |z| | | | |] y E; try discriminate E. injection E as <-. reflexivity.
Qed.
Lemma load_lin_means fam l lin : load_lin fam l = Ret lin -> means_flag fam l lin.
Proof.
  destruct fam; cbn [load_lin means_flag]; intros H; try (injection H as <-; reflexivity).
  apply py_bind_ret in H. destruct H as (j & H1 & H). apply need_inv in H1. destruct j as [|b| | | | | |]; try discriminate H.
  injection H as <-. exists b. auto.
Qed.
Lemma means_flag_load fam l lin : NoDup (map fst l) -> means_flag fam l lin -> load_lin fam l = Ret lin.
Proof.
  intros N. destruct fam; cbn [load_lin means_flag]; try (intros ->; reflexivity).
  intros (b & H & ->). rewrite (in_need _ _ _ N H). reflexivity.
Qed.
Lemma flag_in fam l lin k : means_flag fam l lin -> In k (flag_keys fam) -> In k (map fst l).
Proof.
  destruct fam; cbn [flag_keys means_flag]; intros F Hk; [destruct Hk|destruct Hk|]. destruct F as (b & Hb & _). destruct Hk as [Hk|[]]. subst k. exact (in_key Hb).
Qed.

Lemma distinct_obj_inv l : distinct_keys (JObj l) -> NoDup (map fst l) /\ forall k j, In (k, j) l -> distinct_keys j.
Proof.
  intros N. inversion N as [? N' F| |? A]; subst; [|exfalso; exact (A l eq_refl)]. split; [exact N'|].
  intros k j H. rewrite Forall_forall in F. exact (F _ H).
Qed.
Lemma distinct_list_inv l : distinct_keys (JList l) -> forall j, In j l -> distinct_keys j.
Proof.
  intros N. inversion N as [|? F|? A B]; subst; [|exfalso; exact (B l eq_refl)]. apply Forall_forall. exact F.
Qed.

Theorem C48_proof_document_regular fam l m : distinct_keys (JObj l) ->
  (load_regular fam (JObj l) = Ret m <-> means_regular fam l m /\ regular_object fam m).
Proof.
  intros N. destruct (distinct_obj_inv _ N) as (N' & S). split.
  - intros H. split; [|exact (reg_loaded fam _ _ H)].
    cbn [load_regular] in H. match type of H with (if ?b then _ else _) = _ => destruct b eqn:E end; [|discriminate H].
    apply py_bind_ret in H. destruct H as (dims & H1 & H). apply py_bind_ret in H1. destruct H1 as (j1 & H1 & H1').
    apply py_bind_ret in H1'. destruct H1' as (ds & H1' & H1''). destruct j1 as [| | | | | |ds'|]; try discriminate H1'. injection H1' as <-.
    apply ints_inv in H1''. subst ds'.
    apply py_bind_ret in H. destruct H as (starts & H2 & H). apply py_bind_ret in H2. destruct H2 as (j2 & H2 & H2').
    apply py_bind_ret in H. destruct H as (steps & H3 & H). apply py_bind_ret in H3. destruct H3 as (j3 & H3 & H3').
    apply py_bind_ret in H. destruct H as (vals & H4 & H). apply py_bind_ret in H4. destruct H4 as (j4 & H4 & H4').
    apply py_bind_ret in H. destruct H as (lin & H5 & H).
    destruct (make_regular_inv _ _ _ H) as (-> & _). cbn [rm_dims rm_starts rm_steps rm_vals rm_lin].
    apply need_inv in H1. apply need_inv in H2. apply need_inv in H3. apply need_inv in H4. apply load_lin_means in H5.
    apply load_array_means in H2'. apply load_array_means in H3'. apply load_array_means in H4'.
    unfold means_regular. cbn [rm_dims rm_starts rm_steps rm_vals rm_lin]. split; [|split; [|split; [|split; [|split]]]]; eauto.
    intros k. split; [apply (only_inv _ _ E)|]. cbn [app].
    intros [<-|[<-|[<-|[<-|Hk]]]]; [exact (in_key H1)|exact (in_key H2)|exact (in_key H3)|exact (in_key H4)|exact (flag_in _ _ _ _ H5 Hk)].
  - intros ((K & D & (j2 & H2 & A2) & (j3 & H3 & A3) & (j4 & H4 & A4) & F) & O). apply regular_object_made in O.
    cbn [load_regular]. rewrite only_keys by (intros k Hk; apply K; exact Hk).
    rewrite (in_need _ _ _ N' D). cbn [py_bind load_list]. rewrite ints_load. cbn [py_bind].
    rewrite (in_need _ _ _ N' H2). cbn [py_bind]. rewrite (means_array_load _ _ (S _ _ H2) A2). cbn [py_bind].
    rewrite (in_need _ _ _ N' H3). cbn [py_bind]. rewrite (means_array_load _ _ (S _ _ H3) A3). cbn [py_bind].
    rewrite (in_need _ _ _ N' H4). cbn [py_bind]. rewrite (means_array_load _ _ (S _ _ H4) A4). cbn [py_bind].
    rewrite (means_flag_load _ _ _ N' F). cbn [py_bind]. destruct m. exact O.
Qed.
Theorem C48_proof_document_rectilinear fam l m : distinct_keys (JObj l) ->
  (load_rectilinear fam (JObj l) = Ret m <-> means_rectilinear fam l m /\ rectilinear_object fam m).
Proof.
  intros N. destruct (distinct_obj_inv _ N) as (N' & S). split.
  - intros H. split; [|exact (rect_loaded fam _ _ H)].
    cbn [load_rectilinear] in H. match type of H with (if ?b then _ else _) = _ => destruct b eqn:E end; [|discriminate H].
    apply py_bind_ret in H. destruct H as (grids & H1 & H). apply py_bind_ret in H1. destruct H1 as (j1 & H1 & H1').
    apply py_bind_ret in H1'. destruct H1' as (ds & H1' & H1''). destruct j1 as [| | | | | |ds'|]; try discriminate H1'. injection H1' as <-.
    apply py_bind_ret in H. destruct H as (vals & H4 & H). apply py_bind_ret in H4. destruct H4 as (j4 & H4 & H4').
    apply py_bind_ret in H. destruct H as (lin & H5 & H).
    destruct (make_rectilinear_inv _ _ _ H) as (-> & _).
    apply need_inv in H1. apply need_inv in H4. apply load_lin_means in H5. apply load_array_means in H4'.
    apply (py_map_forall2 _ _ _ _ load_array_means) in H1''.
    unfold means_rectilinear. cbn [cm_grids cm_vals cm_lin]. split; [|split; [|split]]; eauto.
    intros k. split; [apply (only_inv _ _ E)|]. cbn [app].
    intros [<-|[<-|Hk]]; [exact (in_key H1)|exact (in_key H4)|exact (flag_in _ _ _ _ H5 Hk)].
  - intros ((K & (js & D & G) & (j4 & H4 & A4) & F) & O). apply rectilinear_object_made in O.
    cbn [load_rectilinear]. rewrite only_keys by (intros k Hk; apply K; exact Hk).
    rewrite (in_need _ _ _ N' D). cbn [py_bind load_list].
    rewrite (forall2_py_map _ _ _ _ (fun a b Ha => means_array_load a b (distinct_list_inv _ (S _ _ D) a Ha)) G). cbn [py_bind].
    rewrite (in_need _ _ _ N' H4). cbn [py_bind]. rewrite (means_array_load _ _ (S _ _ H4) A4). cbn [py_bind].
    rewrite (means_flag_load _ _ _ N' F). cbn [py_bind]. destruct m. exact O.
Qed.

(** ** check_bounds *)
Lemma view_dtype a d : dtype_of a <> d -> view (format_of d) a = None.
Proof. intros H. destruct a, d; try reflexivity; contradiction H; reflexivity. Qed.
Lemma view_some a d : dtype_of a = d -> exists l, view (format_of d) a = Some l /\ a = stored d l.
Proof. intros <-. destruct a as [l|l]; exists l; auto. Qed.
Theorem C49_proof_check_mixed_regular c m obs atol : Forall (fun k => 0 <= k) (rm_dims m) ->
  let d := dtype_of (rm_vals m) in
  dtype_of (rm_starts m) <> d \/ dtype_of (rm_steps m) <> d \/ ~ Forall (has_type d) obs ->
  regular_check_bounds c m obs atol = Raise TypeError.
Proof.
  intros Hd d H. unfold regular_check_bounds. fold d. rewrite (dims_nonneg _ Hd). cbn [negb].
  destruct H as [H|[H|H]].
  - rewrite (view_dtype _ _ H). reflexivity.
  - rewrite (view_dtype _ _ H). destruct (view (format_of d) (rm_starts m)); reflexivity.
  - rewrite (views_none _ _ H). destruct (view (format_of d) (rm_starts m)); [|reflexivity].
    destruct (view (format_of d) (rm_steps m)); reflexivity.
Qed.
Lemma view_views_none d (gs : list array) : (exists g, In g gs /\ dtype_of g <> d) -> views (view (format_of d)) gs = None.
Proof.
  intros (g & Hg & H). induction gs as [|a gs IH]; [destruct Hg|]. cbn [views]. destruct Hg as [->|Hg].
  - rewrite (view_dtype _ _ H). reflexivity.
  - rewrite (IH Hg). destruct (view (format_of d) a); reflexivity.
Qed.
Lemma view_views_stored d ls : views (view (format_of d)) (map (stored d) ls) = Some ls.
Proof. induction ls as [|l ls IH]; [reflexivity|]. cbn [views map]. rewrite view_wrap, IH. reflexivity. Qed.
Theorem C49_proof_check_mixed_rectilinear m obs atol :
  let d := dtype_of (cm_vals m) in
  (exists g, In g (cm_grids m) /\ dtype_of g <> d) \/ ~ Forall (has_type d) obs ->
  rectilinear_check_bounds m obs atol = Raise TypeError.
Proof.
  intros d H. unfold rectilinear_check_bounds. fold d. destruct H as [H|H].
  - rewrite (view_views_none _ _ H). reflexivity.
  - rewrite (views_none _ _ H). destruct (views (view (format_of d)) (cm_grids m)); reflexivity.
Qed.

Open Scope R_scope.
Theorem C47_proof_object_check_rectilinear fam d (grids : list (list (num d))) vals lin obs (atol : f64) :
  rectilinear_object fam (RectModel (map (stored d) grids) (stored d vals) lin) ->
  Forall (fun g => (1 <= length g)%nat) grids -> length obs = length grids ->
  let a := conv Float64 d atol in finite_of d a = true ->
  Forall (Forall (fun x => finite_of d x = true)) grids -> Forall (Forall (fun x => finite_of d x = true)) obs ->
  exists flags, rectilinear_check_bounds (RectModel (map (stored d) grids) (stored d vals) lin) (map (typed d) obs) atol = Ret flags /\
    length flags = length grids /\ forall k, (k < length grids)%nat -> let g := nth k grids [] in
      let lo := real_of d (nth 0 g (fzero (ops d))) in let hi := real_of d (last g (fzero (ops d))) in
      (beyond lo hi (real_of d a) (map (real_of d) (nth k obs [])) -> nth k flags false = true) /\
      (0 < real_of d a -> Forall (fun x => lo <= real_of d x <= hi) (nth k obs []) -> nth k flags false = false).
Proof.
  intros O G L a Fa Fg Fo. apply rectilinear_valid_class in O.
  assert (M : (match fam with Nearest => 6 | _ => 8 end <= 8)%nat) by (destruct fam; lia).
  unfold rectilinear_check_bounds. cbn [cm_grids cm_vals]. rewrite dtype_stored. cbv zeta. rewrite view_views_stored, views_typed.
  destruct d.
  - exact (class_bounds_rect_ieee 24 128 Hp32 He32 _ grids vals obs a O M G L Fa Fg Fo).
  - exact (class_bounds_rect_ieee 53 1024 Hp64 He64 _ grids vals obs a O M G L Fa Fg Fo).
Qed.
Theorem C47_proof_object_check_regular c fam d dims (starts steps vals : list (num d)) lin obs (atol : f64) :
  regular_object fam (RegModel dims (stored d starts) (stored d steps) (stored d vals) lin) ->
  Forall (fun k => (1 <= k < two64)%Z) dims -> length obs = length dims ->
  let a := conv Float64 d atol in finite_of d a = true ->
  Forall (Forall (fun x => finite_of d x = true)) obs ->
  exists flags, regular_check_bounds c (RegModel dims (stored d starts) (stored d steps) (stored d vals) lin) (map (typed d) obs) atol = Ret flags /\
    length flags = length dims /\ forall k, (k < length dims)%nat ->
    exists n, of_usize (ops d) (nth k dims 0 - 1)%Z = Some n /\
      let first := nth k starts (fzero (ops d)) in let lst := fadd (ops d) first (fmul (ops d) (nth k steps (fzero (ops d))) n) in
      finite_of d first = true -> finite_of d lst = true ->
      let lo := Rmin (real_of d first) (real_of d lst) in let hi := Rmax (real_of d first) (real_of d lst) in
      (beyond lo hi (real_of d a) (map (real_of d) (nth k obs [])) -> nth k flags false = true) /\
      (0 < real_of d a -> Forall (fun x => lo <= real_of d x <= hi) (nth k obs []) -> nth k flags false = false).
Proof.
  intros O G L a Fa Fo. apply regular_valid_class in O.
  assert (M : (match fam with Nearest => 6 | _ => 8 end <= 8)%nat) by (destruct fam; lia).
  unfold regular_check_bounds. cbn [rm_dims rm_starts rm_steps rm_vals]. rewrite dtype_stored. cbv zeta.
  rewrite dims_nonneg by (eapply Forall_impl; [|exact G]; simpl; lia). cbn [negb]. rewrite !view_wrap, views_typed.
  destruct d.
  - exact (class_bounds_reg_ieee 24 128 Hp32 He32 c _ dims starts steps vals obs a O M G L Fa Fo).
  - exact (class_bounds_reg_ieee 53 1024 Hp64 He64 c _ dims starts steps vals obs a O M G L Fa Fo).
Qed.
