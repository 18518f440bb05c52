(** Characterisation of the ten evaluators `interp_one` for any arithmetic. *)
From Coq Require Import ZifyBool ZifyNat PeanoNat.
From Verif Require Import Base Ops ModelCore ModelLinear ModelNearest ModelCubic.
From Verif Require Import Spec CoreLemmas TensorLemmas MethodLemmas SearchLemmas.

Lemma mapM_post A B C (f : A -> outcome B) (g : A -> B -> C) l :
  mapM (fun a => do b <- f a ; Ok (g a b)) l
  = do bs <- mapM f l ; Ok (map (fun p => g (fst p) (snd p)) (combine l bs)).
Proof.
  induction l as [|a l IH]; simpl; auto. rewrite IH.
  destruct (f a); simpl; auto. destruct (mapM f l); reflexivity.
Qed.

Lemma map_combine_nth A B C (g : A -> B -> C) la lb k da db dc :
  length la = length lb -> (k < length la)%nat ->
  nth k (map (fun p => g (fst p) (snd p)) (combine la lb)) dc = g (nth k la da) (nth k lb db).
Proof.
  intros Hl Hk.
  rewrite (nth_indep _ dc (g (fst (da, db)) (snd (da, db))))
    by (rewrite map_length, combine_length; lia).
  rewrite (map_nth (fun p : A * B => g (fst p) (snd p)) (combine la lb) (da, db) k).
  rewrite combine_nth by auto. reflexivity.
Qed.

Lemma map_fst_combine A B C (la : list A) (lb : list B) (h : B -> C) :
  length la = length lb -> map (fun p => h (snd p)) (combine la lb) = map h lb.
Proof.
  revert lb; induction la; destruct lb; simpl; intros; try lia; auto. f_equal. auto.
Qed.

Section Char.
Context {F : Type} (o : Ops F) (c : cfg).

Notation usize_total := (usize_converts o).
Definition uf (n : Z) : F := match of_usize o n with Some v => v | None => fzero o end.

(** Struct invariants, FP = smallest admissible axis length. *)
Definition reg_wf (FP : Z) (s : regular F) : Prop :=
  (0 < length (r_dims s))%nat /\ length (r_starts s) = length (r_dims s) /\
  length (r_steps s) = length (r_dims s) /\
  Forall (fun d => FP <= d) (r_dims s) /\ vals_wf (r_dims s) (r_vals s).

Definition rect_wf (FP : Z) (s : rectilinear F) : Prop :=
  (0 < length (g_grids s))%nat /\ g_dims s = map zlen (g_grids s) /\
  Forall (fun g => FP <= zlen g) (g_grids s) /\ vals_wf (g_dims s) (g_vals s).

Lemma Forall_nth_lt A (P : A -> Prop) l k d : Forall P l -> (k < length l)%nat -> P (nth k l d).
Proof. intros H Hk. rewrite Forall_forall in H. apply H, nth_In; auto. Qed.

Lemma dims_bound dims (vals : list F) k :
  Forall (fun d => 1 <= d) dims -> vals_wf dims vals -> (k < length dims)%nat ->
  nth k dims 0 <= isize_max.
Proof.
  intros H (H1 & H2) Hk. assert (G := @zprod_ge_each dims _ H (nth_In dims 0 Hk)). lia.
Qed.

Lemma vals_wf_two64 dims (vals : list F) : vals_wf dims vals -> zprod dims < two64.
Proof. intros (H1 & H2). unfold isize_max, two64 in *. lia. Qed.

Lemma Forall_le_1 dims FP : 1 <= FP -> Forall (fun d => FP <= d) dims -> Forall (fun d => 1 <= d) dims.
Proof. intros. eapply Forall_impl; [|eauto]. simpl; intros; lia. Qed.

(** ** Per-axis building blocks, as pure functions *)

(** Combination of two values with weight t. *)
Definition lin_nd (t : F) (vs : list F) : F :=
  match vs with
  | [y0; y1] => let dy := fsub o y1 y0 in
                if use_fma c then fmuladd o t dy y0 else fadd o y0 (fmul o t dy)
  | _ => fzero o
  end.

Lemma lin_node_ok t vs : length vs = 2%nat -> lin_node o c t vs = Ok (lin_nd t vs).
Proof. destruct vs as [|a [|b [|]]]; simpl; intros; try lia. reflexivity. Qed.

Definition reg_dtp (fma : bool) (start step xi : F) (origin : Z) : F :=
  fdiv o (fsub o xi (if fma then fmuladd o step (uf origin) start
                     else fadd o start (fmul o step (uf origin)))) step.

Definition reg_cell (start step : F) (d : Z) (v : F) : outcome Z :=
  do i <- ok_or (to_isize o (ffloor o (fdiv o (fsub o v start) step))) msg_repr ;
  Ok (Z.min (Z.max i 0) (d - 2)).

Notation rst s k := (nth k (r_starts s) (fzero o)).
Notation rsp s k := (nth k (r_steps s) (fzero o)).
Notation rdm s k := (nth k (r_dims s) 0).
Notation xk x k := (nth k x (fzero o)).

Lemma uf_ok n : usize_total -> 0 <= n < two64 -> of_usize o n = Some (uf n).
Proof. intros H Hn. unfold uf. destruct (H n Hn) as (v & ->). reflexivity. Qed.

Lemma reg_get_loc_eq s v k : reg_wf 2 s -> (k < length (r_dims s))%nat ->
  reg_get_loc o s v k = reg_cell (rst s k) (rsp s k) (rdm s k) v.
Proof.
  intros (H0 & H1 & H2 & H3 & H4) Hk. unfold reg_get_loc, reg_cell.
  rewrite (aget_nth _ (fzero o)) by lia. cbn [bind].
  rewrite (aget_nth _ (fzero o)) by lia. cbn [bind].
  rewrite (aget_nth _ 0) by lia. cbn [bind].
  assert (B := @dims_bound _ _ k (@Forall_le_1 _ 2 ltac:(lia) H3) H4 Hk).
  assert (D := Forall_nth_lt 0 H3 Hk). simpl in D.
  apply bind_ext. intros i. rewrite clip_loc_eq by lia. reflexivity.
Qed.

Lemma reg_cell_range start step d v i : 2 <= d -> reg_cell start step d v = Ok i -> 0 <= i <= d - 2.
Proof.
  unfold reg_cell. intros Hd H. apply bind_ok in H as (j & _ & H). inversion H; subst. lia.
Qed.

Lemma reg_dt_eq fma s xi k origin : usize_total -> reg_wf 2 s -> (k < length (r_dims s))%nat ->
  0 <= origin < two64 ->
  reg_dt o fma s xi k origin = Ok (reg_dtp fma (rst s k) (rsp s k) xi origin).
Proof.
  intros Ht (H0 & H1 & H2 & H3 & H4) Hk Ho. unfold reg_dt.
  rewrite uf_ok by auto. cbn [ok_or bind].
  rewrite (aget_nth _ (fzero o)) by lia. cbn [bind].
  rewrite (aget_nth _ (fzero o)) by lia. reflexivity.
Qed.

Lemma mapM_seq_ext A (f g : nat -> outcome A) n :
  (forall k, (k < n)%nat -> f k = g k) -> mapM f (seq 0 n) = mapM g (seq 0 n).
Proof. intros H. apply mapM_ext. intros k Hk. apply in_seq in Hk. apply H. lia. Qed.

Definition reg_cells (s : regular F) (x : list F) : outcome (list Z) :=
  mapM (fun k => reg_cell (rst s k) (rsp s k) (rdm s k) (xk x k)) (seq 0 (length (r_dims s))).

Lemma reg_cells_foot s x os : reg_wf 2 s -> reg_cells s x = Ok os -> foot_in 2 (r_dims s) os.
Proof.
  intros (H0 & H1 & H2 & H3 & H4) H. unfold reg_cells in H.
  assert (L := mapM_length _ _ H). rewrite seq_length in L.
  apply foot_in_intro; [lia|]. intros k Hk.
  assert (E := @mapM_snoc_nth _ 0 _ _ _ H k Hk).
  assert (D := Forall_nth_lt 0 H3 Hk). simpl in D.
  apply reg_cell_range in E; lia.
Qed.

Lemma foot_two64 FP dims (vals : list F) os k :
  (1 <= FP)%nat -> vals_wf dims vals -> foot_in FP dims os -> (k < length os)%nat ->
  0 <= nth k os 0 /\ nth k os 0 + Z.of_nat FP <= isize_max.
Proof.
  intros HF Hv Hf Hk. assert (G := @foot_in_nth _ _ _ k Hf Hk).
  assert (L := foot_in_length Hf).
  assert (B := @dims_bound dims vals k (foot_in_pos HF Hf) Hv ltac:(lia)). lia.
Qed.

(** ** MultilinearRegular *)
Theorem mlr_char s x : usize_total -> reg_wf 2 s -> length x = length (r_dims s) ->
  mlr_interp_one o c s x =
  do os <- reg_cells s x ;
  Ok (tens 2 (entry (fzero o) (r_dims s) (r_vals s))
        (fun k => lin_nd (reg_dtp (use_fma c) (rst s k) (rsp s k) (xk x k) (nth k os 0)))
        os (length (r_dims s)) []).
Proof.
  intros Ht W Lx. assert (W' := W). destruct W as (H0 & H1 & H2 & H3 & H4).
  unfold mlr_interp_one.
  rewrite flat_setup_spec by (first [eapply vals_wf_two64; eassumption | apply (@Forall_le_1 _ 2); [lia|assumption]]).
  rewrite (mapM_seq_ext _ (fun k => do i <- reg_cell (rst s k) (rsp s k) (rdm s k) (xk x k) ;
     Ok (i, reg_dtp (use_fma c) (rst s k) (rsp s k) (xk x k) i))).
  2:{ intros k Hk. rewrite (aget_nth _ (fzero o)) by lia. cbn [bind].
      rewrite reg_get_loc_eq by auto.
      destruct (reg_cell _ _ _ _) as [i| |] eqn:E; cbn [bind]; auto.
      assert (B := @dims_bound _ _ k (@Forall_le_1 _ 2 ltac:(lia) H3) H4 Hk).
      assert (D := Forall_nth_lt 0 H3 Hk). simpl in D.
      apply reg_cell_range in E; [|lia].
      rewrite reg_dt_eq; auto. unfold isize_max, two64 in *; lia. }
  rewrite mapM_post. fold (reg_cells s x).
  destruct (reg_cells s x) as [os| |] eqn:E; cbn [bind]; auto.
  assert (Lo := mapM_length _ _ E). rewrite seq_length in Lo.
  assert (Hf := @reg_cells_foot s x os W' E).
  rewrite map_map. cbn [fst]. rewrite (map_fst_combine (seq 0 (length (r_dims s))) os (fun z => z)) by (rewrite seq_length; lia).
  rewrite map_id. rewrite map_map. cbn [snd].
  apply flat_char; auto; [apply offset2_spec|].
  intros k vs Hk Hvs.
  rewrite (aget_nth _ (fzero o)) by (rewrite map_length, combine_length, seq_length; lia).
  cbn [bind].
  rewrite (map_combine_nth (fun k i => reg_dtp (use_fma c) (rst s k) (rsp s k) (xk x k) i)
             _ _ 0%nat 0) by (rewrite seq_length; lia).
  rewrite seq_nth by lia. apply lin_node_ok; auto.
Qed.

Ltac mlc_setup FP := rewrite flat_setup_spec by
  (first [eapply vals_wf_two64; eassumption | apply (@Forall_le_1 _ FP); [lia|assumption]]).

(** ** MultilinearRegularRecursive *)
Theorem mlrr_char maxdims s x : usize_total -> reg_wf 2 s -> length x = length (r_dims s) ->
  (length (r_dims s) <= maxdims)%nat ->
  mlrr_interp_one o c maxdims s x =
  do os <- reg_cells s x ;
  Ok (tens 2 (entry (fzero o) (r_dims s) (r_vals s))
        (fun k => lin_nd (reg_dtp false (rst s k) (rsp s k) (xk x k) (nth k os 0)))
        os (length (r_dims s)) []).
Proof.
  intros Ht W Lx Hm. assert (W' := W). destruct W as (H0 & H1 & H2 & H3 & H4).
  unfold mlrr_interp_one.
  replace (negb _) with false by lia.
  rewrite rec_dimprod_spec by
   (first [eapply vals_wf_two64; eassumption | apply (@Forall_le_1 _ 2); [lia|assumption]]).
  cbn [bind].
  rewrite (mapM_seq_ext _ (fun k => reg_cell (rst s k) (rsp s k) (rdm s k) (xk x k))).
  2:{ intros k Hk. rewrite (aget_nth _ (fzero o)) by lia. cbn [bind].
      rewrite reg_get_loc_eq by auto. reflexivity. }
  fold (reg_cells s x).
  destruct (reg_cells s x) as [os| |] eqn:E; cbn [bind]; auto.
  assert (Lo := mapM_length _ _ E). rewrite seq_length in Lo.
  assert (Hf := @reg_cells_foot s x os W' E).
  rewrite (mapM_ok_map _ (fun k => reg_dtp false (rst s k) (rsp s k) (xk x k) (nth k os 0))).
  2:{ intros k Hk. apply in_seq in Hk. rewrite (aget_nth _ (fzero o)) by lia. cbn [bind].
      rewrite (aget_nth _ 0) by lia. cbn [bind].
      assert (B := @foot_two64 2 _ _ os k ltac:(lia) H4 Hf ltac:(lia)).
      apply reg_dt_eq; auto; try lia. unfold isize_max, two64 in *; lia. }
  cbn [bind].
  destruct (@rec_char F c 2 ltac:(lia) (r_dims s) os (r_vals s) (fzero o)
     (fun ind ys => do t <- aget (map (fun k => reg_dtp false (rst s k) (rsp s k) (xk x k) (nth k os 0))
                     (seq 0 (length (r_dims s)))) ind ; lin_node o c t ys)
     (fun k => lin_nd (reg_dtp false (rst s k) (rsp s k) (xk x k) (nth k os 0)))) as (loc & El); auto.
  { intros k vs Hk Hvs.
    rewrite (aget_nth _ (reg_dtp false (rst s 0) (rsp s 0) (xk x 0) (nth 0 os 0)))
      by (rewrite map_length, seq_length; lia).
    cbn [bind].
    rewrite (map_nth (fun k => reg_dtp false (rst s k) (rsp s k) (xk x k) (nth k os 0))).
    rewrite seq_nth by lia. apply lin_node_ok; auto. }
  rewrite El. reflexivity.
Qed.

(** ** Rectilinear grids *)
Definition pp_of (g : list F) (v : F) : Z :=
  match partition_point (fun x => flt o x v) g with Ok z => z | _ => 0 end.

Lemma pp_of_ok g v : partition_point (fun x => flt o x v) g = Ok (pp_of g v) /\
  0 <= pp_of g v <= zlen g.
Proof.
  unfold pp_of. destruct (partition_point_spec (fun x => flt o x v) g) as (q & E & H & _).
  rewrite E. unfold zlen. split; [reflexivity|lia].
Qed.

Definition rect_cell (g : list F) (v : F) : Z :=
  Z.min (Z.max (pp_of g v - 1) 0) (zlen g - 2).

Notation gk s k := (nth k (g_grids s) (@nil F)).

Lemma rect_dims_nth s k : g_dims s = map zlen (g_grids s) -> (k < length (g_grids s))%nat ->
  nth k (g_dims s) 0 = zlen (gk s k).
Proof.
  intros H Hk. rewrite H. rewrite (nth_indep _ 0 (zlen (@nil F))) by (rewrite map_length; lia).
  apply map_nth.
Qed.

Lemma rect_wf_dims FP s : rect_wf FP s -> length (g_dims s) = length (g_grids s) /\
  Forall (fun d => FP <= d) (g_dims s).
Proof.
  intros (H0 & H1 & H2 & H3). rewrite H1, map_length. split; auto.
  rewrite Forall_map. auto.
Qed.

Lemma rect_bound FP s k : 1 <= FP -> rect_wf FP s -> (k < length (g_grids s))%nat ->
  FP <= zlen (gk s k) <= isize_max /\ nth k (g_dims s) 0 = zlen (gk s k).
Proof.
  intros HF W Hk. assert (W' := W). destruct W as (H0 & H1 & H2 & H3).
  destruct (rect_wf_dims W') as (L & D).
  assert (B := @dims_bound _ _ k (Forall_le_1 HF D) H3 ltac:(lia)).
  rewrite rect_dims_nth in B by auto.
  assert (G := Forall_nth_lt [] H2 Hk). simpl in G. rewrite rect_dims_nth by auto. lia.
Qed.

Lemma rect_get_loc_eq s v k : rect_wf 2 s -> (k < length (g_grids s))%nat ->
  rect_get_loc o c s v k = Ok (rect_cell (gk s k) v).
Proof.
  intros W Hk. destruct (@rect_bound 2 s k ltac:(lia) W Hk) as (B & D).
  destruct (rect_wf_dims W) as (L & _).
  unfold rect_get_loc. rewrite (aget_nth _ []) by lia. cbn [bind].
  destruct (pp_of_ok (gk s k) v) as (E & R). rewrite E. cbn [bind].
  rewrite as_isize_small by lia.
  rewrite isize_sub_ok by (unfold isize_min, isize_max in *; lia). cbn [bind].
  rewrite (aget_nth _ 0) by lia. cbn [bind]. rewrite D.
  rewrite clip_loc_eq by lia. reflexivity.
Qed.

Lemma rect_cell_range g v : 2 <= zlen g -> 0 <= rect_cell g v <= zlen g - 2.
Proof. unfold rect_cell. lia. Qed.

Definition gz (g : list F) (i : Z) : F := nth (Z.to_nat i) g (fzero o).

Definition rect_dtp (g : list F) (xi : F) (i : Z) : F :=
  fdiv o (fsub o xi (gz g i)) (fsub o (gz g (i + 1)) (gz g i)).

Lemma rect_dt_eq s xi k i : rect_wf 2 s -> (k < length (g_grids s))%nat ->
  0 <= i <= zlen (gk s k) - 2 ->
  rect_dt o c s xi k i = Ok (rect_dtp (gk s k) xi i).
Proof.
  intros W Hk Hi. destruct (@rect_bound 2 s k ltac:(lia) W Hk) as (B & D).
  unfold rect_dt. rewrite (aget_nth _ []) by lia. cbn [bind].
  rewrite (idx_nth _ (fzero o)) by lia. cbn [bind].
  rewrite usize_add_ok by (unfold two64, isize_max in *; lia). cbn [bind].
  rewrite (idx_nth _ (fzero o)) by lia. reflexivity.
Qed.

Lemma slice_ok A (d : A) l i j : 0 <= i <= j -> j <= zlen l ->
  slice l i j = Ok (map (fun p => nth (Z.to_nat i + p) l d) (seq 0 (Z.to_nat (j - i)))).
Proof.
  intros H1 H2. unfold slice. replace ((0 <=? i) && (i <=? j) && (j <=? zlen l)) with true by lia.
  f_equal. unfold zlen in H2. apply list_ext.
  - rewrite map_length, seq_length, firstn_length, skipn_length. lia.
  - intros k Hk. rewrite firstn_length, skipn_length in Hk.
    rewrite (nth_error_nth' _ d) by (rewrite firstn_length, skipn_length; lia).
    rewrite (nth_error_nth' _ (nth (Z.to_nat i + 0) l d)) by (rewrite map_length, seq_length; lia).
    rewrite (map_nth (fun p => nth (Z.to_nat i + p) l d)). rewrite seq_nth by lia.
    f_equal. rewrite <- (firstn_skipn (Z.to_nat i) l) at 2.
    rewrite app_nth2 by (rewrite firstn_length; lia).
    rewrite firstn_length, Nat.min_l by lia.
    replace (Z.to_nat i + (0 + k) - Z.to_nat i)%nat with k by lia.
    rewrite <- (firstn_skipn (Z.to_nat (j - i)) (skipn (Z.to_nat i) l)) at 2.
    rewrite app_nth1 by (rewrite firstn_length, skipn_length; lia). reflexivity.
Qed.

Lemma rect_dt_slice_eq s xi k i : rect_wf 2 s -> (k < length (g_grids s))%nat ->
  0 <= i <= zlen (gk s k) - 2 ->
  rect_dt_slice o c s xi k i = Ok (rect_dtp (gk s k) xi i).
Proof.
  intros W Hk Hi. destruct (@rect_bound 2 s k ltac:(lia) W Hk) as (B & D).
  unfold rect_dt_slice. rewrite (aget_nth _ []) by lia. cbn [bind].
  rewrite usize_add_ok by (unfold two64, isize_max in *; lia). cbn [bind].
  rewrite (slice_ok (fzero o)) by lia. cbn [bind].
  replace (i + 2 - i) with 2 by lia. change (Z.to_nat 2) with 2%nat. cbn.
  unfold rect_dtp, gz. rewrite Nat.add_0_r. replace (Z.to_nat i + 1)%nat with (Z.to_nat (i + 1)) by lia.
  reflexivity.
Qed.

Definition rect_cells (s : rectilinear F) (x : list F) : list Z :=
  map (fun k => rect_cell (gk s k) (xk x k)) (seq 0 (length (g_grids s))).

Lemma rect_cells_length s x : length (rect_cells s x) = length (g_grids s).
Proof. unfold rect_cells. rewrite map_length, seq_length. reflexivity. Qed.

Lemma nth_map_seq A (f : nat -> A) n k d : (k < n)%nat -> nth k (map f (seq 0 n)) d = f k.
Proof.
  intros H. rewrite (nth_indep _ d (f 0%nat)) by (rewrite map_length, seq_length; lia).
  rewrite (map_nth f). rewrite seq_nth by lia. reflexivity.
Qed.

Lemma rect_cells_nth s x k : (k < length (g_grids s))%nat ->
  nth k (rect_cells s x) 0 = rect_cell (gk s k) (xk x k).
Proof. intros H. unfold rect_cells. apply (nth_map_seq (fun k => rect_cell (gk s k) (xk x k))); auto. Qed.

Lemma rect_cells_foot s x : rect_wf 2 s -> foot_in 2 (g_dims s) (rect_cells s x).
Proof.
  intros W. destruct (rect_wf_dims W) as (L & D).
  apply foot_in_intro; [rewrite rect_cells_length; lia|]. intros k Hk.
  destruct (@rect_bound 2 s k ltac:(lia) W ltac:(lia)) as (B & E).
  rewrite rect_cells_nth, E by lia.
  assert (R := @rect_cell_range (gk s k) (xk x k) ltac:(lia)). lia.
Qed.

Definition mlc_value (s : rectilinear F) (x : list F) : F :=
  tens 2 (entry (fzero o) (g_dims s) (g_vals s))
       (fun k => lin_nd (rect_dtp (gk s k) (xk x k) (rect_cell (gk s k) (xk x k))))
       (rect_cells s x) (length (g_grids s)) [].

Theorem mlc_char s x : rect_wf 2 s -> length x = length (g_grids s) ->
  mlc_interp_one o c s x = Ok (mlc_value s x).
Proof.
  intros W Lx. assert (W' := W). destruct W as (H0 & H1 & H2 & H3).
  destruct (rect_wf_dims W') as (L & D).
  unfold mlc_interp_one, mlc_value.
  mlc_setup 2. rewrite L.
  rewrite (mapM_ok_map _ (fun k => rect_cell (gk s k) (xk x k))).
  2:{ intros k Hk. apply in_seq in Hk. rewrite (aget_nth _ (fzero o)) by lia. cbn [bind].
      apply rect_get_loc_eq; auto; lia. }
  cbn [bind]. fold (rect_cells s x). rewrite <- L.
  apply flat_char; auto; try lia; [apply rect_cells_foot; auto|apply offset2_spec|].
  intros k vs Hk Hvs. assert (Hk' : (k < length (g_grids s))%nat) by lia.
  rewrite (aget_nth _ 0) by (rewrite rect_cells_length; lia). cbn [bind].
  rewrite (aget_nth _ (fzero o)) by lia. cbn [bind].
  rewrite rect_cells_nth by lia.
  destruct (@rect_bound 2 s k ltac:(lia) W' Hk') as (B & E).
  rewrite rect_dt_eq; auto; [|apply rect_cell_range; lia].
  cbn [bind]. apply lin_node_ok; auto.
Qed.

Theorem mlcr_char maxdims s x : rect_wf 2 s -> length x = length (g_grids s) ->
  (length (g_grids s) <= maxdims)%nat ->
  mlcr_interp_one o c maxdims s x = Ok (mlc_value s x).
Proof.
  intros W Lx Hm. assert (W' := W). destruct W as (H0 & H1 & H2 & H3).
  destruct (rect_wf_dims W') as (L & D).
  unfold mlcr_interp_one, mlc_value.
  replace (negb _) with false by lia.
  rewrite rec_dimprod_spec by
   (first [eapply vals_wf_two64; eassumption | apply (@Forall_le_1 _ 2); [lia|assumption]]).
  cbn [bind].
  rewrite (mapM_ok_map _ (fun k => rect_cell (gk s k) (xk x k))).
  2:{ intros k Hk. apply in_seq in Hk. rewrite (aget_nth _ (fzero o)) by lia. cbn [bind].
      apply rect_get_loc_eq; auto; lia. }
  cbn [bind]. fold (rect_cells s x).
  match goal with |- context[populate _ _ _ _ _ ?nd _ _] =>
    destruct (@rec_char F c 2 ltac:(lia) (g_dims s) (rect_cells s x) (g_vals s) (fzero o) nd
     (fun k => lin_nd (rect_dtp (gk s k) (xk x k) (rect_cell (gk s k) (xk x k))))) as (loc & El) end;
  auto.
  { apply rect_cells_foot; auto. }
  { intros k vs Hk Hvs. assert (Hk' : (k < length (g_grids s))%nat) by lia.
    rewrite (aget_nth _ 0) by (rewrite rect_cells_length; lia). cbn [bind].
    rewrite (aget_nth _ (fzero o)) by lia. cbn [bind].
    rewrite rect_cells_nth by lia.
    destruct (@rect_bound 2 s k ltac:(lia) W' Hk') as (B & E).
    rewrite rect_dt_slice_eq; auto; [|apply rect_cell_range; lia].
    cbn [bind]. apply lin_node_ok; auto. }
  rewrite L in El. rewrite El. reflexivity.
Qed.

(** ** Nearest neighbour *)
Lemma nearest_offset_range t : 0 <= nearest_offset o t <= 1.
Proof. unfold nearest_offset. destruct (fle _ _ _); lia. Qed.

Definition nr_node (s : regular F) (x : list F) (k : nat) (i : Z) : Z :=
  i + nearest_offset o (reg_dtp (use_fma c) (rst s k) (rsp s k) (xk x k) i).

Theorem nr_char s x : usize_total -> reg_wf 2 s -> length x = length (r_dims s) ->
  nr_interp_one o c s x =
  do os <- reg_cells s x ;
  Ok (entry (fzero o) (r_dims s) (r_vals s)
        (map (fun k => nr_node s x k (nth k os 0)) (seq 0 (length (r_dims s))))).
Proof.
  intros Ht W Lx. assert (W' := W). destruct W as (H0 & H1 & H2 & H3 & H4).
  unfold nr_interp_one. mlc_setup 2.
  rewrite (mapM_seq_ext _ (fun k => do i <- reg_cell (rst s k) (rsp s k) (rdm s k) (xk x k) ;
     Ok (nr_node s x k i))).
  2:{ intros k Hk. rewrite (aget_nth _ (fzero o)) by lia. cbn [bind].
      rewrite reg_get_loc_eq by auto.
      destruct (reg_cell _ _ _ _) as [i| |] eqn:E; cbn [bind]; auto.
      assert (B := @dims_bound _ _ k (@Forall_le_1 _ 2 ltac:(lia) H3) H4 Hk).
      assert (D := Forall_nth_lt 0 H3 Hk). simpl in D.
      apply reg_cell_range in E; [|lia].
      rewrite reg_dt_eq; auto; [|unfold isize_max, two64 in *; lia]. cbn [bind].
      unfold nr_node.
      assert (R := nearest_offset_range (reg_dtp (use_fma c) (rst s k) (rsp s k) (xk x k) i)).
      apply usize_add_ok. unfold isize_max, two64 in *; lia. }
  rewrite mapM_post. fold (reg_cells s x).
  destruct (reg_cells s x) as [os| |] eqn:E; cbn [bind]; auto.
  assert (Lo := mapM_length _ _ E). rewrite seq_length in Lo.
  assert (Hf := @reg_cells_foot s x os W' E).
  replace (map _ (combine _ _)) with (map (fun k => nr_node s x k (nth k os 0)) (seq 0 (length (r_dims s)))).
  2:{ apply nth_ext with (d := 0) (d' := 0).
      - rewrite !map_length, combine_length, seq_length. lia.
      - intros k Hk. rewrite map_length, seq_length in Hk.
        rewrite (nth_map_seq (fun k => nr_node s x k (nth k os 0))) by auto.
        rewrite (map_combine_nth (nr_node s x) _ _ 0%nat 0) by (rewrite seq_length; lia).
        rewrite seq_nth by lia. reflexivity. }
  apply (@leaf_index F c 2 (le_n 2) (r_dims s) os); auto.
  split; [rewrite map_length, seq_length; lia|]. rewrite map_length, seq_length. intros k Hk.
  rewrite (nth_map_seq (fun k => nr_node s x k (nth k os 0))) by auto.
  assert (R := nearest_offset_range (reg_dtp (use_fma c) (rst s k) (rsp s k) (xk x k) (nth k os 0))).
  unfold nr_node. simpl plus. lia.
Qed.

Definition nc_node (s : rectilinear F) (x : list F) (k : nat) : Z :=
  let i := rect_cell (gk s k) (xk x k) in
  i + nearest_offset o (rect_dtp (gk s k) (xk x k) i).

Theorem nc_char s x : rect_wf 2 s -> length x = length (g_grids s) ->
  nc_interp_one o c s x =
  Ok (entry (fzero o) (g_dims s) (g_vals s) (map (nc_node s x) (seq 0 (length (g_grids s))))).
Proof.
  intros W Lx. assert (W' := W). destruct W as (H0 & H1 & H2 & H3).
  destruct (rect_wf_dims W') as (L & D).
  unfold nc_interp_one. mlc_setup 2. rewrite L.
  rewrite (mapM_ok_map _ (nc_node s x)).
  2:{ intros k Hk. apply in_seq in Hk. rewrite (aget_nth _ (fzero o)) by lia. cbn [bind].
      rewrite rect_get_loc_eq by (auto; lia). cbn [bind].
      destruct (@rect_bound 2 s k ltac:(lia) W' ltac:(lia)) as (B & E).
      assert (R := @rect_cell_range (gk s k) (xk x k) ltac:(lia)).
      rewrite rect_dt_eq by (auto; lia). cbn [bind]. unfold nc_node.
      assert (R' := nearest_offset_range (rect_dtp (gk s k) (xk x k) (rect_cell (gk s k) (xk x k)))).
      apply usize_add_ok. unfold isize_max, two64 in *; lia. }
  cbn [bind].
  apply (@leaf_index F c 2 (le_n 2) (g_dims s) (rect_cells s x)); auto; [apply rect_cells_foot; auto|].
  split; [rewrite map_length, seq_length, rect_cells_length; lia|].
  rewrite map_length, seq_length. intros k Hk.
  rewrite (nth_map_seq (nc_node s x)) by auto. simpl plus. rewrite rect_cells_nth by auto.
  assert (R' := nearest_offset_range (rect_dtp (gk s k) (xk x k) (rect_cell (gk s k) (xk x k)))).
  unfold nc_node. lia.
Qed.

(** ** Multicubic, regular grids *)
Definition creg_sat (d iloc : Z) : saturation :=
  if iloc <? -1 then OutsideLow else if iloc =? -1 then InsideLow
  else if d - 3 <? iloc then OutsideHigh else if iloc =? d - 3 then InsideHigh else SatNone.

Definition creg_cell (start step : F) (d : Z) (v : F) : outcome (Z * saturation) :=
  do i0 <- ok_or (to_isize o (ffloor o (fdiv o (fsub o v start) step))) msg_repr ;
  do iloc <- isize_sub c i0 1 ;
  Ok (Z.min (Z.max iloc 0) (d - 4), creg_sat d iloc).

Lemma creg_get_loc_eq s v k : reg_wf 4 s -> (k < length (r_dims s))%nat ->
  creg_get_loc o c s v k = creg_cell (rst s k) (rsp s k) (rdm s k) v.
Proof.
  intros (H0 & H1 & H2 & H3 & H4) Hk. unfold creg_get_loc, creg_cell.
  rewrite (aget_nth _ (fzero o)) by lia. cbn [bind].
  rewrite (aget_nth _ (fzero o)) by lia. cbn [bind].
  rewrite (aget_nth _ 0) by lia. cbn [bind].
  assert (B := @dims_bound _ _ k (@Forall_le_1 _ 4 ltac:(lia) H3) H4 Hk).
  assert (D := Forall_nth_lt 0 H3 Hk). simpl in D.
  apply bind_ext. intros i. apply bind_ext. intros iloc.
  rewrite clip_loc_eq by lia. rewrite as_isize_small by lia. unfold creg_sat.
  rewrite isize_sub_ok by (unfold isize_min, isize_max in *; lia). cbn [bind].
  destruct (iloc <? -1), (iloc =? -1), (rdm s k - 3 <? iloc), (iloc =? rdm s k - 3); reflexivity.
Qed.

Definition creg_dtp (start step xi : F) (origin : Z) : F :=
  fdiv o (fsub o xi (fadd o start (fmul o step (uf (origin + 1))))) step.

Lemma creg_dt_eq s xi k i : usize_total -> reg_wf 4 s -> (k < length (r_dims s))%nat ->
  0 <= i -> i + 1 < two64 ->
  creg_dt o c s xi k i = Ok (creg_dtp (rst s k) (rsp s k) xi i).
Proof.
  intros Ht (H0 & H1 & H2 & H3 & H4) Hk Hi Hj. unfold creg_dt.
  rewrite (aget_nth _ (fzero o)) by lia. cbn [bind].
  rewrite (aget_nth _ (fzero o)) by lia. cbn [bind].
  rewrite usize_add_ok by lia. cbn [bind].
  rewrite uf_ok by (auto; lia). reflexivity.
Qed.

Definition creg_cells (s : regular F) (x : list F) : outcome (list (Z * saturation)) :=
  mapM (fun k => creg_cell (rst s k) (rsp s k) (rdm s k) (xk x k)) (seq 0 (length (r_dims s))).

Lemma creg_cell_range start step d v i sat : 4 <= d -> creg_cell start step d v = Ok (i, sat) ->
  0 <= i <= d - 4.
Proof.
  unfold creg_cell. intros Hd H. apply bind_ok in H as (j & _ & H).
  apply bind_ok in H as (j' & _ & H). inversion H; subst. lia.
Qed.

Definition az : Z * saturation := (0, SatNone).

Lemma nth_map_fst (os : list (Z * saturation)) k : nth k (map fst os) 0 = fst (nth k os az).
Proof. change 0 with (fst az) at 1. apply map_nth. Qed.

Lemma creg_cells_foot s x os : reg_wf 4 s -> creg_cells s x = Ok os ->
  foot_in 4 (r_dims s) (map fst os).
Proof.
  intros (H0 & H1 & H2 & H3 & H4) H. unfold creg_cells in H.
  assert (L := mapM_length _ _ H). rewrite seq_length in L.
  apply foot_in_intro; [rewrite map_length; lia|]. intros k Hk.
  assert (E := @mapM_snoc_nth _ az _ _ _ H k Hk).
  assert (D := Forall_nth_lt 0 H3 Hk). simpl in D.
  rewrite nth_map_fst.
  destruct (nth k os az) as [i sat]. apply creg_cell_range in E; simpl; lia.
Qed.

Definition reg_innerp (fma lin : bool) (sat : saturation) (t : F) (vs : list F) : F :=
  match reg_inner o c fma lin sat t vs with Ok v => v | _ => fzero o end.

Lemma reg_inner_ok fma lin sat t vs : length vs = 4%nat ->
  reg_inner o c fma lin sat t vs = Ok (reg_innerp fma lin sat t vs).
Proof.
  destruct vs as [|a [|b [|d [|e [|]]]]]; simpl; intros; try lia. reflexivity.
Qed.

Definition mcr_nd (fma lin : bool) (s : regular F) (x : list F) (os : list (Z * saturation))
  (k : nat) : list F -> F :=
  reg_innerp fma lin (snd (nth k os az)) (creg_dtp (rst s k) (rsp s k) (xk x k) (fst (nth k os az))).

Theorem mcr_char cs x : let s := cr_base cs in
  usize_total -> reg_wf 4 s -> length x = length (r_dims s) ->
  mcr_interp_one o c cs x =
  do os <- creg_cells s x ;
  Ok (tens 4 (entry (fzero o) (r_dims s) (r_vals s)) (mcr_nd (use_fma c) (cr_lin cs) s x os)
        (map fst os) (length (r_dims s)) []).
Proof.
  intros s Ht W Lx. assert (W' := W). destruct W as (H0 & H1 & H2 & H3 & H4).
  unfold mcr_interp_one. fold s. mlc_setup 4.
  rewrite (mapM_seq_ext _ (fun k => do p <- creg_cell (rst s k) (rsp s k) (rdm s k) (xk x k) ;
     Ok (p, creg_dtp (rst s k) (rsp s k) (xk x k) (fst p)))).
  2:{ intros k Hk. rewrite (aget_nth _ (fzero o)) by lia. cbn [bind].
      rewrite creg_get_loc_eq by auto.
      destruct (creg_cell _ _ _ _) as [[i sat]| |] eqn:E; cbn [bind]; auto.
      assert (B := @dims_bound _ _ k (@Forall_le_1 _ 4 ltac:(lia) H3) H4 Hk).
      assert (D := Forall_nth_lt 0 H3 Hk). simpl in D.
      apply creg_cell_range in E; [|lia].
      rewrite creg_dt_eq; auto; unfold isize_max, two64 in *; lia. }
  rewrite mapM_post. fold (creg_cells s x).
  destruct (creg_cells s x) as [os| |] eqn:E; cbn [bind]; auto.
  assert (Lo := mapM_length _ _ E). rewrite seq_length in Lo.
  assert (Hf := @creg_cells_foot s x os W' E).
  rewrite !map_map. cbn [fst snd].
  rewrite (map_fst_combine (seq 0 (length (r_dims s))) os fst) by (rewrite seq_length; lia).
  rewrite (map_fst_combine (seq 0 (length (r_dims s))) os snd) by (rewrite seq_length; lia).
  apply flat_char; auto; [apply offset4_spec|].
  intros k vs Hk Hvs.
  rewrite (aget_nth _ (fzero o)) by (rewrite map_length, combine_length, seq_length; lia).
  cbn [bind].
  rewrite (map_combine_nth (fun k p => creg_dtp (rst s k) (rsp s k) (xk x k) (fst p))
             _ _ 0%nat az) by (rewrite seq_length; lia).
  rewrite seq_nth by lia.
  rewrite (aget_nth _ (snd az)) by (rewrite map_length; lia). cbn [bind].
  rewrite map_nth. apply reg_inner_ok; auto.
Qed.

Theorem mcrr_char maxdims cs x : let s := cr_base cs in
  usize_total -> reg_wf 4 s -> length x = length (r_dims s) ->
  (length (r_dims s) <= maxdims)%nat ->
  mcrr_interp_one o c maxdims cs x =
  do os <- creg_cells s x ;
  Ok (tens 4 (entry (fzero o) (r_dims s) (r_vals s)) (mcr_nd false (cr_lin cs) s x os)
        (map fst os) (length (r_dims s)) []).
Proof.
  intros s Ht W Lx Hm. assert (W' := W). destruct W as (H0 & H1 & H2 & H3 & H4).
  unfold mcrr_interp_one. fold s.
  replace (negb _) with false by lia.
  rewrite rec_dimprod_spec by
   (first [eapply vals_wf_two64; eassumption | apply (@Forall_le_1 _ 4); [lia|assumption]]).
  cbn [bind].
  rewrite (mapM_seq_ext _ (fun k => creg_cell (rst s k) (rsp s k) (rdm s k) (xk x k))).
  2:{ intros k Hk. rewrite (aget_nth _ (fzero o)) by lia. cbn [bind].
      rewrite creg_get_loc_eq by auto. reflexivity. }
  fold (creg_cells s x).
  destruct (creg_cells s x) as [os| |] eqn:E; cbn [bind]; auto.
  assert (Lo := mapM_length _ _ E). rewrite seq_length in Lo.
  assert (Hf := @creg_cells_foot s x os W' E).
  set (dtk := fun k => creg_dtp (rst s k) (rsp s k) (xk x k) (fst (nth k os az))).
  rewrite (mapM_ok_map _ dtk).
  2:{ intros k Hk. apply in_seq in Hk. rewrite (aget_nth _ (fzero o)) by lia. cbn [bind].
      rewrite (aget_nth _ (fst az)) by (rewrite map_length; lia). cbn [bind]. rewrite map_nth.
      assert (B := @foot_two64 4 _ _ (map fst os) k ltac:(lia) H4 Hf ltac:(rewrite map_length; lia)).
      rewrite nth_map_fst in B.
      apply creg_dt_eq; auto; try lia; unfold isize_max, two64 in *; simpl in *; lia. }
  cbn [bind].
  match goal with |- context[populate _ _ _ _ _ ?nd _ _] =>
    destruct (@rec_char F c 4 ltac:(lia) (r_dims s) (map fst os) (r_vals s) (fzero o) nd
     (mcr_nd false (cr_lin cs) s x os)) as (loc & El) end; auto.
  { intros k vs Hk Hvs.
    rewrite (aget_nth _ (dtk 0%nat)) by (rewrite map_length, seq_length; lia).
    cbn [bind]. rewrite (map_nth dtk). rewrite seq_nth by lia.
    rewrite (aget_nth _ (snd az)) by (rewrite map_length; lia). cbn [bind].
    rewrite map_nth. apply reg_inner_ok; auto. }
  rewrite El. reflexivity.
Qed.

(** ** Multicubic, rectilinear grids *)
Definition crect_sat (n iloc : Z) : saturation :=
  if iloc =? -2 then OutsideLow else if iloc =? -1 then InsideLow
  else if iloc =? n - 2 then OutsideHigh else if iloc =? n - 3 then InsideHigh else SatNone.

Definition crect_cell (g : list F) (v : F) : Z * saturation :=
  (Z.min (Z.max (pp_of g v - 2) 0) (zlen g - 4), crect_sat (zlen g) (pp_of g v - 2)).

Lemma crect_get_loc_eq s v k : rect_wf 4 s -> (k < length (g_grids s))%nat ->
  crect_get_loc o c s v k = Ok (crect_cell (gk s k) v).
Proof.
  intros W Hk. destruct (@rect_bound 4 s k ltac:(lia) W Hk) as (B & D).
  destruct (rect_wf_dims W) as (L & _).
  unfold crect_get_loc. rewrite (aget_nth _ []) by lia. cbn [bind].
  destruct (pp_of_ok (gk s k) v) as (E & R). rewrite E. cbn [bind].
  rewrite as_isize_small by lia.
  rewrite isize_sub_ok by (unfold isize_min, isize_max in *; lia). cbn [bind].
  rewrite (aget_nth _ 0) by lia. cbn [bind]. rewrite D.
  rewrite clip_loc_eq by lia. rewrite as_isize_small by lia.
  unfold crect_cell, crect_sat.
  rewrite !isize_sub_ok by (unfold isize_min, isize_max in *; lia). cbn [bind].
  set (p := pp_of (gk s k) v - 2). set (m := zlen (gk s k)).
  destruct (p =? -2), (p =? -1), (p =? m - 2), (p =? m - 3); reflexivity.
Qed.

Lemma crect_cell_range g v : 4 <= zlen g -> 0 <= fst (crect_cell g v) <= zlen g - 4.
Proof. unfold crect_cell. simpl. lia. Qed.

Definition crect_cells (s : rectilinear F) (x : list F) : list (Z * saturation) :=
  map (fun k => crect_cell (gk s k) (xk x k)) (seq 0 (length (g_grids s))).

Definition cell4 (g : list F) (i : Z) : list F := [gz g i; gz g (i + 1); gz g (i + 2); gz g (i + 3)].

Definition rect_innerp (fma lin : bool) (sat : saturation) (x : F) (cell vs : list F) : F :=
  match rect_inner o c fma lin sat x cell vs with Ok v => v | _ => fzero o end.

Definition mcc_nd (fma lin : bool) (s : rectilinear F) (x : list F) (k : nat) : list F -> F :=
  let p := crect_cell (gk s k) (xk x k) in
  rect_innerp fma lin (snd p) (xk x k) (cell4 (gk s k) (fst p)).

Definition mcc_value (fma lin : bool) (s : rectilinear F) (x : list F) : F :=
  tens 4 (entry (fzero o) (g_dims s) (g_vals s)) (mcc_nd fma lin s x)
       (map fst (crect_cells s x)) (length (g_grids s)) [].

Lemma crect_cells_length s x : length (crect_cells s x) = length (g_grids s).
Proof. unfold crect_cells. rewrite map_length, seq_length. reflexivity. Qed.

Lemma crect_cells_nth s x k : (k < length (g_grids s))%nat ->
  nth k (crect_cells s x) az = crect_cell (gk s k) (xk x k).
Proof. intros H. unfold crect_cells. apply (nth_map_seq (fun k => crect_cell (gk s k) (xk x k))); auto. Qed.

Lemma crect_cells_foot s x : rect_wf 4 s -> foot_in 4 (g_dims s) (map fst (crect_cells s x)).
Proof.
  intros W. destruct (rect_wf_dims W) as (L & D).
  apply foot_in_intro; [rewrite map_length, crect_cells_length; lia|]. intros k Hk.
  destruct (@rect_bound 4 s k ltac:(lia) W ltac:(lia)) as (B & E).
  rewrite E, nth_map_fst, crect_cells_nth by lia.
  assert (R := @crect_cell_range (gk s k) (xk x k) ltac:(lia)). lia.
Qed.

Lemma crect_node_eq fma lin s x k vs : rect_wf 4 s -> length x = length (g_grids s) ->
  (k < length (g_grids s))%nat -> length vs = 4%nat ->
  crect_node o c fma lin s x (map fst (crect_cells s x)) (map snd (crect_cells s x)) k vs
  = Ok (mcc_nd fma lin s x k vs).
Proof.
  intros W Lx Hk Hvs. destruct (@rect_bound 4 s k ltac:(lia) W Hk) as (B & D).
  unfold crect_node. rewrite (aget_nth _ []) by lia. cbn [bind].
  rewrite (aget_nth _ (fst az)) by (rewrite map_length, crect_cells_length; lia). cbn [bind].
  rewrite map_nth, crect_cells_nth by lia.
  assert (R := @crect_cell_range (gk s k) (xk x k) ltac:(lia)).
  rewrite usize_add_ok by (unfold two64, isize_max in *; lia). cbn [bind].
  rewrite (slice_ok (fzero o)) by lia. cbn [bind].
  rewrite (aget_nth _ (fzero o)) by lia. cbn [bind].
  rewrite (aget_nth _ (snd az)) by (rewrite map_length, crect_cells_length; lia). cbn [bind].
  rewrite map_nth, crect_cells_nth by lia.
  unfold mcc_nd. set (p := crect_cell (gk s k) (xk x k)) in *.
  replace (fst p + 4 - fst p) with 4 by lia. change (Z.to_nat 4) with 4%nat.
  replace (map _ (seq 0 4)) with (cell4 (gk s k) (fst p)).
  2:{ unfold cell4, gz. cbn [seq map]. repeat f_equal; lia. }
  unfold rect_innerp. destruct vs as [|a [|b [|d [|e [|]]]]]; simpl in Hvs; try lia. reflexivity.
Qed.

Theorem mcc_char cs x : let s := cc_base cs in
  rect_wf 4 s -> length x = length (g_grids s) ->
  mcc_interp_one o c cs x = Ok (mcc_value false (cc_lin cs) s x).
Proof.
  intros s W Lx. assert (W' := W). destruct W as (H0 & H1 & H2 & H3).
  destruct (rect_wf_dims W') as (L & D).
  unfold mcc_interp_one, mcc_value. fold s.
  mlc_setup 4. rewrite L.
  rewrite (mapM_ok_map _ (fun k => crect_cell (gk s k) (xk x k))).
  2:{ intros k Hk. apply in_seq in Hk. rewrite (aget_nth _ (fzero o)) by lia. cbn [bind].
      apply crect_get_loc_eq; auto; lia. }
  cbn [bind]. fold (crect_cells s x). rewrite <- L.
  apply flat_char; auto; try lia; [apply crect_cells_foot; auto|apply offset4_spec|].
  intros k vs Hk Hvs. apply crect_node_eq; auto; lia.
Qed.

Theorem mccr_char maxdims cs x : let s := cc_base cs in
  rect_wf 4 s -> length x = length (g_grids s) -> (length (g_grids s) <= maxdims)%nat ->
  mccr_interp_one o c maxdims cs x = Ok (mcc_value (use_fma c) (cc_lin cs) s x).
Proof.
  intros s W Lx Hm. assert (W' := W). destruct W as (H0 & H1 & H2 & H3).
  destruct (rect_wf_dims W') as (L & D).
  unfold mccr_interp_one, mcc_value. fold s.
  replace (negb _) with false by lia.
  rewrite rec_dimprod_spec by
   (first [eapply vals_wf_two64; eassumption | apply (@Forall_le_1 _ 4); [lia|assumption]]).
  cbn [bind].
  rewrite (mapM_ok_map _ (fun k => crect_cell (gk s k) (xk x k))).
  2:{ intros k Hk. apply in_seq in Hk. rewrite (aget_nth _ (fzero o)) by lia. cbn [bind].
      apply crect_get_loc_eq; auto; lia. }
  cbn [bind]. fold (crect_cells s x).
  match goal with |- context[populate _ _ _ _ _ ?nd _ _] =>
    destruct (@rec_char F c 4 ltac:(lia) (g_dims s) (map fst (crect_cells s x)) (g_vals s) (fzero o) nd
     (mcc_nd (use_fma c) (cc_lin cs) s x)) as (loc & El) end; auto.
  { apply crect_cells_foot; auto. }
  { intros k vs Hk Hvs. apply crect_node_eq; auto; lia. }
  rewrite L in El. rewrite El. reflexivity.
Qed.
End Char.
