(** Arrays of any memory layout: `ravel`, `as_slice` and `flatten` give the elements in C order. *)
From Coq Require Import Lia PeanoNat.
From Verif Require Import Base Ops ModelCore ModelPython ModelLayout SpecLayout.
Unset Implicit Arguments.
Open Scope Z_scope.

Section L.
Context {A : Type}.

Lemma items_intro (buf : list A) ps l : length l = length ps ->
  (forall k p v, nth_error ps k = Some p -> nth_error l k = Some v -> item buf p = Some v) -> items buf ps = Some l.
Proof.
  revert l. induction ps as [|p ps IH]; intros [|v l] L H; simpl in L; try discriminate; [reflexivity|].
  simpl. rewrite (H 0%nat p v eq_refl eq_refl). rewrite (IH l); [reflexivity|lia|]. intros k q w Hq Hw. exact (H (S k) q w Hq Hw).
Qed.

Lemma nth_flat_map {B} (f : nat -> list B) m n : (0 < m)%nat -> (forall i, length (f i) = m) ->
  forall i0 k, (k < n * m)%nat -> nth_error (flat_map f (seq i0 n)) k = nth_error (f (i0 + k / m)%nat) (k mod m).
Proof.
  intros Hm L. induction n as [|n IH]; intros i0 k Hk; [simpl in Hk; lia|]. cbn [seq flat_map].
  destruct (Nat.lt_ge_cases k m) as [C|C].
  - rewrite nth_error_app1 by (rewrite L; lia). rewrite Nat.div_small, Nat.mod_small by lia. rewrite Nat.add_0_r. reflexivity.
  - rewrite nth_error_app2 by (rewrite L; lia). rewrite L, IH by (simpl in Hk; lia).
    assert (Ek : k = (k - m + 1 * m)%nat) by lia. rewrite Ek at 3 4. rewrite Nat.mod_add, Nat.div_add by lia.
    replace (S i0 + (k - m) / m)%nat with (i0 + ((k - m) / m + 1))%nat by lia. reflexivity.
Qed.
Lemma flat_map_len {B} (f : nat -> list B) m n i0 : (forall i, length (f i) = m) -> length (flat_map f (seq i0 n)) = (n * m)%nat.
Proof. intros L. revert i0. induction n as [|n IH]; intros i0; [reflexivity|]. cbn [seq flat_map]. rewrite app_length, L, IH. simpl. lia. Qed.

Lemma positions_len sh : forall st p, length st = length sh -> length (positions sh st p) = nprod sh.
Proof.
  induction sh as [|n sh IH]; intros [|s st] p L; simpl in L; try discriminate; [reflexivity|]. cbn [positions nprod].
  apply flat_map_len. intros i. apply IH. lia.
Qed.
Lemma positions_nth sh : forall st p k, length st = length sh -> (k < nprod sh)%nat ->
  nth_error (positions sh st p) k = Some (place st p (c_index sh k)).
Proof.
  induction sh as [|n sh IH]; intros [|s st] p k L Hk; simpl in L; try discriminate.
  - simpl in Hk. replace k with 0%nat by lia. reflexivity.
  - cbn [positions nprod place c_index] in *. assert (Hm : (0 < nprod sh)%nat) by (destruct (nprod sh); lia).
    rewrite (nth_flat_map _ (nprod sh)); auto; [|intros i; apply positions_len; lia].
    rewrite IH; [reflexivity|lia|apply Nat.mod_upper_bound; lia].
Qed.
Lemma dense_place sh : forall st p k, length st = length sh -> dense sh st = true -> (k < nprod sh)%nat ->
  place st p (c_index sh k) = p + Z.of_nat k.
Proof.
  induction sh as [|n sh IH]; intros [|s st] p k L D Hk; simpl in L; try discriminate.
  - simpl in *. lia.
  - cbn [dense nprod place c_index] in *. apply andb_prop in D as (D1 & D2). assert (Hm : (0 < nprod sh)%nat) by (destruct (nprod sh); lia).
    rewrite IH; auto; [|apply Nat.mod_upper_bound; lia].
    assert (E := Nat.div_mod k (nprod sh) ltac:(lia)).
    assert (S : Z.of_nat (k / nprod sh) * s = Z.of_nat (k / nprod sh) * Z.of_nat (nprod sh)).
    { apply Bool.orb_prop in D1 as [D1|D1].
      - apply Nat.eqb_eq in D1. subst n. rewrite Nat.mul_1_l in Hk. rewrite Nat.div_small by lia. reflexivity.
      - apply Z.eqb_eq in D1. rewrite D1. reflexivity. }
    rewrite S, <- Nat2Z.inj_mul. lia.
Qed.
End L.

Section H.
Context {F : Type} (o : Ops F).
Variables (a : strided F) (x : ndarray F).
Hypothesis Hh : holds a x.

Lemma flatten_ok : flatten a = Some (nd_data x).
Proof using Hh.
  destruct Hh as (L & _ & Ld & Hd). apply items_intro; [rewrite positions_len; auto|].
  intros k p v Hp Hv. assert (Hk : (k < nprod (shape a))%nat) by (rewrite <- Ld; apply nth_error_Some; rewrite Hv; discriminate).
  rewrite positions_nth in Hp by auto. injection Hp as <-. destruct (Hd k v Hv) as (P & E).
  unfold item. replace (place _ _ _ <? 0) with false; [exact E|]. symmetry. apply Z.ltb_ge. exact P.
Qed.
Lemma memory_ok : c_contiguous a = true -> memory (buffer a) (offset a) (nprod (shape a)) = Some (nd_data x).
Proof using Hh.
  destruct Hh as (L & _ & Ld & Hd). intros C. apply items_intro; [rewrite map_length, seq_length; auto|].
  intros k p v Hp Hv. assert (Hk : (k < nprod (shape a))%nat) by (rewrite <- Ld; apply nth_error_Some; rewrite Hv; discriminate).
  assert (D : dense (shape a) (strides a) = true).
  { apply Bool.orb_prop in C as [C|C]; [|exact C]. apply Nat.eqb_eq in C. lia. }
  rewrite (map_nth_error _ k _ (d := k)) in Hp.
  2:{ rewrite (nth_error_nth' _ 0%nat) by (rewrite seq_length; exact Hk). rewrite seq_nth by exact Hk. reflexivity. }
  injection Hp as <-. destruct (Hd k v Hv) as (P & E). cbv zeta in *. rewrite dense_place in P, E by auto.
  unfold item. replace (offset a + Z.of_nat k <? 0) with false; [exact E|]. symmetry. apply Z.ltb_ge. exact P.
Qed.
Lemma memory_all (l : list F) : memory l 0 (length l) = Some l.
Proof using.
  apply items_intro; [rewrite map_length, seq_length; auto|]. intros k p v Hp Hv.
  assert (Hk : (k < length l)%nat) by (apply nth_error_Some; rewrite Hv; discriminate).
  rewrite (map_nth_error _ k _ (d := k)) in Hp.
  2:{ rewrite (nth_error_nth' _ 0%nat) by (rewrite seq_length; exact Hk). rewrite seq_nth by exact Hk. reflexivity. }
  injection Hp as <-. unfold item. cbn [Z.add]. destruct (Z.ltb_spec (Z.of_nat k) 0); [lia|]. rewrite Nat2Z.id. exact Hv.
Qed.
Lemma one_contiguous n p (b : list F) : c_contiguous (mkStrided [n] [1] p b) = true.
Proof using. unfold c_contiguous. cbn [shape strides dense nprod]. rewrite Z.eqb_refl, Bool.orb_true_r. simpl. apply Bool.orb_true_r. Qed.
Lemma flat_ok : flat a = Some x.
Proof using Hh.
  unfold flat, ravel. assert (S := proj1 (proj2 Hh)). destruct (c_contiguous a) eqn:C.
  - unfold as_slice. cbn [shape offset buffer]. rewrite one_contiguous, memory_ok by exact C. rewrite <- S. destruct x. reflexivity.
  - assert (E := flatten_ok). unfold flatten in E. rewrite E. unfold as_slice, array1. cbn [shape offset buffer].
    rewrite one_contiguous, memory_all, <- S. destruct x. reflexivity.
Qed.
Lemma as_slice_ok : one_dim a = true -> c_contiguous a = true -> as_slice a = Some (Ret (nd_data x)).
Proof using Hh.
  intros O C. assert (M := memory_ok C). unfold as_slice, one_dim in *. destruct (shape a) as [|n [|m sh]]; try discriminate.
  rewrite C. cbn [nprod] in M. rewrite Nat.mul_1_r in M. rewrite M. reflexivity.
Qed.
Lemma as_slice_refused : one_dim a = false \/ c_contiguous a = false -> as_slice a = Some (Raise TypeError).
Proof using.
  unfold as_slice, one_dim. intros [O|C]; destruct (shape a) as [|n [|m sh]]; try discriminate; try reflexivity. rewrite C. reflexivity.
Qed.
Lemma as_slice_total : as_slice a = Some (Raise TypeError) \/ as_slice a = Some (Ret (nd_data x)).
Proof using Hh.
  destruct (one_dim a) eqn:O; [|left; apply as_slice_refused; auto]. destruct (c_contiguous a) eqn:C; [|left; apply as_slice_refused; auto].
  right. apply as_slice_ok; auto.
Qed.
End H.

Section Calls.
Context {F : Type} (o : Ops F) (c : cfg).

Lemma flats_ok l xs : Forall2 holds l xs -> @flats F l = Some xs.
Proof. induction 1 as [|a x l xs H _ IH]; [reflexivity|]. simpl. rewrite (flat_ok a x H), IH. reflexivity. Qed.
Lemma flattens_ok l xs : Forall2 holds l xs -> @flattens F l = Some (map nd_data xs).
Proof. induction 1 as [|a x l xs H _ IH]; [reflexivity|]. simpl. rewrite (flatten_ok a x H), IH. reflexivity. Qed.

Theorem layout_interpn_ok obs grids vals obs' grids' vals' method out lin assume cb atol :
  Forall2 holds obs obs' -> Forall2 holds grids grids' -> holds vals vals' ->
  layout_interpn o c obs grids vals method out lin assume cb atol =
  Some (py_interpn o c obs' grids' vals' method out lin assume cb atol).
Proof. intros H1 H2 H3. unfold layout_interpn. rewrite (flats_ok _ _ H1), (flats_ok _ _ H2), (flat_ok _ _ H3). reflexivity. Qed.

Lemma slices_ok l xs : Forall2 holds l xs -> Forall (fun a => one_dim a = true /\ c_contiguous a = true) l ->
  @slices F l = Some (Ret (map nd_data xs)).
Proof.
  induction 1 as [|a x l xs H _ IH]; intros G; [reflexivity|]. inversion G as [|? ? (G1 & G2) G3]; subst.
  simpl. rewrite (as_slice_ok a x H G1 G2), IH by exact G3. reflexivity.
Qed.
Lemma slices_refused l xs : Forall2 holds l xs -> Exists (fun a => one_dim a = false \/ c_contiguous a = false) l ->
  @slices F l = Some (Raise TypeError).
Proof.
  induction 1 as [|a x l xs H _ IH]; intros G; [inversion G|]. simpl. destruct (as_slice_total a x H) as [E|E]; rewrite E; [reflexivity|].
  inversion G as [? ? G1|? ? G1]; subst; [rewrite (as_slice_refused a G1) in E; discriminate|]. rewrite (IH G1). reflexivity.
Qed.

Theorem layout_eval_ok raw obs xs : Forall2 holds obs xs -> Forall (fun a => one_dim a = true /\ c_contiguous a = true) obs ->
  (length obs <= 8)%nat -> layout_eval o raw obs = Some (class_eval o raw (map nd_data xs) None).
Proof.
  intros H G L. destruct H as [|a x obs xs H Hs]; [reflexivity|]. unfold layout_eval.
  assert (O : forallb one_dim (a :: obs) = true).
  { apply forallb_forall. intros b Hb. rewrite Forall_forall in G. apply G. exact Hb. }
  rewrite O. simpl negb. cbv iota. rewrite firstn_all2 by lia. rewrite (slices_ok (a :: obs) (x :: xs)); auto.
  unfold class_eval. cbn [map py_get nth_error py_bind]. rewrite (proj1 (proj2 (proj2 H))). destruct (raw _ _). reflexivity.
Qed.
Theorem layout_eval_refused raw obs xs : Forall2 holds obs xs -> (length obs <= 8)%nat ->
  Exists (fun a => one_dim a = false \/ c_contiguous a = false) obs -> layout_eval o raw obs = Some (Raise TypeError).
Proof.
  intros H L G. unfold layout_eval. destruct obs as [|a obs]; [inversion G|].
  destruct (forallb one_dim (a :: obs)) eqn:O; [|reflexivity]. simpl negb. cbv iota.
  rewrite firstn_all2 by lia. rewrite (slices_refused _ _ H G). reflexivity.
Qed.
Theorem layout_check_bounds_ok ndims raw obs xs atol : Forall2 holds obs xs ->
  @layout_check_bounds F ndims raw obs atol = Some (class_check_bounds ndims raw (map nd_data xs) atol).
Proof. intros H. unfold layout_check_bounds. rewrite (flattens_ok _ _ H). reflexivity. Qed.
End Calls.
