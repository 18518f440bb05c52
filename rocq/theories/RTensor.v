(** Tensor products of linear functionals on sequences. *)
From Coq Require Import Reals Lra PeanoNat FinFun ZifyBool ZifyNat.
From Verif Require Import Base Ops Spec SpecReal CoreLemmas TensorLemmas.
Open Scope R_scope.

Definition delta (i : Z) (j : Z) : R := if Z.eq_dec i j then 1 else 0.

(** A linear functional that only looks at the entries 0..d-1. *)
Definition lf (d : Z) (L : (Z -> R) -> R) : Prop :=
  (forall f g, L (fun i => f i + g i) = L f + L g) /\
  (forall c f, L (fun i => c * f i) = c * L f) /\
  (forall f g, (forall i, (0 <= i < d)%Z -> f i = g i) -> L f = L g).

Lemma Rsum_app l l' : Rsum (l ++ l') = Rsum l + Rsum l'.
Proof. induction l; simpl; lra. Qed.

Lemma Rsum_ext A (f g : A -> R) l : (forall a, In a l -> f a = g a) ->
  Rsum (map f l) = Rsum (map g l).
Proof. induction l; simpl; intros H; auto. rewrite H, IHl; auto. Qed.

Lemma Rsum_mult A (f : A -> R) c l : Rsum (map (fun a => c * f a) l) = c * Rsum (map f l).
Proof. induction l; simpl; [lra|]. rewrite IHl. lra. Qed.

Lemma Rsum_plus A (f g : A -> R) l :
  Rsum (map (fun a => f a + g a) l) = Rsum (map f l) + Rsum (map g l).
Proof. induction l; simpl; [lra|]. rewrite IHl. lra. Qed.

Lemma lf_ext d L f g : lf d L -> (forall i, (0 <= i < d)%Z -> f i = g i) -> L f = L g.
Proof. intros (_ & _ & H). apply H. Qed.

Lemma lf_zero d L : lf d L -> L (fun _ => 0) = 0.
Proof.
  intros (_ & H & E). rewrite (E (fun _ => 0) (fun i => 0 * 0)) by (intros; ring).
  rewrite (H 0 (fun _ => 0)). ring.
Qed.

Lemma lf_sum d L A (h : A -> Z -> R) l : lf d L ->
  L (fun i => Rsum (map (fun a => h a i) l)) = Rsum (map (fun a => L (h a)) l).
Proof.
  intros H. induction l; simpl; [apply (lf_zero H)|].
  rewrite (proj1 H). f_equal. auto.
Qed.

Definition zseq (d : Z) : list Z := map Z.of_nat (seq 0 (Z.to_nat d)).

Lemma in_zseq d i : In i (zseq d) <-> (0 <= i < d)%Z.
Proof.
  unfold zseq. rewrite in_map_iff. split.
  - intros (n & <- & H). apply in_seq in H. lia.
  - intros H. exists (Z.to_nat i). split; [lia|]. apply in_seq. lia.
Qed.

Lemma Rsum_delta (f : Z -> R) l i : NoDup l -> In i l -> Rsum (map (fun j => f j * delta j i) l) = f i.
Proof.
  induction 1 as [|j l Hj Hl IH]; simpl; intros H; [contradiction|].
  destruct H as [->|H].
  - unfold delta at 1. destruct (Z.eq_dec i i); [|congruence].
    replace (Rsum _) with 0; [ring|].
    clear IH Hl. induction l as [|k l IH]; simpl; auto.
    unfold delta at 1. destruct (Z.eq_dec k i) as [->|]; [exfalso; apply Hj; left; auto|].
    rewrite <- IH; [ring|]. intros H. apply Hj. right; auto.
  - rewrite IH by auto. unfold delta. destruct (Z.eq_dec j i) as [->|]; [contradiction|]. ring.
Qed.

Lemma zseq_nodup d : NoDup (zseq d).
Proof.
  unfold zseq. apply Injective_map_NoDup; [|apply seq_NoDup].
  intros a b H. lia.
Qed.

Lemma lf_repr d L f : lf d L -> L f = Rsum (map (fun i => L (delta i) * f i) (zseq d)).
Proof.
  intros H. rewrite (lf_ext (L := L) f (fun i => Rsum (map (fun j => f j * delta j i) (zseq d))) H).
  2:{ intros i Hi. symmetry. apply Rsum_delta; [apply zseq_nodup|apply in_zseq; auto]. }
  rewrite (lf_sum (fun j i => f j * delta j i) _ H).
  apply Rsum_ext. intros i _. rewrite (proj1 (proj2 H)). ring.
Qed.

(** Fubini *)
Lemma lf_swap d e L M (h : Z -> Z -> R) : lf d L -> lf e M ->
  L (fun j => M (fun i => h j i)) = M (fun i => L (fun j => h j i)).
Proof.
  intros HL HM.
  rewrite (lf_repr (fun i => L (fun j => h j i)) HM).
  rewrite (lf_ext (L := L) _ (fun j => Rsum (map (fun i => M (delta i) * h j i) (zseq e))) HL).
  2:{ intros j _. apply (lf_repr (fun i => h j i) HM). }
  rewrite (lf_sum (fun i j => M (delta i) * h j i) _ HL).
  apply Rsum_ext. intros i _. apply (proj1 (proj2 HL)).
Qed.

(** Iterated functionals, first axis outermost. *)
Fixpoint tenL (Ls : list ((Z -> R) -> R)) (V : list Z -> R) : R :=
  match Ls with
  | [] => V []
  | L :: r => L (fun i => tenL r (fun idx => V (i :: idx)))
  end.

Definition lfs (dims : list Z) (Ls : list ((Z -> R) -> R)) : Prop := Forall2 lf dims Ls.

Lemma tenL_ext dims Ls V W : lfs dims Ls ->
  (forall idx, in_shape dims idx -> V idx = W idx) -> tenL Ls V = tenL Ls W.
Proof.
  intros H. revert V W. induction H as [|d L ds Ls HL HLs IH]; intros V W E; simpl.
  - apply E. constructor.
  - apply (lf_ext _ _ HL). intros i Hi. apply IH. intros idx Hx. apply E. constructor; auto.
Qed.

Lemma tenL_plus dims Ls V W : lfs dims Ls ->
  tenL Ls (fun idx => V idx + W idx) = tenL Ls V + tenL Ls W.
Proof.
  intros H. revert V W. induction H as [|d L ds Ls HL HLs IH]; intros V W; simpl; auto.
  rewrite <- (proj1 HL). apply (lf_ext _ _ HL). intros i _. apply IH.
Qed.

Lemma tenL_scal dims Ls c V : lfs dims Ls ->
  tenL Ls (fun idx => c * V idx) = c * tenL Ls V.
Proof.
  intros H. revert V. induction H as [|d L ds Ls HL HLs IH]; intros V; simpl; auto.
  rewrite <- (proj1 (proj2 HL)). apply (lf_ext _ _ HL). intros i _. apply IH.
Qed.

Lemma tenL_snoc dims Ls d M W : lfs dims Ls -> lf d M ->
  tenL (Ls ++ [M]) W = M (fun i => tenL Ls (fun idx => W (idx ++ [i]))).
Proof.
  intros H HM. revert W. induction H as [|e L ds Ls HL HLs IH]; intros W; simpl; auto.
  rewrite <- (lf_swap (fun j i => tenL Ls (fun idx => W (j :: idx ++ [i]))) HL HM).
  apply (lf_ext _ _ HL). intros j _. apply IH.
Qed.

(** The evaluators' [tens] as iterated functionals. *)
Lemma tens_tenL FP V nd origin dims Ls :
  lfs dims Ls ->
  (forall k f, (k < length Ls)%nat ->
     nd k (map (fun i => f (nth k origin 0 + Z.of_nat i)%Z) (seq 0 FP)) = nth k Ls (fun _ => 0) f) ->
  tens FP V nd origin (length Ls) [] = tenL Ls V.
Proof.
  intros H Hn.
  enough (G : forall k suf, (k <= length Ls)%nat ->
     tens FP V nd origin k suf = tenL (firstn k Ls) (fun idx => V (idx ++ suf))).
  { rewrite G by lia. rewrite firstn_all. apply (tenL_ext _ _ H).
    intros. rewrite app_nil_r. auto. }
  induction k as [|k IH]; intros suf Hk; [reflexivity|].
  assert (HLs : lfs (firstn k dims) (firstn k Ls)).
  { clear -H. unfold lfs in *. revert k. induction H; destruct k; simpl; constructor; auto. }
  assert (HL : lf (nth k dims 0%Z) (nth k Ls (fun _ => 0))).
  { clear -H Hk. revert k Hk. induction H; intros k Hk; simpl in *; [lia|]. destruct k; auto. apply IHForall2. lia. }
  assert (E : firstn (S k) Ls = firstn k Ls ++ [nth k Ls (fun _ => 0)]).
  { clear -Hk. revert k Hk. induction Ls as [|L Ls IH]; intros k Hk; simpl in *; [lia|].
    destruct k; auto. simpl. f_equal. apply IH. lia. }
  rewrite E, (tenL_snoc _ HLs HL).
  cbn [tens].
  rewrite (Hn k (fun i => tens FP V nd origin k (i :: suf))) by lia.
  apply (lf_ext _ _ HL). intros i _. rewrite IH by lia.
  apply (tenL_ext _ _ HLs). intros idx _. rewrite <- app_assoc. reflexivity.
Qed.

(** ** Generic consequences *)

(** Reproduction of a class of functions: every functional [L] of an axis is exact, at
    the point [x], for the slices of [f] along that axis. *)
Lemma tenL_exact (P : (R -> R) -> Prop) axes Ls x : 
  Forall2 (fun a L => lf (npts a) L) axes Ls ->
  Forall2 (fun p L => forall h, P h -> L (fun i => h (coord (fst p) i)) = h (snd p))
     (combine axes x) Ls ->
  length x = length axes ->
  forall f, (forall k y, (k < length axes)%nat -> length y = length axes -> P (fun t => f (upd y k t))) ->
  tenL Ls (fun idx => f (node_pos axes idx)) = f x.
Proof.
  revert Ls x. induction axes as [|a axes IH]; intros Ls x HL He Lx f Hf.
  - destruct x; [|discriminate]. inversion HL; subst. reflexivity.
  - destruct x as [|x0 x]; [discriminate|]. inversion HL as [|? L ? Ls' HLa HLr]; subst.
    simpl in He, Lx. inversion He as [|? ? ? ? Hea Her]; subst. simpl.
    rewrite (lf_ext (L := L) _ (fun i => f (coord a i :: x)) HLa).
    + apply (Hea (fun t => f (t :: x))). apply (Hf 0%nat (x0 :: x)); simpl; lia.
    + intros i _. apply (IH Ls' x HLr Her ltac:(simpl in Lx; lia) (fun y => f (coord a i :: y))).
      intros k y Hk Hy. apply (Hf (S k) (coord a i :: y)); simpl; lia.
Qed.

(** At a node the functionals select one entry. *)
Lemma tenL_select dims Ls idx V : lfs dims Ls ->
  Forall2 (fun L i => forall f, L f = f i) Ls idx -> tenL Ls V = V idx.
Proof.
  intros H HF. revert dims V H. induction HF as [|L i Ls idx HLi HF IH]; intros dims V H; simpl; auto.
  inversion H; subst. rewrite HLi. eapply IH; eauto.
Qed.

(** Positive functionals of mass one keep bounds. *)
Definition mean_on (d : Z) (S : Z -> Prop) (L : (Z -> R) -> R) : Prop :=
  forall f m M, (forall i, S i -> m <= f i <= M) -> m <= L f <= M.

Lemma tenL_bounds Ls Ss : 
  Forall2 (fun (S : Z -> Prop) L => forall f m M, (forall i, S i -> m <= f i <= M) -> m <= L f <= M) Ss Ls ->
  forall V m M, (forall idx, Forall2 (fun (S : Z -> Prop) i => S i) Ss idx -> m <= V idx <= M) ->
  m <= tenL Ls V <= M.
Proof.
  induction 1 as [|S L Ss Ls HL HLs IH]; intros V m M HV; simpl.
  - apply HV. constructor.
  - apply HL. intros i Hi. apply IH. intros idx Hx. apply HV. constructor; auto.
Qed.

(** ** One axis at a time *)
Fixpoint sliceV (Ls : list ((Z -> R) -> R)) (k : nat) (V : list Z -> R) : Z -> R :=
  match Ls, k with
  | L :: r, O => fun j => tenL r (fun idx => V (j :: idx))
  | L :: r, S k' => fun j => L (fun i => sliceV r k' (fun idx => V (i :: idx)) j)
  | [], _ => fun _ => 0
  end.

Lemma tenL_slice dims Ls k V : lfs dims Ls -> (k < length Ls)%nat ->
  forall d M, lf d M -> tenL (upd Ls k M) V = M (sliceV Ls k V).
Proof.
  intros H. revert k V. induction H as [|e L ds Ls HL HLs IH]; intros k V Hk d M HM; simpl in Hk; [lia|].
  destruct k as [|k]; simpl.
  - reflexivity.
  - rewrite <- (lf_swap (fun i j => sliceV Ls k (fun idx => V (i :: idx)) j) HL HM).
    apply (lf_ext _ _ HL). intros i _. apply (IH k (fun idx => V (i :: idx)) ltac:(lia) d M HM).
Qed.

(** ** The full sum over all multi-indices *)
Fixpoint all_idx (dims : list Z) : list (list Z) :=
  match dims with
  | [] => [[]]
  | d :: ds => flat_map (fun i => map (cons i) (all_idx ds)) (zseq d)
  end.

Lemma in_all_idx dims idx : In idx (all_idx dims) <-> in_shape dims idx.
Proof.
  revert idx. induction dims as [|d ds IH]; intros idx; simpl.
  - split; [intros [<-|[]]; constructor|]. intros H. inversion H; auto.
  - rewrite in_flat_map. split.
    + intros (i & Hi & H). apply in_map_iff in H as (r & <- & Hr). apply in_zseq in Hi.
      constructor; auto. apply IH; auto.
    + intros H. inversion H as [|? i ? r Hi Hr]; subst. exists i. split; [apply in_zseq; auto|].
      apply in_map. apply IH; auto.
Qed.

Lemma NoDup_app_intro A (l l' : list A) : NoDup l -> NoDup l' ->
  (forall a, In a l -> ~ In a l') -> NoDup (l ++ l').
Proof.
  induction 1; simpl; auto. intros H1 H2. constructor.
  - rewrite in_app_iff. intros [?|?]; auto. apply (H2 x); auto.
  - apply IHNoDup; auto.
Qed.

Lemma all_idx_nodup dims : NoDup (all_idx dims).
Proof.
  induction dims as [|d ds IH]; simpl; [constructor; auto; constructor|].
  assert (Z := zseq_nodup d). induction Z as [|i l Hi Hl IHl]; simpl; [constructor|].
  apply NoDup_app_intro; auto.
  - apply Injective_map_NoDup; auto. intros u v E. congruence.
  - intros a Ha Hb. apply in_map_iff in Ha as (r & <- & _).
    apply in_flat_map in Hb as (j & Hj & Hb). apply in_map_iff in Hb as (r' & E & _). congruence.
Qed.

Fixpoint weight (Ls : list ((Z -> R) -> R)) (idx : list Z) : R :=
  match Ls, idx with
  | L :: r, i :: is => L (delta i) * weight r is
  | _, _ => 1
  end.

Lemma Rsum_flat_map A B (f : B -> R) (g : A -> list B) l :
  Rsum (map f (flat_map g l)) = Rsum (map (fun a => Rsum (map f (g a))) l).
Proof. induction l; simpl; auto. rewrite map_app, Rsum_app, IHl. reflexivity. Qed.

Lemma tenL_sum dims Ls V : lfs dims Ls ->
  tenL Ls V = Rsum (map (fun idx => weight Ls idx * V idx) (all_idx dims)).
Proof.
  intros H. revert V. induction H as [|d L ds Ls HL HLs IH]; intros V; simpl; [ring|].
  rewrite Rsum_flat_map. rewrite (lf_repr _ HL). apply Rsum_ext. intros i _.
  rewrite map_map. cbn [weight]. rewrite (IH (fun idx => V (i :: idx))).
  rewrite <- Rsum_mult. apply Rsum_ext. intros idx _. ring.
Qed.

(** ** Reindexing every axis *)
Lemma tenL_reindex Ls Ls' (sg : list (Z -> Z)) V :
  length sg = length Ls ->
  Forall2 (fun p L' => forall f, L' (fun i => f (snd p i)) = fst p f) (combine Ls sg) Ls' ->
  (forall L, In L Ls' -> forall f g, (forall i, f i = g i) -> L f = L g) ->
  tenL Ls' (fun idx => V (map (fun p => fst p (snd p)) (combine sg idx))) = tenL Ls V.
Proof.
  revert Ls' sg V. induction Ls as [|L Ls IH]; intros Ls' sg V Lg H He.
  - simpl in H. inversion H; subst. destruct sg; [|discriminate]. reflexivity.
  - destruct sg as [|s sg]; [discriminate|]. simpl in H. inversion H as [|? L' ? Ls2 HL HLs]; subst.
    simpl. etransitivity; [|exact (HL (fun i => tenL Ls (fun idx => V (i :: idx))))]. cbn [fst snd].
    apply He; [left; auto|]. intros i. simpl in Lg.
    rewrite <- (IH Ls2 sg (fun idx => V (s i :: idx)) ltac:(lia) HLs); auto.
    intros; apply He; auto. right; auto.
Qed.
