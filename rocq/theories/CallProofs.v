(** Whole calls of interpn never panic. *)
From Coq Require Import ZifyBool ZifyNat PeanoNat List.
From Verif Require Import Base Ops ModelCore ModelLinear ModelNearest ModelCubic.
From Verif Require Import Spec SpecCalls CoreLemmas TensorLemmas MethodLemmas SearchLemmas MethodChar GenLemmas GenProofs GenProofs2 GenProofs3.
Import ListNotations.
Unset Implicit Arguments.
Open Scope string_scope.
Open Scope Z_scope.

Section Batch.
Context {F : Type} (d : F).
(** Each point of a batch succeeds if [P] holds of it and fails with [e] otherwise. *)
Definition point_ok (e : string) (P : list F -> Prop) (one : list F -> outcome F) (x : list F) : Prop :=
  (exists v, one x = Ok v /\ P x) \/ (one x = Err e /\ ~ P x).
Lemma batch_ends e P one obs out (r : outcome unit * list F) : batch_spec d one obs out (fst r) (snd r) ->
  (forall j, (j < length out)%nat -> point_ok e P one (point_of d obs j)) ->
  ((forall j, (j < length out)%nat -> P (point_of d obs j)) -> succeeds out r) /\
  (~ (forall j, (j < length out)%nat -> P (point_of d obs j)) -> stopped e out r).
Proof.
  intros (L & B) H. destruct r as [res out']; cbn [fst snd] in *. unfold succeeds, stopped; cbn [fst snd].
  destruct res as [[]|e'|].
  - split; auto. intros N. exfalso. apply N. intros j Hj. specialize (B j Hj).
    destruct (H j Hj) as [(v & _ & Pj)|(E & _)]; [exact Pj|]. rewrite E in B. discriminate.
  - destruct B as (i & Hi & E & _). destruct (H i Hi) as [(v & E' & _)|(E' & N)]; [congruence|].
    assert (e' = e) by congruence. subst. split; auto. intros A. elim N. auto.
  - exfalso. destruct B as (i & Hi & E & _). destruct (H i Hi) as [(v & E' & _)|(E' & _)]; congruence.
Qed.
End Batch.

Lemma point_length F (d : F) obs j n : length obs = n -> length (point_of d obs j) = n.
Proof. intros <-. apply map_length. Qed.

Lemma three_checks A (P1 P2 P3 : Prop) m1 m2 m3 (res : outcome A) a :
  checks_in_order [(P1, m1); (P2, m2); (P3, m3)] res a ->
  {P1} + {~ P1} -> {P2} + {~ P2} -> {P3} + {~ P3} ->
  (P1 /\ P2 /\ P3 /\ res = Ok a) \/ (~ (P1 /\ P2 /\ P3) /\ exists e, res = Err e).
Proof.
  cbn [checks_in_order]. intros (H1 & N1) [Y1|X1] D2 D3; [|right; split; [tauto|eauto]].
  destruct (H1 Y1) as (H2 & N2). destruct D2 as [Y2|X2]; [|right; split; [tauto|eauto]].
  destruct (H2 Y2) as (H3 & N3). destruct D3 as [Y3|X3]; [left; auto|right; split; [tauto|eauto]].
Qed.

Section Calls.
Context {F : Type} (o : Ops F) (c : cfg).

Definition sizes_dec size (l : list Z) : {Forall (fun d => size <= d) l} + {~ Forall (fun d => size <= d) l} :=
  Forall_dec _ (fun d => Z_le_dec size d) l.
Definition lens_dec size (l : list (list F)) : {Forall (fun g => size <= zlen g) l} + {~ Forall (fun g => size <= zlen g) l} :=
  Forall_dec _ (fun g => Z_le_dec size (zlen g)) l.
Definition steps_dec (l : list F) : {Forall (fun h => flt o (fzero o) h = true) l} + {~ Forall (fun h => flt o (fzero o) h = true) l} :=
  Forall_dec _ (fun h => Bool.bool_dec (flt o (fzero o) h) true) l.
Definition incr_dec (l : list (list F)) : {Forall (first_two_increase o) l} + {~ Forall (first_two_increase o) l}.
Proof.
  apply Forall_dec. intros [|a [|b g]]; [right; intros []|right; intros []|]. apply Bool.bool_dec.
Defined.
Definition arrays_dec m (l : list (list F)) : {Forall (fun xs => length xs = m) l} + {~ Forall (fun xs => length xs = m) l} :=
  Forall_dec _ (fun xs => Nat.eq_dec (length xs) m) l.

Lemma reg_lens_dec axes (dims : list Z) (starts steps : list F) (obs : list (list F)) m :
  let L := (1 <= length dims <= axes)%nat /\ length starts = length dims /\ length steps = length dims /\
    length obs = length dims /\ Forall (fun xs => length xs = m) obs in L \/ ~ L.
Proof.
  cbv zeta. destruct (arrays_dec m obs) as [A|A]; [|right; tauto].
  destruct (Nat.eq_dec (length starts) (length dims)); [|right; tauto].
  destruct (Nat.eq_dec (length steps) (length dims)); [|right; tauto].
  destruct (Nat.eq_dec (length obs) (length dims)); [|right; tauto].
  destruct (le_dec 1 (length dims)); [|right; lia]. destruct (le_dec (length dims) axes); [left; auto|right; lia].
Qed.
Lemma rect_lens_dec axes (grids : list (list F)) (obs : list (list F)) m :
  let L := (1 <= length grids <= axes)%nat /\ length obs = length grids /\ Forall (fun xs => length xs = m) obs in L \/ ~ L.
Proof.
  cbv zeta. destruct (arrays_dec m obs) as [A|A]; [|right; tauto].
  destruct (Nat.eq_dec (length obs) (length grids)); [|right; tauto].
  destruct (le_dec 1 (length grids)); [|right; lia]. destruct (le_dec (length grids) axes); [left; auto|right; lia].
Qed.

Lemma fit_reg_input dims (starts steps vals : list F) : (1 <= length dims)%nat -> length starts = length dims -> length steps = length dims ->
  zlen vals <= isize_max -> prefix_products_fit dims -> reg_input c dims starts steps vals.
Proof.
  intros. repeat split; auto. right. assert (H4 := H3 (length dims)). rewrite firstn_all in H4. lia.
Qed.
Lemma fit_rect_input grids (vals : list F) : (1 <= length grids)%nat ->
  zlen vals <= isize_max -> prefix_products_fit (map zlen grids) -> rect_input c grids vals.
Proof.
  intros. repeat split; auto. right. assert (H4 := H1 (length (map (@zlen F) grids))). rewrite firstn_all in H4. lia.
Qed.

(** ** One point *)
Definition fits (starts steps x : list F) : Prop := forall k, (k < length starts)%nat ->
  whole_steps o (nth k starts (fzero o)) (nth k steps (fzero o)) (nth k x (fzero o)) <> None.

Lemma mapM_cells A (f : nat -> outcome A) (P : nat -> Prop) e l :
  (forall k, In k l -> (exists a, f k = Ok a /\ P k) \/ (f k = Err e /\ ~ P k)) ->
  (exists r, mapM f l = Ok r /\ forall k, In k l -> P k) \/ (mapM f l = Err e /\ ~ forall k, In k l -> P k).
Proof.
  induction l as [|k l IH]; intros H; [left; exists []; split; [reflexivity|intros k []]|].
  cbn [mapM]. destruct (H k (or_introl eq_refl)) as [(a & E & Pk)|(E & N)]; rewrite E; cbn [bind].
  - destruct IH as [(r & E' & Pl)|(E' & N)]; [intros; apply H; right; auto| |]; rewrite E'; cbn [bind].
    + left. eexists. split; [reflexivity|]. intros j [<-|Hj]; auto.
    + right. split; [reflexivity|]. intros A'. apply N. intros j Hj. apply A'. right. exact Hj.
  - right. split; [reflexivity|]. intros A'. apply N, A'. left. reflexivity.
Qed.
Lemma reg_cells_ends dims starts steps vals x : length starts = length dims ->
  (exists os, reg_cells o (mkRegular dims starts steps vals) x = Ok os /\ fits starts steps x) \/
  (reg_cells o (mkRegular dims starts steps vals) x = Err msg_repr /\ ~ fits starts steps x).
Proof.
  intros Ls. unfold reg_cells. cbn [r_dims r_starts r_steps].
  destruct (mapM_cells _ (fun k => reg_cell o (nth k starts (fzero o)) (nth k steps (fzero o)) (nth k dims 0) (nth k x (fzero o)))
    (fun k => whole_steps o (nth k starts (fzero o)) (nth k steps (fzero o)) (nth k x (fzero o)) <> None) msg_repr (seq 0 (length dims)))
    as [(r & E & H)|(E & N)].
  - intros k _. unfold reg_cell, whole_steps. destruct (to_isize o _) as [i|]; cbn [ok_or bind].
    + left. eexists. split; [reflexivity|discriminate].
    + right. split; [reflexivity|]. intros H. apply H. reflexivity.
  - left. exists r. split; [exact E|]. intros k Hk. apply H. apply in_seq. lia.
  - right. split; [exact E|]. intros H. apply N. intros k Hk. apply in_seq in Hk. apply H. lia.
Qed.
Lemma creg_cells_ends dims starts steps vals x : length starts = length dims ->
  (ovf_checks c = false \/ forall k i, (k < length dims)%nat ->
     whole_steps o (nth k starts (fzero o)) (nth k steps (fzero o)) (nth k x (fzero o)) = Some i -> isize_min < i <= isize_max) ->
  (exists os, creg_cells o c (mkRegular dims starts steps vals) x = Ok os /\ fits starts steps x) \/
  (creg_cells o c (mkRegular dims starts steps vals) x = Err msg_repr /\ ~ fits starts steps x).
Proof.
  intros Ls C. unfold creg_cells. cbn [r_dims r_starts r_steps].
  destruct (mapM_cells _ (fun k => creg_cell o c (nth k starts (fzero o)) (nth k steps (fzero o)) (nth k dims 0) (nth k x (fzero o)))
    (fun k => whole_steps o (nth k starts (fzero o)) (nth k steps (fzero o)) (nth k x (fzero o)) <> None) msg_repr (seq 0 (length dims)))
    as [(r & E & H)|(E & N)].
  - intros k Hk. apply in_seq in Hk. unfold creg_cell. fold (whole_steps o (nth k starts (fzero o)) (nth k steps (fzero o)) (nth k x (fzero o))).
    destruct (whole_steps _ _ _ _) as [i|] eqn:Ei; cbn [ok_or bind].
    + left. assert (S : exists z, isize_sub c i 1 = Ok z).
      { unfold isize_sub, isize_res. destruct C as [->|C]; [destruct (_ && _); eauto|].
        specialize (C k i ltac:(lia) Ei). replace (_ && _) with true by (unfold isize_min, isize_max in *; lia). eauto. }
      destruct S as (z & ->). cbn [bind]. eexists. split; [reflexivity|discriminate].
    + right. split; [reflexivity|]. intros H. apply H. reflexivity.
  - left. exists r. split; [exact E|]. intros k Hk. apply H. apply in_seq. lia.
  - right. split; [exact E|]. intros H. apply N. intros k Hk. apply in_seq in Hk. apply H. lia.
Qed.

Ltac ends Cells := destruct Cells as [(os & E & Q)|(E & Q)]; rewrite E; cbn [bind]; [left; eauto|right; auto].

Lemma point_mlr dims starts steps vals s x : usize_converts o -> reg_input c dims starts steps vals -> length x = length dims ->
  mlr_new o c dims starts steps vals = Ok s -> point_ok msg_repr (fits starts steps) (mlr_interp_one o c s) x.
Proof.
  intros Hu Hi Lx Hs. apply mlr_new_inv in Hs as (W & ->); auto. unfold point_ok. rewrite mlr_char by auto.
  ends (reg_cells_ends dims starts steps vals x (proj1 (proj2 Hi))).
Qed.
Lemma point_mlrr m dims starts steps vals s x : usize_converts o -> reg_input c dims starts steps vals -> length x = length dims ->
  mlrr_new o c m dims starts steps vals = Ok s -> point_ok msg_repr (fits starts steps) (mlrr_interp_one o c m s) x.
Proof.
  intros Hu Hi Lx Hs. apply mlrr_new_inv in Hs as (W & -> & Hm); auto. unfold point_ok. rewrite mlrr_char by auto.
  ends (reg_cells_ends dims starts steps vals x (proj1 (proj2 Hi))).
Qed.
Lemma point_nr dims starts steps vals s x : usize_converts o -> reg_input c dims starts steps vals -> length x = length dims ->
  nr_new o c dims starts steps vals = Ok s -> point_ok msg_repr (fits starts steps) (nr_interp_one o c s) x.
Proof.
  intros Hu Hi Lx Hs. apply mlr_new_inv in Hs as (W & ->); auto. unfold point_ok. rewrite nr_char by auto.
  ends (reg_cells_ends dims starts steps vals x (proj1 (proj2 Hi))).
Qed.
Definition not_lowest (starts steps x : list F) : Prop := ovf_checks c = false \/
  forall k i, (k < length starts)%nat ->
     whole_steps o (nth k starts (fzero o)) (nth k steps (fzero o)) (nth k x (fzero o)) = Some i -> isize_min < i <= isize_max.
Lemma point_mcr dims starts steps vals lin s x : usize_converts o -> reg_input c dims starts steps vals -> length x = length dims ->
  mcr_new o c dims starts steps vals lin = Ok s -> not_lowest starts steps x ->
  point_ok msg_repr (fits starts steps) (mcr_interp_one o c s) x.
Proof.
  intros Hu Hi Lx Hs C. apply mcr_new_inv in Hs as (W & ->); auto. unfold point_ok. rewrite mcr_char by auto.
  cbn [cr_base]. unfold not_lowest in C. rewrite (proj1 (proj2 Hi)) in C.
  ends (creg_cells_ends dims starts steps vals x (proj1 (proj2 Hi)) C).
Qed.
Lemma point_mcrr m dims starts steps vals lin s x : usize_converts o -> reg_input c dims starts steps vals -> length x = length dims ->
  mcrr_new o c m dims starts steps vals lin = Ok s -> not_lowest starts steps x ->
  point_ok msg_repr (fits starts steps) (mcrr_interp_one o c m s) x.
Proof.
  intros Hu Hi Lx Hs C. apply mcrr_new_inv in Hs as (W & -> & Hm); auto. unfold point_ok. rewrite mcrr_char by auto.
  cbn [cr_base]. unfold not_lowest in C. rewrite (proj1 (proj2 Hi)) in C.
  ends (creg_cells_ends dims starts steps vals x (proj1 (proj2 Hi)) C).
Qed.

(** ** Calls *)
Lemma call_ends (S : Type) (L V : Prop) (new : outcome S) (a : S) (call : outcome unit * list F) (one : list F -> outcome F) e P obs out :
  L \/ ~ L -> (~ L -> refused out call) ->
  (L -> (V /\ new = Ok a) \/ (~ V /\ exists e, new = Err e)) ->
  (forall e, L -> new = Err e -> call = (Err e, out)) ->
  (L -> V -> new = Ok a -> batch_spec (fzero o) one obs out (fst call) (snd call) /\
     forall j, (j < length out)%nat -> point_ok e P one (point_of (fzero o) obs j)) ->
  (L /\ V -> ((forall j, (j < length out)%nat -> P (point_of (fzero o) obs j)) -> succeeds out call) /\
             (~ (forall j, (j < length out)%nat -> P (point_of (fzero o) obs j)) -> stopped e out call)) /\
  (~ (L /\ V) -> refused out call).
Proof.
  intros D R N E B. split.
  - intros (HL & HV). destruct (N HL) as [(_ & Ea)|(X & _)]; [|contradiction].
    destruct (B HL HV Ea) as (B1 & B2). eapply batch_ends; eauto.
  - intros X. destruct D as [HL|HL]; [|auto]. destruct (N HL) as [(HV & _)|(_ & e' & Ee)]; [elim X; auto|].
    exists e'. apply E; auto.
Qed.

Lemma fit_points starts steps obs m :
  observations_fit o starts steps obs m <-> (forall j, (j < m)%nat -> fits starts steps (point_of (fzero o) obs j)).
Proof. unfold observations_fit, fits. split; intros H; intros; apply H; auto. Qed.

Definition calls_regular size axes dims starts steps vals obs out (call : outcome unit * list F) : Prop :=
  (valid_regular o size axes dims starts steps vals obs (length out) ->
     (observations_fit o starts steps obs (length out) -> succeeds out call) /\
     (~ observations_fit o starts steps obs (length out) -> stopped msg_repr out call)) /\
  (~ valid_regular o size axes dims starts steps vals obs (length out) -> refused out call).
Definition calls_rectilinear size axes grids vals obs out (call : outcome unit * list F) : Prop :=
  (valid_rectilinear o size axes grids vals obs (length out) -> succeeds out call) /\
  (~ valid_rectilinear o size axes grids vals obs (length out) -> refused out call).

Lemma calls_regular_intro size axes dims (starts steps vals : list F) obs out call (S : Type) (new : outcome S) a m1 m2 m3 one :
  let L := (1 <= length dims <= axes)%nat /\ length starts = length dims /\ length steps = length dims /\
    length obs = length dims /\ Forall (fun xs => length xs = length out) obs in
  (~ L -> refused out call) ->
  (L -> checks_in_order [(zlen vals = zprod dims, m1); (Forall (fun d => size <= d) dims, m2);
     (Forall (fun h => flt o (fzero o) h = true) steps, m3)] new a) ->
  (forall e, L -> new = Err e -> call = (Err e, out)) ->
  (L -> new = Ok a -> batch_spec (fzero o) one obs out (fst call) (snd call)) ->
  (L -> new = Ok a -> forall j, (j < length out)%nat -> point_ok msg_repr (fits starts steps) one (point_of (fzero o) obs j)) ->
  calls_regular size axes dims starts steps vals obs out call.
Proof.
  intros L R C E B P.
  destruct (call_ends S L (zlen vals = zprod dims /\ Forall (fun d => size <= d) dims /\ Forall (fun h => flt o (fzero o) h = true) steps)
    new a call one msg_repr (fits starts steps) obs out) as (H1 & H2); auto.
  - apply reg_lens_dec.
  - intros HL. destruct (three_checks _ _ _ _ _ _ _ _ _ (C HL) (Z.eq_dec _ _) (sizes_dec _ _) (steps_dec _)) as [(Y1 & Y2 & Y3 & Ea)|(X & Ee)];
      [left|right]; auto.
  - unfold calls_regular, valid_regular. rewrite fit_points. split; intros V; [apply H1|apply H2]; unfold L; tauto.
Qed.
Lemma calls_rectilinear_intro size axes (grids : list (list F)) (vals : list F) obs out call (S : Type) (new : outcome S) a m1 m2 m3 one :
  let L := (1 <= length grids <= axes)%nat /\ length obs = length grids /\ Forall (fun xs => length xs = length out) obs in
  (~ L -> refused out call) ->
  (L -> checks_in_order [(zlen vals = zprod (map zlen grids), m1); (Forall (fun g => size <= zlen g) grids, m2);
     (Forall (first_two_increase o) grids, m3)] new a) ->
  (forall e, L -> new = Err e -> call = (Err e, out)) ->
  (L -> new = Ok a -> batch_spec (fzero o) one obs out (fst call) (snd call)) ->
  (L -> new = Ok a -> forall j, (j < length out)%nat -> exists v, one (point_of (fzero o) obs j) = Ok v) ->
  calls_rectilinear size axes grids vals obs out call.
Proof.
  intros L R C E B P.
  destruct (call_ends S L (zlen vals = zprod (map zlen grids) /\ Forall (fun g => size <= zlen g) grids /\ Forall (first_two_increase o) grids)
    new a call one "" (fun _ => True) obs out) as (H1 & H2); auto.
  - apply rect_lens_dec.
  - intros HL. destruct (three_checks _ _ _ _ _ _ _ _ _ (C HL) (Z.eq_dec _ _) (lens_dec _ _) (incr_dec _)) as [(Y1 & Y2 & Y3 & Ea)|(X & Ee)];
      [left|right]; auto.
  - intros HL _ Ea. split; auto. intros j Hj. destruct (P HL Ea j Hj) as (v & Ev). left. eauto.
  - unfold calls_rectilinear, valid_rectilinear. split; intros V; [apply H1; unfold L; tauto|apply H2; unfold L; tauto].
Qed.

Section Regular.
Variables (dims : list Z) (starts steps vals : list F) (obs : list (list F)) (out : list F).
Hypothesis Hu : usize_converts o.
Hypothesis Hp : prefix_products_fit dims.
Hypothesis Hv : zlen vals <= isize_max.

Ltac reg_start := intros (Hn & L1 & L2 & L3 & Ha).
Ltac reg_in := apply fit_reg_input; [lia|assumption|assumption|assumption|assumption].

Theorem call_nr : calls_regular 2 6 dims starts steps vals obs out (nr_interpn o c dims starts steps vals obs out).
Proof.
  eapply (calls_regular_intro 2 6 dims starts steps vals obs out _ _ (nr_new o c dims starts steps vals)
     (mkRegular dims starts steps vals) _ _ _ (nr_interp_one o c (mkRegular dims starts steps vals))).
  - intros N. apply interpn_err_nr; auto.
  - intros _. apply new_checks_mlr; auto.
  - intros e (Hn & L1 & L2 & L3 & Ha) Ee. unfold nr_interpn. rewrite L1, L2, L3, Nat.eqb_refl. cbn [negb orb].
    replace (_ && _) with true by lia. rewrite !try_into_ok by auto. cbn [bind]. rewrite Ee. reflexivity.
  - intros (Hn & L1 & L2 & L3 & Ha) Ea. apply interpn_batch_nr; auto.
  - intros (Hn & L1 & L2 & L3 & Ha) Ea j Hj. eapply point_nr; eauto; [reg_in|apply point_length; auto].
Qed.
Theorem call_mlrr : calls_regular 2 8 dims starts steps vals obs out (mlrr_interpn o c dims starts steps vals obs out).
Proof.
  assert (U : (1 <= length dims <= 8)%nat -> mlrr_interpn o c dims starts steps vals obs out =
    and_then (mlrr_new o c (length dims) dims starts steps vals) out (fun s => mlrr_interp o c (length dims) s obs out)).
  { intros Hn. unfold mlrr_interpn. replace (_ && _) with true by lia. reflexivity. }
  eapply (calls_regular_intro 2 8 dims starts steps vals obs out _ _ (mlrr_new o c (length dims) dims starts steps vals)
     (mkRegular dims starts steps vals) _ _ _ (mlrr_interp_one o c (length dims) (mkRegular dims starts steps vals))).
  - intros N. apply interpn_err_mlrr; auto.
  - intros (Hn & L1 & L2 & L3 & Ha). destruct (@new_checks_mlrr _ o c dims starts steps vals (length dims) Hp (le_n _)) as (H1 & H2).
    split; [intros Z; apply H1; repeat split; auto; lia|]. intros Z. apply H2. tauto.
  - intros e (Hn & L1 & L2 & L3 & Ha) Ee. rewrite U, Ee by auto. reflexivity.
  - intros (Hn & L1 & L2 & L3 & Ha) Ea. rewrite U, Ea by auto. cbn [and_then]. unfold mlrr_interp. apply interp_batch_spec; auto.
  - intros (Hn & L1 & L2 & L3 & Ha) Ea j Hj. eapply point_mlrr; eauto; [reg_in|apply point_length; auto].
Qed.
Theorem call_mlr : calls_regular 2 8 dims starts steps vals obs out (mlr_interpn o c dims starts steps vals obs out).
Proof.
  destruct (le_dec (length dims) 6) as [H6|H6].
  - eapply (calls_regular_intro 2 8 dims starts steps vals obs out _ _ (mlr_new o c dims starts steps vals)
       (mkRegular dims starts steps vals) _ _ _ (mlr_interp_one o c (mkRegular dims starts steps vals))).
    + intros N. apply interpn_err_mlr; auto.
    + intros _. apply new_checks_mlr; auto.
    + intros e (Hn & L1 & L2 & L3 & Ha) Ee. unfold mlr_interpn. rewrite L1, L2, L3, Nat.eqb_refl. cbn [negb orb].
      replace (_ && _) with true by lia. rewrite !try_into_ok by auto. cbn [bind]. rewrite Ee. reflexivity.
    + intros (Hn & L1 & L2 & L3 & Ha) Ea. apply interpn_batch_mlr; auto. lia.
    + intros (Hn & L1 & L2 & L3 & Ha) Ea j Hj. eapply point_mlr; eauto; [reg_in|apply point_length; auto].
  - eapply (calls_regular_intro 2 8 dims starts steps vals obs out _ _ (mlrr_new o c (length dims) dims starts steps vals)
       (mkRegular dims starts steps vals) _ _ _ (mlrr_interp_one o c (length dims) (mkRegular dims starts steps vals))).
    + intros N. apply interpn_err_mlr; auto.
    + intros (Hn & L1 & L2 & L3 & Ha). destruct (@new_checks_mlrr _ o c dims starts steps vals (length dims) Hp (le_n _)) as (H1 & H2).
      split; [intros Z; apply H1; repeat split; auto; lia|]. intros Z. apply H2. tauto.
    + intros e (Hn & L1 & L2 & L3 & Ha) Ee. unfold mlr_interpn. rewrite L1, L2, L3, Nat.eqb_refl. cbn [negb orb].
      replace ((1 <=? _)%nat && _) with false by lia. replace (_ && _) with true by lia. rewrite Ee. reflexivity.
    + intros (Hn & L1 & L2 & L3 & Ha) Ea. apply interpn_batch_mlrr; auto. lia.
    + intros (Hn & L1 & L2 & L3 & Ha) Ea j Hj. eapply point_mlrr; eauto; [reg_in|apply point_length; auto].
Qed.

Variable lin : bool.
Hypothesis Hc : ovf_checks c = false \/ above_lowest o starts steps obs (length out).

Lemma lowest_ok j : (j < length out)%nat -> not_lowest starts steps (point_of (fzero o) obs j).
Proof. intros Hj. destruct Hc as [H|H]; [left; exact H|right]. intros k i Hk E. exact (H j k i Hj Hk E). Qed.

Theorem call_mcrr : calls_regular 4 8 dims starts steps vals obs out (mcrr_interpn o c dims starts steps vals lin obs out).
Proof.
  assert (U : (1 <= length dims <= 8)%nat -> mcrr_interpn o c dims starts steps vals lin obs out =
    and_then (mcrr_new o c (length dims) dims starts steps vals lin) out (fun s => mcrr_interp o c (length dims) s obs out)).
  { intros Hn. unfold mcrr_interpn. replace (_ && _) with true by lia. reflexivity. }
  eapply (calls_regular_intro 4 8 dims starts steps vals obs out _ _ (mcrr_new o c (length dims) dims starts steps vals lin)
     (mkCR (mkRegular dims starts steps vals) lin) _ _ _ (mcrr_interp_one o c (length dims) (mkCR (mkRegular dims starts steps vals) lin))).
  - intros N. apply interpn_err_mcrr; auto.
  - intros (Hn & L1 & L2 & L3 & Ha). destruct (@new_checks_mcrr _ o c dims starts steps vals (length dims) lin Hp (le_n _)) as (H1 & H2).
    split; [intros Z; apply H1; repeat split; auto; lia|]. intros Z. apply H2. tauto.
  - intros e (Hn & L1 & L2 & L3 & Ha) Ee. rewrite U, Ee by auto. reflexivity.
  - intros (Hn & L1 & L2 & L3 & Ha) Ea. rewrite U, Ea by auto. cbn [and_then]. unfold mcrr_interp. apply interp_batch_spec; auto.
  - intros (Hn & L1 & L2 & L3 & Ha) Ea j Hj. eapply point_mcrr; eauto; [reg_in|apply point_length; auto|apply lowest_ok; auto].
Qed.
Theorem call_mcr : ((length dims <= 4)%nat -> length starts = length dims /\ length steps = length dims /\ length obs = length dims) ->
  calls_regular 4 8 dims starts steps vals obs out (mcr_interpn o c dims starts steps vals lin obs out).
Proof.
  intros Hl. destruct (le_dec (length dims) 4) as [H4|H4].
  - eapply (calls_regular_intro 4 8 dims starts steps vals obs out _ _ (mcr_new o c dims starts steps vals lin)
       (mkCR (mkRegular dims starts steps vals) lin) _ _ _ (mcr_interp_one o c (mkCR (mkRegular dims starts steps vals) lin))).
    + intros N. destruct (le_dec 1 (length dims)); [apply interpn_err_mcr; auto; tauto|apply interpn_err_mcr_big; auto; lia].
    + intros (Hn & L1 & L2 & L3 & Ha). apply new_checks_mcr; auto; lia.
    + intros e (Hn & L1 & L2 & L3 & Ha) Ee. unfold mcr_interpn.
      replace (_ && _) with true by lia. rewrite !try_into_ok by auto. cbn [bind]. rewrite Ee. reflexivity.
    + intros (Hn & L1 & L2 & L3 & Ha) Ea. apply interpn_batch_mcr; auto. lia.
    + intros (Hn & L1 & L2 & L3 & Ha) Ea j Hj. eapply point_mcr; eauto; [reg_in|apply point_length; auto|apply lowest_ok; auto].
  - eapply (calls_regular_intro 4 8 dims starts steps vals obs out _ _ (mcrr_new o c (length dims) dims starts steps vals lin)
       (mkCR (mkRegular dims starts steps vals) lin) _ _ _ (mcrr_interp_one o c (length dims) (mkCR (mkRegular dims starts steps vals) lin))).
    + intros N. apply interpn_err_mcr_big; auto. lia.
    + intros (Hn & L1 & L2 & L3 & Ha). destruct (@new_checks_mcrr _ o c dims starts steps vals (length dims) lin Hp (le_n _)) as (H1 & H2).
      split; [intros Z; apply H1; repeat split; auto; lia|]. intros Z. apply H2. tauto.
    + intros e (Hn & L1 & L2 & L3 & Ha) Ee. unfold mcr_interpn.
      replace ((1 <=? _)%nat && _) with false by lia. replace (_ && _) with true by lia. rewrite Ee. reflexivity.
    + intros (Hn & L1 & L2 & L3 & Ha) Ea. apply interpn_batch_mcrr; auto. lia.
    + intros (Hn & L1 & L2 & L3 & Ha) Ea j Hj. eapply point_mcrr; eauto; [reg_in|apply point_length; auto|apply lowest_ok; auto].
Qed.
End Regular.

Section Rectilinear.
Variables (grids : list (list F)) (vals : list F) (obs : list (list F)) (out : list F) (lin : bool).
Hypothesis Hp : prefix_products_fit (map zlen grids).
Hypothesis Hv : zlen vals <= isize_max.
Notation rg := (mkRect grids (map zlen grids) vals).

Ltac rect_in := apply fit_rect_input; [lia|assumption|assumption].

Theorem call_nc : calls_rectilinear 2 6 grids vals obs out (nc_interpn o c grids vals obs out).
Proof.
  eapply (calls_rectilinear_intro 2 6 grids vals obs out _ _ (nc_new o c grids vals) rg _ _ _ (nc_interp_one o c rg)).
  - intros N. apply interpn_err_nc; auto.
  - intros _. apply new_checks_mlc; auto.
  - intros e (Hn & L3 & Ha) Ee. unfold nc_interpn. rewrite L3, Nat.eqb_refl. cbn [negb orb].
    replace (_ && _) with true by lia. rewrite !try_into_ok by auto. cbn [bind]. rewrite Ee. reflexivity.
  - intros (Hn & L3 & Ha) Ea. apply interpn_batch_nc; auto.
  - intros (Hn & L3 & Ha) Ea j Hj. eapply total_nc; eauto; [rect_in|apply point_length; auto].
Qed.
Theorem call_mlcr : calls_rectilinear 2 8 grids vals obs out (mlcr_interpn o c grids vals obs out).
Proof.
  assert (U : (1 <= length grids <= 8)%nat -> mlcr_interpn o c grids vals obs out =
    and_then (mlcr_new o c (length grids) grids vals) out (fun s => mlcr_interp o c (length grids) s obs out)).
  { intros Hn. unfold mlcr_interpn. replace (_ && _) with true by lia. reflexivity. }
  eapply (calls_rectilinear_intro 2 8 grids vals obs out _ _ (mlcr_new o c (length grids) grids vals) rg _ _ _ (mlcr_interp_one o c (length grids) rg)).
  - intros N. apply interpn_err_mlcr; auto.
  - intros (Hn & L3 & Ha). apply new_checks_mlcr; auto. lia.
  - intros e (Hn & L3 & Ha) Ee. rewrite U, Ee by auto. reflexivity.
  - intros (Hn & L3 & Ha) Ea. rewrite U, Ea by auto. cbn [and_then]. unfold mlcr_interp. apply interp_batch_spec; auto.
  - intros (Hn & L3 & Ha) Ea j Hj. eapply total_mlcr; eauto; [rect_in|apply point_length; auto].
Qed.
Theorem call_mlc : calls_rectilinear 2 8 grids vals obs out (mlc_interpn o c grids vals obs out).
Proof.
  destruct (le_dec (length grids) 6) as [H6|H6].
  - eapply (calls_rectilinear_intro 2 8 grids vals obs out _ _ (mlc_new o c grids vals) rg _ _ _ (mlc_interp_one o c rg)).
    + intros N. apply interpn_err_mlc; auto.
    + intros _. apply new_checks_mlc; auto.
    + intros e (Hn & L3 & Ha) Ee. unfold mlc_interpn. rewrite L3, Nat.eqb_refl. cbn [negb orb].
      replace (_ && _) with true by lia. rewrite !try_into_ok by auto. cbn [bind]. rewrite Ee. reflexivity.
    + intros (Hn & L3 & Ha) Ea. apply interpn_batch_mlc; auto. lia.
    + intros (Hn & L3 & Ha) Ea j Hj. eapply total_mlc; eauto; [rect_in|apply point_length; auto].
  - eapply (calls_rectilinear_intro 2 8 grids vals obs out _ _ (mlcr_new o c (length grids) grids vals) rg _ _ _ (mlcr_interp_one o c (length grids) rg)).
    + intros N. apply interpn_err_mlc; auto.
    + intros (Hn & L3 & Ha). apply new_checks_mlcr; auto. lia.
    + intros e (Hn & L3 & Ha) Ee. unfold mlc_interpn. rewrite L3, Nat.eqb_refl. cbn [negb orb].
      replace ((1 <=? _)%nat && _) with false by lia. replace (_ && _) with true by lia. rewrite Ee. reflexivity.
    + intros (Hn & L3 & Ha) Ea. apply interpn_batch_mlcr; auto. lia.
    + intros (Hn & L3 & Ha) Ea j Hj. eapply total_mlcr; eauto; [rect_in|apply point_length; auto].
Qed.
Theorem call_mccr : calls_rectilinear 4 8 grids vals obs out (mccr_interpn o c grids vals lin obs out).
Proof.
  assert (U : (1 <= length grids <= 8)%nat -> mccr_interpn o c grids vals lin obs out =
    and_then (mccr_new o c (length grids) grids vals lin) out (fun s => mccr_interp o c (length grids) s obs out)).
  { intros Hn. unfold mccr_interpn. replace (_ && _) with true by lia. reflexivity. }
  eapply (calls_rectilinear_intro 4 8 grids vals obs out _ _ (mccr_new o c (length grids) grids vals lin) (mkCC rg lin) _ _ _ (mccr_interp_one o c (length grids) (mkCC rg lin))).
  - intros N. apply interpn_err_mccr; auto.
  - intros (Hn & L3 & Ha). apply new_checks_mccr; auto. lia.
  - intros e (Hn & L3 & Ha) Ee. rewrite U, Ee by auto. reflexivity.
  - intros (Hn & L3 & Ha) Ea. rewrite U, Ea by auto. cbn [and_then]. unfold mccr_interp. apply interp_batch_spec; auto.
  - intros (Hn & L3 & Ha) Ea j Hj. eapply total_mccr; eauto; [rect_in|apply point_length; auto].
Qed.
Theorem call_mcc : ((length grids <= 4)%nat -> length obs = length grids) ->
  calls_rectilinear 4 8 grids vals obs out (mcc_interpn o c grids vals lin obs out).
Proof.
  intros Hl. destruct (le_dec (length grids) 4) as [H4|H4].
  - eapply (calls_rectilinear_intro 4 8 grids vals obs out _ _ (mcc_new o c grids vals lin) (mkCC rg lin) _ _ _ (mcc_interp_one o c (mkCC rg lin))).
    + intros N. destruct (le_dec 1 (length grids)); [apply interpn_err_mcc; auto; tauto|apply interpn_err_mcc_big; auto; lia].
    + intros _. apply new_checks_mcc; auto.
    + intros e (Hn & L3 & Ha) Ee. unfold mcc_interpn.
      replace (_ && _) with true by lia. rewrite !try_into_ok by auto. cbn [bind]. rewrite Ee. reflexivity.
    + intros (Hn & L3 & Ha) Ea. apply interpn_batch_mcc; auto. lia.
    + intros (Hn & L3 & Ha) Ea j Hj. eapply total_mcc; eauto; [rect_in|apply point_length; auto].
  - eapply (calls_rectilinear_intro 4 8 grids vals obs out _ _ (mccr_new o c (length grids) grids vals lin) (mkCC rg lin) _ _ _ (mccr_interp_one o c (length grids) (mkCC rg lin))).
    + intros N. apply interpn_err_mcc_big; auto. lia.
    + intros (Hn & L3 & Ha). apply new_checks_mccr; auto. lia.
    + intros e (Hn & L3 & Ha) Ee. unfold mcc_interpn.
      replace ((1 <=? _)%nat && _) with false by lia. replace (_ && _) with true by lia. rewrite Ee. reflexivity.
    + intros (Hn & L3 & Ha) Ea. apply interpn_batch_mccr; auto. lia.
    + intros (Hn & L3 & Ha) Ea j Hj. eapply total_mccr; eauto; [rect_in|apply point_length; auto].
Qed.
End Rectilinear.

(** No panic. *)
Lemma regular_nopanic size axes dims starts steps vals obs out call : calls_regular size axes dims starts steps vals obs out call ->
  fst call <> Panic.
Proof.
  intros (H1 & H2) E.
  assert (NV : ~ valid_regular o size axes dims starts steps vals obs (length out)).
  { intros V. destruct (H1 V) as (Ha & Hb).
    assert (NF : ~ observations_fit o starts steps obs (length out)) by (intros Q; destruct (Ha Q) as (E' & _); congruence).
    destruct (Hb NF) as (E' & _). congruence. }
  destruct (H2 NV) as (e & E'). rewrite E' in E. discriminate.
Qed.
Lemma rectilinear_nopanic size axes grids vals obs out call : calls_rectilinear size axes grids vals obs out call ->
  fst call <> Panic.
Proof.
  intros (H1 & H2) E.
  assert (NV : ~ valid_rectilinear o size axes grids vals obs (length out)).
  { intros V. destruct (H1 V) as (E' & _). congruence. }
  destruct (H2 NV) as (e & E'). rewrite E' in E. discriminate.
Qed.
End Calls.
