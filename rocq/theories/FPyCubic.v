(** The Python function interpn in floating point, method "cubic": distance of the results from
    the exact multicubic interpolant and from a smooth function. *)
From Coq Require Import Reals Lra Lia List Bool ZifyBool ZifyNat PeanoNat String.
From Flocq Require Import Core.Core IEEE754.BinarySingleNaN.
From Verif Require Import Base Ops FInst ModelCore ModelLinear ModelCubic ModelPython Spec SpecOrder SpecIEEE SpecError SpecPython.
From Verif Require Import CoreLemmas MethodLemmas MethodChar GenLemmas GenProofs GenProofs2 GenProofs3 FLemmas FProofs FProofs2 FError FError2.
From Verif Require Import RInst SpecReal RTensor R1D RChar Interpolators REval RProofs SpecApprox Approx1D Approx Shape FApprox.
From Verif Require Import SpecExtrap SpecReach SpecMoved SpecDetect Extrap1D Extrap Moved FDetect UtilProofs PyProofs FPython SpecCubicError SpecCubicReach FCubicApprox FCubicExtrap3 Split SplitProofs SpecPyCubic.
Import ListNotations.
Unset Implicit Arguments.
Open Scope list_scope.
Open Scope string_scope.

(** ** The call, for any number type *)
Section Call.
Open Scope Z_scope.
Context {F : Type} (o : Ops F).
Variables (c : cfg) (obs grids : list (ndarray F)) (vals o0 : ndarray F) (lin assume : bool) (atol : F).
Notation gs := (map nd_data grids).
Notation os := (map nd_data obs).
Notation vs := (nd_data vals).
Notation n := (length (nd_data o0)).
Notation zeros := (repeat (fzero o) (length (nd_data o0))).
Notation dims := (map zlen gs).
Notation starts := (firsts (fzero o) gs).
Notation steps := (spacings o (fzero o) gs).
Hypothesis Hc : good_call 4 o0 obs grids vals.
Hypothesis Hn : (1 <= length grids <= 8)%nat.

Lemma good4_2 : good_call 2 o0 obs grids vals.
Proof using Hc.
  clear Hn. destruct Hc as (H1 & H2 & H3 & H4 & H5 & H6). repeat split; auto. eapply Forall_impl; [|exact H4]. simpl. intros; lia.
Qed.
Lemma dims4 : Forall (fun d => 4 <= d) dims.
Proof using Hc.
  clear Hn. destruct Hc as (_ & _ & _ & H4 & _). rewrite !Forall_map. eapply Forall_impl; [|exact H4]. unfold zlen. simpl; intros; lia.
Qed.

Definition returned3 (eval : list F -> outcome F) : Prop := exists r,
  fst (py_interpn o c obs grids vals "cubic" None lin assume false atol) = Ret r /\
  nd_shape r = nd_shape o0 /\ length (nd_data r) = n /\
  forall j, (j < n)%nat -> eval (point_of (fzero o) os j) = Ok (nth j (nd_data r) (fzero o)).

Lemma returned3_intro eval r : fst (py_interpn o c obs grids vals "cubic" None lin assume false atol) = python_result (nd_shape o0) r ->
  batch_spec (fzero o) eval os zeros (fst r) (snd r) ->
  (forall j, (j < n)%nat -> exists v, eval (point_of (fzero o) os j) = Ok v) -> returned3 eval.
Proof using.
  intros Hr Hb Ht. destruct (batch_total (fzero o) eval os zeros r Hb) as (data & Er & Ld & Hd).
  - intros j Hj. rewrite repeat_length in Hj. auto.
  - rewrite Er in Hr. simpl in Hr. rewrite repeat_length in *. exists (mkNd (nd_shape o0) data). rewrite Hr. simpl. auto.
Qed.

Lemma call_even3 : Forall (fun h => flt o (fzero o) h = true) steps -> assume = true \/ Forall (evenly_spaced o) gs ->
  exists eval,
    ((exists s, mcr_new o c dims starts steps vs lin = Ok s /\ eval = mcr_interp_one o c s) \/
     (exists m s, mcrr_new o c m dims starts steps vs lin = Ok s /\ eval = mcrr_interp_one o c m s)) /\
    ((forall j, (j < n)%nat -> exists v, eval (point_of (fzero o) os j) = Ok v) -> returned3 eval).
Proof using o Hc Hn.
  intros Hs Ha. assert (D := dims4). destruct (call_lens o obs grids vals o0 good4_2 Hn) as (G & L & M & _ & P & P2 & Li).
  destruct good4_2 as (Ho & Lo & _ & G2 & _).
  assert (Ld : length dims = length grids) by (rewrite !map_length; reflexivity).
  assert (Lst : length starts = length dims) by (unfold firsts; rewrite !map_length; reflexivity).
  assert (Lsp : length steps = length dims) by (unfold spacings; rewrite !map_length; reflexivity).
  assert (Los : length os = length dims) by (rewrite Ld, map_length; exact Lo).
  assert (E := proj2 (proj2 (dispatch_regular o c obs grids vals o0 lin assume atol Ho ltac:(lia) G2 Ha))).
  destruct (Nat.le_gt_cases (length grids) 4) as [H6|H6].
  - assert (N' : mcr_new o c dims starts steps vs lin = Ok (mkCR (mkRegular dims starts steps vs) lin)) by (eapply accept3; [apply new_checks_mcr; auto; lia|..]; auto).
    eexists. split; [left; eexists; split; [exact N'|reflexivity]|]. intros Ht.
    eapply returned3_intro; [rewrite E; reflexivity| |exact Ht].
    eapply (interpn_batch_mcr o c); eauto. rewrite Ld. lia.
  - assert (N' : mcrr_new o c (length dims) dims starts steps vs lin = Ok (mkCR (mkRegular dims starts steps vs) lin))
      by (eapply accept3; [apply new_checks_mcrr; auto; lia|..]; auto; repeat split; auto; lia).
    eexists. split; [right; do 2 eexists; split; [exact N'|reflexivity]|]. intros Ht.
    eapply returned3_intro; [rewrite E; reflexivity| |exact Ht].
    eapply (interpn_batch_mcrr o c); eauto; rewrite ?Ld; lia.
Qed.

Lemma call_uneven3 : Forall (first_two_increase o) gs -> assume = false -> ~ Forall (evenly_spaced o) gs ->
  exists eval,
    ((exists s, mcc_new o c gs vs lin = Ok s /\ eval = mcc_interp_one o c s) \/
     (exists m s, mccr_new o c m gs vs lin = Ok s /\ eval = mccr_interp_one o c m s)) /\
    ((forall j, (j < n)%nat -> exists v, eval (point_of (fzero o) os j) = Ok v) -> returned3 eval).
Proof using o Hc Hn.
  intros Hs Ha Hne. assert (D := dims4). destruct (call_lens o obs grids vals o0 good4_2 Hn) as (G & L & M & _ & P & P2 & Li).
  destruct good4_2 as (Ho & Lo & _ & G2 & _).
  assert (Lg : length gs = length grids) by (rewrite !map_length; reflexivity).
  assert (Los : length os = length gs) by (rewrite Lg, map_length; exact Lo).
  assert (EZ : Forall (fun g : list F => 4 <= zlen g) gs) by (rewrite Forall_map in D; exact D).
  assert (E := proj2 (proj2 (dispatch_rectilinear o c obs grids vals o0 lin assume atol Ho ltac:(lia) G2 Ha Hne ltac:(lia)))).
  destruct (Nat.le_gt_cases (length grids) 4) as [H6|H6].
  - assert (N' : mcc_new o c gs vs lin = Ok (mkCC (mkRect gs dims vs) lin)) by (eapply accept3; [apply new_checks_mcc; auto; lia|..]; auto).
    eexists. split; [left; eexists; split; [exact N'|reflexivity]|]. intros Ht.
    eapply returned3_intro; [rewrite E; reflexivity| |exact Ht].
    eapply (interpn_batch_mcc o c); eauto; rewrite ?Lg; lia.
  - assert (N' : mccr_new o c (length gs) gs vs lin = Ok (mkCC (mkRect gs dims vs) lin)) by (eapply accept3; [apply new_checks_mccr; auto; lia|..]; auto).
    eexists. split; [right; do 2 eexists; split; [exact N'|reflexivity]|]. intros Ht.
    eapply returned3_intro; [rewrite E; reflexivity| |exact Ht].
    eapply (interpn_batch_mccr o c); eauto; rewrite ?Lg; lia.
Qed.
End Call.

(** ** Samples at moved nodes *)
Section Moved.
Open Scope R_scope.
Lemma node_pos_nth axes : forall idx k a, length idx = length axes -> nth_error axes k = Some a ->
  nth k (node_pos axes idx) 0 = coord a (nth k idx 0%Z).
Proof.
  induction axes as [|b axes IH]; intros [|i idx] [|k] a L H; simpl in *; try discriminate.
  - injection H as ->. reflexivity.
  - apply IH; auto.
Qed.
Lemma node_in_box d axes axes' box idx : Forall (good_axis 2) axes -> moved_grid d axes axes' -> box_around d axes box ->
  (forall k, 0 <= d k) -> in_shape (map npts axes) idx ->
  SpecReal.inside_grid box (node_pos axes idx) /\ SpecReal.inside_grid box (node_pos axes' idx) /\
  forall k, (k < length axes)%nat -> Rabs (nth k (node_pos axes idx) 0 - nth k (node_pos axes' idx) 0) <= d k.
Proof.
  intros G (Lm & Hm) (Lb & Hb) D0 Hi. assert (Li := in_shape_len _ _ Hi). rewrite map_length in Li.
  assert (K : forall k a b, nth_error axes k = Some a -> nth_error axes' k = Some b ->
    coord a 0 <= nth k (node_pos axes idx) 0 <= coord a (npts a - 1) /\
    Rabs (nth k (node_pos axes idx) 0 - nth k (node_pos axes' idx) 0) <= d k).
  { intros k a b Ha Hb'. rewrite (node_pos_nth axes idx k a Li Ha), (node_pos_nth axes' idx k b ltac:(lia) Hb').
    assert (I : (0 <= nth k idx 0 < npts a)%Z) by (eapply in_shape_nth; [exact Hi|apply map_nth_error; exact Ha]).
    destruct (good_nth _ G Ha) as (A1 & A2). destruct (Hm k a b Ha Hb') as (_ & Q). split; [|apply Q; exact I].
    split; [destruct (Z.eq_dec (nth k idx 0%Z) 0) as [->|N]; [lra|left; apply A1; lia]|].
    destruct (Z.eq_dec (nth k idx 0%Z) (npts a - 1)) as [->|N]; [lra|left; apply A1; lia]. }
  assert (X : forall k b, nth_error box k = Some b -> exists a a', nth_error axes k = Some a /\ nth_error axes' k = Some a').
  { intros k b Hk. assert (Hl : (k < length box)%nat) by (apply nth_error_Some; rewrite Hk; discriminate).
    destruct (nth_error axes k) as [a|] eqn:Ea; [|apply nth_error_None in Ea; lia].
    destruct (nth_error axes' k) as [a'|] eqn:Ea'; [|apply nth_error_None in Ea'; lia]. eauto. }
  split; [|split].
  - split; [rewrite node_pos_len; lia|]. intros k b Hk. destruct (X k b Hk) as (a & a' & Ha & Ha').
    destruct (K k a a' Ha Ha') as (K1 & K2). destruct (Hb k a b Ha Hk). specialize (D0 k). lra.
  - split; [rewrite node_pos_len; lia|]. intros k b Hk. destruct (X k b Hk) as (a & a' & Ha & Ha').
    destruct (K k a a' Ha Ha') as (K1 & K2). destruct (Hb k a b Ha Hk). apply Rabs_le_inv in K2. lra.
  - intros k Hk. destruct (nth_error axes k) as [a|] eqn:Ea; [|apply nth_error_None in Ea; lia].
    destruct (nth_error axes' k) as [a'|] eqn:Ea'; [|apply nth_error_None in Ea'; lia]. apply (K k a a' Ea Ea').
Qed.

(** Slopes are bounds, so they are not negative where the box is not a single point. *)
Lemma samples_moved d axes axes' box vals f e L : Forall (good_axis 2) axes -> moved_grid d axes axes' -> box_around d axes box ->
  (forall k, 0 <= d k) -> map npts axes = map npts axes' ->
  (forall k, (k < length box)%nat -> 0 <= L k /\ slope_at_most box f k (L k)) ->
  samples_within e axes vals f -> samples_within (e + sum_upto (length axes) (fun k => L k * d k)) axes' vals f.
Proof.
  intros G M B D0 NP HL Hs idx Hi. rewrite <- NP in *. specialize (Hs idx Hi).
  destruct (node_in_box d axes axes' box idx G M B D0 Hi) as (I1 & I2 & I3).
  assert (Q := slopes_sum box f L _ _ (fun k Hk => proj2 (HL k Hk)) I1 I2). rewrite (proj1 B) in *.
  assert (S : sum_upto (length axes) (fun k => L k * Rabs (nth k (node_pos axes idx) 0 - nth k (node_pos axes' idx) 0))
              <= sum_upto (length axes) (fun k => L k * d k)).
  { apply sum_upto_le. intros k Hk. apply Rmult_le_compat_l; [apply HL; exact Hk|auto]. }
  apply Rabs_le_inv in Hs. apply Rabs_le_inv in Q. apply Rabs_le. lra.
Qed.
End Moved.

(** ** Monotonicity of the bounds *)
Section Mono.
Open Scope R_scope.
Lemma prod_pow n g : prod_upto n (fun _ => g) = g ^ n.
Proof. induction n as [|n IH]; [reflexivity|]. rewrite prod_upto_S, IH. reflexivity. Qed.
Lemma reach_gain_mono lin d D : 0 <= d <= D -> 0 <= cubic_reach_gain lin 1 d <= cubic_reach_gain lin 1 D.
Proof.
  intros (D0 & D1). assert (S : 0 <= d ^ 2 <= D ^ 2) by (split; [nra|apply pow_incr; lra]).
  unfold cubic_reach_gain, cubic_gain. destruct lin; lra.
Qed.
Lemma reach_miss_mono lin M K h d D : 0 <= d <= D -> 0 <= M -> (lin = true -> 0 <= K) -> 0 <= h ->
  0 <= cubic_reach_miss lin M K h d <= cubic_reach_miss lin M K h D.
Proof.
  intros (D0 & D1) M0 K0 H0. assert (S2 : 0 <= d ^ 2 <= D ^ 2) by (split; [nra|apply pow_incr; lra]).
  assert (S3 : 0 <= d ^ 3 <= D ^ 3) by (split; [apply pow_le; lra|apply pow_incr; lra]).
  assert (P3 : 0 <= M * h ^ 3) by (apply Rmult_le_pos; [auto|apply pow_le; auto]).
  unfold cubic_reach_miss, cubic_miss. destruct lin.
  - specialize (K0 eq_refl). assert (P2 : 0 <= K * h ^ 2) by (apply Rmult_le_pos; [auto|apply pow_le; auto]).
    split; [apply Rplus_le_le_0_compat; apply Rmult_le_pos; lra|]. apply Rplus_le_compat; apply Rmult_le_compat_l; lra.
  - split; [apply Rmult_le_pos; lra|apply Rmult_le_compat_l; lra].
Qed.
End Mono.

(** ** IEEE floats *)
Section B.
Open Scope R_scope.
Variables prec emax : Z.
Context (Hp : Prec_gt_0 prec) (He : Prec_lt_emax prec emax).
Notation fl := (binary_float prec emax).
Notation o := (BOps Hp He).
Notation fin x := (is_finite x = true).
Notation u := (roundoff prec).
Variables (c : cfg) (obs grids : list (ndarray fl)) (vals o0 : ndarray fl) (lin assume : bool) (atol : fl) (A : R).
Notation gs := (map nd_data grids).
Notation os := (map nd_data obs).
Notation vs := (nd_data vals).
Notation n := (length (nd_data o0)).
Notation axes := (rect_axes (map (map B2R) gs)).
Notation V := (entry 0 (map npts axes) (map B2R vs)).
Notation pt j := (point_of (fzero o) os j).
Notation step g := (first_step prec emax Hp He g).
Hypothesis Hc : good_call 4 o0 obs grids vals.
Hypothesis Hn : (1 <= length grids <= 8)%nat.
Hypothesis Hi : Forall (increasing_grid o) gs.
Hypothesis Fx : Forall (Forall (fun v => fin v)) os.
Hypothesis Hx : forall j, (j < n)%nat -> SpecReal.inside_grid axes (map B2R (pt j)).

Lemma grids_four : Forall (fun g => (2 <= length g)%nat) gs.
Proof using Hp He Hc Hn. apply (call_lens o obs grids vals o0 (good4_2 obs grids vals o0 Hc) Hn). Qed.

Definition close_to3 (T : nat -> R) (e : R) : Prop := exists r,
  fst (py_interpn o c obs grids vals "cubic" None lin assume false atol) = Ret r /\
  nd_shape r = nd_shape o0 /\ length (nd_data r) = n /\
  forall j, (j < n)%nat -> fin (nth j (nd_data r) (fzero o)) /\ Rabs (B2R (nth j (nd_data r) (fzero o)) - T j) <= e.

Lemma close3_intro eval T e : (( forall j, (j < n)%nat -> exists v, eval (pt j) = Ok v) -> returned3 o c obs grids vals o0 lin assume atol eval) ->
  (forall j, (j < n)%nat -> exists y, eval (pt j) = Ok y /\ fin y /\ Rabs (B2R y - T j) <= e) -> close_to3 T e.
Proof using.
  intros H HT. destruct H as (r & R1 & R2 & R3 & R4).
  - intros j Hj. destruct (HT j Hj) as (y & Ey & _). eauto.
  - exists r. split; [exact R1|]. split; [exact R2|]. split; [exact R3|]. intros j Hj.
    destruct (HT j Hj) as (y & Ey & Fy & By). rewrite (R4 j Hj) in Ey. rewrite (ok_same _ _ Ey). auto.
Qed.

Section Even.
Variable kappa : R.
Notation D := (3 * (u * kappa)).
Notation gain := (cubic_reach_gain lin 1 D).
Notation stretch := (cubic_stretch lin D).
Notation gamma := (regular_gamma prec (25 / 24 * kappa)).
Notation h k := (B2R (step (nth k gs []))).
Notation ga g := (list_axis (map B2R g)).
Notation ra g := (mkAxis (zlen g) (fun i => B2R (nth 0 g (fzero o)) + B2R (step g) * IZR i)).
Notation raxes := (map (fun g => ra g) gs).
Notation err := (cubic_reach_error prec emax gain gamma stretch (length grids) A).
Hypothesis Hev : Forall (evenly_spaced o) gs.
Hypothesis Hw : Forall (grid_within prec emax Hp He kappa) gs.
Hypothesis Hv : cubic_reach_values prec emax 1 gain gamma stretch (length grids) A vs.
Hypothesis HN : 2100 * INR (length grids) * (u * kappa) <= 1.
Hypothesis Hprec : (prec <= 64)%Z.

Lemma eps3 : 525 * (u * kappa) <= 1.
Proof using All.
  assert (1 <= INR (length grids)) by (change 1 with (INR 1); apply le_INR; lia).
  destruct (Rle_dec (u * kappa) 0); [lra|nra].
Qed.
Lemma grid3 k g : nth_error gs k = Some g ->
  (2 <= length g)%nat /\ increasing_grid o g /\ evenly_spaced o g /\ grid_within prec emax Hp He kappa g.
Proof using All.
  intros Hk. apply nth_error_In in Hk. assert (W := grids_four). rewrite Forall_forall in W, Hi, Hev, Hw. auto.
Qed.
Lemma reg_map3 : reg_axes (map zlen gs) (map B2R (firsts (fzero o) gs)) (map B2R (spacings o (fzero o) gs)) = raxes.
Proof using. apply reg_map. Qed.
Lemma rect_k3 k g : nth_error gs k = Some g -> nth_error axes k = Some (ga g).
Proof using. intros H. rewrite rect_map. apply map_nth_error with (f := fun g => ga g). exact H. Qed.
Lemma reg_k3 k g : nth_error gs k = Some g -> nth_error raxes k = Some (ra g).
Proof using. intros H. apply map_nth_error with (f := fun g => ra g). exact H. Qed.
Lemma gs_k k : (k < length grids)%nat -> exists g, nth_error gs k = Some g.
Proof using. intros H. destruct (nth_error gs k) as [g|] eqn:E; [eauto|]. apply nth_error_None in E. rewrite map_length in E. elim (Nat.lt_irrefl k). exact (Nat.lt_le_trans _ _ _ H E). Qed.
Lemma len_axes : length axes = length grids /\ length raxes = length grids.
Proof using. unfold rect_axes. rewrite !map_length. auto. Qed.
Lemma D_pos : 0 <= D.
Proof using All.
  destruct (gs_k 0 ltac:(lia)) as (g & E). destruct (grid3 0 g E) as (G1 & G2 & G3 & G4).
  assert (K := kappa_pos prec emax Hp He g kappa G1 G2 G3 G4 eps3). destruct (u_range prec emax Hp He g kappa G1 G2 G3 G4 eps3).
  apply Rmult_le_pos; [lra|apply Rmult_le_pos; lra].
Qed.
Lemma h3_pos k : (k < length grids)%nat -> 0 < h k.
Proof using All.
  intros Hk. destruct (gs_k k Hk) as (g & E). destruct (grid3 k g E) as (G1 & G2 & G3 & G4). rewrite (nth_error_nth gs k [] E).
  exact (h_pos prec emax Hp He g kappa G1 G2 G3 G4 eps3).
Qed.
Lemma steps3 : Forall (fun h => flt o (fzero o) h = true) (spacings o (fzero o) gs).
Proof using All.
  unfold spacings. rewrite Forall_map, Forall_forall. intros g Hg. apply In_nth_error in Hg as (k & E).
  destruct (grid3 k g E) as (G1 & G2 & G3 & G4).
  assert (P := h_pos prec emax Hp He g kappa G1 G2 G3 G4 eps3). destruct G4 as (Ff & _). apply ltb_fin; auto.
Qed.
Lemma good3 : Forall (good_axis 2) axes.
Proof using All.
  rewrite rect_map, Forall_map, Forall_forall. intros g Hg. apply In_nth_error in Hg as (k & E).
  destruct (grid3 k g E) as (G1 & G2 & G3 & G4). exact (ga_good prec emax Hp He g kappa G1 G2 G3 G4 eps3).
Qed.
(** The distances are nonnegative beyond the last axis too, where nothing is asked of them. *)
Notation dist := (fun k => if Nat.ltb k (length grids) then D * h k else 0).
Lemma dist_pos k : 0 <= dist k.
Proof using All.
  cbv beta. destruct (Nat.ltb_spec k (length grids)) as [C|C]; [|lra]. apply Rmult_le_pos; [exact D_pos|left; apply h3_pos; exact C].
Qed.
Lemma dist_k k : (k < length grids)%nat -> dist k = D * h k.
Proof using. intros C. cbv beta. replace (Nat.ltb k (length grids)) with true; [reflexivity|]. symmetry. apply Nat.ltb_lt. exact C. Qed.
Lemma moved3 : moved_grid dist axes raxes.
Proof using All.
  destruct len_axes as (L1 & L2). split; [congruence|].
  intros k a b Ha Hb. assert (Hk : (k < length grids)%nat) by (rewrite <- L1; apply nth_error_Some; rewrite Ha; discriminate).
  destruct (gs_k k Hk) as (g & E). rewrite (rect_k3 k g E) in Ha. rewrite (reg_k3 k g E) in Hb. injection Ha as <-. injection Hb as <-.
  rewrite dist_k by exact Hk. rewrite (nth_error_nth gs k [] E). destruct (grid3 k g E) as (G1 & G2 & G3 & G4).
  exact (moved_axis prec emax Hp He g kappa G1 G2 G3 G4 eps3).
Qed.
Lemma x_k3 j k g : (j < n)%nat -> nth_error gs k = Some g ->
  coord (ga g) 0 <= nth k (map B2R (pt j)) 0 <= coord (ga g) (npts (ga g) - 1).
Proof using All. intros Hj H. destruct (Hx j Hj) as (_ & I). apply (I k). apply rect_k3. exact H. Qed.
Lemma outside3 j : (j < n)%nat -> outside_at_most raxes (map B2R (pt j)) D.
Proof using All.
  intros Hj. split; [exact D_pos|]. intros k Hk. rewrite (proj2 len_axes) in Hk. destruct (gs_k k Hk) as (g & E).
  destruct (grid3 k g E) as (G1 & G2 & G3 & G4). rewrite (outside_nth _ _ _ _ (reg_k3 k g E)).
  apply (little_outside prec emax Hp He g kappa G1 G2 G3 G4 eps3). apply x_k3; auto.
Qed.
Lemma axes3 : axes_within prec emax (25 / 24 * kappa) (firsts (fzero o) gs) (spacings o (fzero o) gs) (map zlen gs).
Proof using All.
  intros k s hh d Es Eh Ed. unfold firsts in Es. unfold spacings in Eh. rewrite nth_error_map in Es, Eh, Ed.
  destruct (nth_error gs k) as [g|] eqn:Eg; [|discriminate]. simpl in Es, Eh, Ed. injection Es as <-. injection Eh as <-. injection Ed as <-.
  destruct (grid3 k g Eg) as (G1 & G2 & G3 & G4). exact (axis_ok prec emax Hp He g kappa G1 G2 G3 G4 eps3).
Qed.
Lemma fin3 j : Forall (fun v => fin v) (pt j).
Proof using All. exact (pt_fin prec emax Hp He obs Fx j). Qed.
Lemma point3 j : (j < n)%nat -> point_within prec emax (25 / 24 * kappa) (spacings o (fzero o) gs) (pt j).
Proof using All.
  intros Hj k hh v Eh Ev. unfold spacings in Eh. rewrite nth_error_map in Eh.
  destruct (nth_error gs k) as [g|] eqn:Eg; [|discriminate]. simpl in Eh. injection Eh as <-.
  destruct (grid3 k g Eg) as (G1 & G2 & G3 & G4). split.
  - assert (Q := fin3 j). rewrite Forall_forall in Q. apply Q. eapply nth_error_In; eauto.
  - apply (x_within prec emax Hp He g kappa G1 G2 G3 G4 eps3). replace (B2R v) with (nth k (map B2R (pt j)) 0); [apply x_k3; auto|].
    apply nth_error_nth. apply map_nth_error. exact Ev.
Qed.
Lemma same_npts : map npts axes = map npts raxes.
Proof using.
  rewrite rect_map, !map_map. apply map_ext. intros g. cbn [npts list_axis]. unfold zlen. rewrite map_length. reflexivity.
Qed.
Lemma reach_box j box y : (j < n)%nat -> box_around dist axes box -> in_reach raxes (map B2R (pt j)) y -> SpecReal.inside_grid box y.
Proof using All.
  intros Hj (Lb & Hb) (Ly & Hy). destruct len_axes as (L1 & L2). split; [congruence|].
  intros k b Ek. assert (Hk : (k < length grids)%nat) by (rewrite <- L1, <- Lb; apply nth_error_Some; rewrite Ek; discriminate).
  destruct (gs_k k Hk) as (g & E). destruct (Hb k _ b (rect_k3 k g E) Ek) as (B1 & B2).
  specialize (Hy k _ (reg_k3 k g E)). destruct (x_k3 j k g Hj E) as (X1 & X2).
  assert (P := dist_pos k). destruct (proj2 moved3 k _ _ (rect_k3 k g E) (reg_k3 k g E)) as (NP & Q).
  assert (G := good_nth _ good3 (rect_k3 k g E)). destruct G as (_ & G).
  assert (Q0 := Q 0%Z ltac:(lia)). assert (Q1 := Q (npts (ga g) - 1)%Z ltac:(lia)). rewrite NP in Q1 at 2. cbv beta in *.
  apply Rabs_le_inv in Q0, Q1.
  revert Hy. unfold Rmin, Rmax. destruct (Rle_dec _ _); destruct (Rle_dec _ _); lra.
Qed.

Lemma eval3 : exists eval, float_cubic_regular Hp He c lin (map zlen gs) (firsts (fzero o) gs) (spacings o (fzero o) gs) vs eval /\
  ((forall j, (j < n)%nat -> exists v, eval (pt j) = Ok v) -> returned3 o c obs grids vals o0 lin assume atol eval).
Proof using All.
  destruct (call_even3 o c obs grids vals o0 lin assume atol Hc Hn steps3 (or_intror Hev)) as (eval & Hs & Hr).
  exists eval. split; [|exact Hr]. assert (RI := call_reg o c obs grids vals o0 (good4_2 obs grids vals o0 Hc) Hn).
  destruct Hs as [(s & Es & ->)|(m & s & Es & ->)]; [apply float_cubic_regular_flat|apply float_cubic_regular_recursive]; auto.
Qed.

(** The interpolator for the regular grid start + i * step, in exact arithmetic. *)
Theorem C82_proof_even_exact c' (dom : list R -> Prop) eval' : multicubic c' lin (map B2R vs) raxes dom eval' ->
  (forall j, (j < n)%nat -> dom (map B2R (pt j))) -> exists r,
  fst (py_interpn o c obs grids vals "cubic" None lin assume false atol) = Ret r /\
  nd_shape r = nd_shape o0 /\ length (nd_data r) = n /\
  forall j, (j < n)%nat -> exists e, eval' (map B2R (pt j)) = Ok e /\ fin (nth j (nd_data r) (fzero o)) /\
    Rabs (B2R (nth j (nd_data r) (fzero o)) - e) <= err.
Proof using All.
  intros H Hd. destruct eval3 as (eval & Hf & Hr).
  assert (HN' : 2000 * INR (length (map zlen gs)) * (roundoff prec * (25 / 24 * kappa)) <= 1).
  { rewrite !map_length. assert (Q := D_pos). assert (1 <= INR (length grids)) by (change 1 with (INR 1); apply le_INR; lia). nra. }
  assert (T : forall j, (j < n)%nat -> exists y r, eval (pt j) = Ok y /\ fin y /\ eval' (map B2R (pt j)) = Ok r /\ Rabs (B2R y - r) <= err).
  { intros j Hj. assert (H' := H). rewrite <- reg_map3 in H'. assert (O := outside3 j Hj). rewrite <- reg_map3 in O.
    assert (Lx : length (pt j) = length (map zlen gs)).
    { destruct (Hx j Hj) as (Q & _). rewrite (proj1 len_axes), map_length in Q. rewrite !map_length. exact Q. }
    assert (Q := C75_proof_regular prec emax Hp He c lin _ _ _ vs eval (pt j) A (25 / 24 * kappa) D Hf axes3 Lx (point3 j Hj) O).
    rewrite !map_length in Q, HN'. exact (Q Hv HN' Hprec c' dom eval' H' (Hd j Hj)). }
  destruct Hr as (r & R1 & R2 & R3 & R4).
  - intros j Hj. destruct (T j Hj) as (y & ? & Ey & _). eauto.
  - exists r. split; [exact R1|]. split; [exact R2|]. split; [exact R3|]. intros j Hj.
    destruct (T j Hj) as (y & e & Ey & Fy & Ee & By). exists e. rewrite (R4 j Hj) in Ey. rewrite (ok_same _ _ Ey). auto.
Qed.

Theorem C83_proof_even f e L M K box : samples_within e axes (map B2R vs) f -> box_around (fun k => D * h k) axes box ->
  (forall k, (k < length box)%nat -> slope_at_most box f k (L k)) ->
  (forall k, (k < length box)%nat -> third_derivative_at_most box f k (M k)) ->
  (lin = true -> forall k, (k < length box)%nat -> second_derivative_at_most box f k (K k)) -> exists r,
  fst (py_interpn o c obs grids vals "cubic" None lin assume false atol) = Ret r /\
  nd_shape r = nd_shape o0 /\ length (nd_data r) = n /\
  forall j, (j < n)%nat -> fin (nth j (nd_data r) (fzero o)) /\
    Rabs (B2R (nth j (nd_data r) (fzero o)) - f (map B2R (pt j))) <= err
      + gain ^ length grids * (e + sum_upto (length grids) (fun k => L k * (D * h k)))
      + sum_upto (length grids) (fun k => gain ^ k * cubic_reach_miss lin (M k) (K k) (h k) D).
Proof using All.
  intros Hs Hb HL HM HK. destruct eval3 as (eval & Hf & Hr). apply (close3_intro eval _ _ Hr). intros j Hj.
  destruct len_axes as (L1 & L2).
  assert (HN' : 2000 * INR (length (map zlen gs)) * (roundoff prec * (25 / 24 * kappa)) <= 1).
  { rewrite !map_length. assert (Q := D_pos). assert (1 <= INR (length grids)) by (change 1 with (INR 1); apply le_INR; lia). nra. }
  assert (O := outside3 j Hj).
  assert (Lx : length (pt j) = length (map zlen gs)).
  { destruct (Hx j Hj) as (Q & _). rewrite L1, map_length in Q. rewrite !map_length. exact Q. }
  assert (Hb' : box_around dist axes box).
  { destruct Hb as (B1 & B2). split; [exact B1|]. intros k a b Ha Hb. rewrite dist_k; [exact (B2 k a b Ha Hb)|].
    rewrite <- L1. apply nth_error_Some. rewrite Ha. discriminate. }
  assert (Lb : length box = length grids) by (rewrite (proj1 Hb); exact L1).
  assert (Ix : SpecReal.inside_grid box (map B2R (pt j))).
  { apply (reach_box j box _ Hj Hb'). split; [rewrite L2, map_length; rewrite !map_length in Lx; rewrite Lx; reflexivity|].
    intros k a _. split; [apply Rmin_r|apply Rmax_r]. }
  assert (Gb : forall k b, nth_error box k = Some b -> coord b 0 < coord b (npts b - 1)).
  { intros k b Ek. assert (Hk : (k < length grids)%nat) by (rewrite <- Lb; apply nth_error_Some; rewrite Ek; discriminate).
    destruct (gs_k k Hk) as (g & E). destruct (proj2 Hb' k _ b (rect_k3 k g E) Ek) as (B1 & B2). assert (P := dist_pos k). cbv beta in *.
    destruct (good_nth _ good3 (rect_k3 k g E)) as (G1 & G2). assert (Q := G1 0%Z (npts (ga g) - 1)%Z ltac:(lia) ltac:(lia)). lra. }
  assert (L0 : forall k, (k < length box)%nat -> 0 <= L k).
  { intros k Hk. destruct (nth_error box k) as [b|] eqn:Ek; [|apply nth_error_None in Ek; lia]. assert (C := Gb k b Ek).
    assert (Lp : length (map B2R (pt j)) = length box) by apply Ix.
    assert (I0 := inside_upd box _ k b (coord b 0) Ix Ek ltac:(lra)).
    assert (I1 := inside_upd box _ k b (coord b (npts b - 1)) Ix Ek ltac:(lra)).
    assert (Q := HL k Hk _ (coord b (npts b - 1)) I0). rewrite upd_upd in Q. specialize (Q I1).
    rewrite nth_upd_same in Q by lia. rewrite (Rabs_right (_ - coord b 0)) in Q by lra.
    assert (P := Rabs_pos (f (upd (map B2R (pt j)) k (coord b (npts b - 1))) - f (upd (map B2R (pt j)) k (coord b 0)))). nra. }
  assert (M0 : forall k, (k < length box)%nat -> 0 <= M k).
  { intros k Hk. destruct (HM k Hk) as (D1 & D2 & D3 & Q). destruct (Q _ Ix) as (_ & _ & _ & Q3). assert (P := Rabs_pos (D3 (map B2R (pt j)))). lra. }
  assert (K0 : lin = true -> forall k, (k < length box)%nat -> 0 <= K k).
  { intros El k Hk. destruct (HK El k Hk) as (D1 & D2 & Q). destruct (Q _ Ix) as (_ & _ & Q3). assert (P := Rabs_pos (D2 (map B2R (pt j)))). lra. }
  assert (Sm := samples_moved dist axes raxes box (map B2R vs) f e L good3 moved3 Hb' dist_pos same_npts
    (fun k Hk => conj (L0 k Hk) (HL k Hk)) Hs).
  rewrite (sum_upto_ext (length axes) _ (fun k => L k * (D * h k))) in Sm by (intros k Hk; rewrite dist_k by lia; reflexivity).
  rewrite L1 in Sm.
  assert (HM' : forall k, (k < length raxes)%nat -> third_derivative_reaching raxes (map B2R (pt j)) f k (M k)).
  { intros k Hk. destruct (HM k ltac:(lia)) as (D1 & D2 & D3 & Q). exists D1, D2, D3. intros y Hy. apply Q. exact (reach_box j box y Hj Hb' Hy). }
  assert (HK' : lin = true -> forall k, (k < length raxes)%nat -> second_derivative_reaching raxes (map B2R (pt j)) f k (K k)).
  { intros El k Hk. destruct (HK El k ltac:(lia)) as (D1 & D2 & Q). exists D1, D2. intros y Hy. apply Q. exact (reach_box j box y Hj Hb' Hy). }
  assert (Q := C76_proof_regular prec emax Hp He c lin _ _ _ vs eval (pt j) A (25 / 24 * kappa) D Hf axes3 Lx (point3 j Hj)).
  rewrite reg_map3, !map_length in Q. rewrite !map_length in HN', HM', HK'. destruct (Q O Hv HN' Hprec f _ M K Sm HM' HK') as (y & Ey & Fy & By).
  exists y. split; [exact Ey|]. split; [exact Fy|]. eapply Rle_trans; [exact By|].
  assert (Ok' : forall k, (k < length grids)%nat -> 0 <= outside_by raxes (map B2R (pt j)) k <= D).
  { intros k Hk. split; [apply outside_nonneg|]. apply O. rewrite L2. exact Hk. }
  assert (SS : 0 <= sum_upto (length grids) (fun k => L k * (D * h k))).
  { replace 0 with (sum_upto (length grids) (fun _ => 0)) by (rewrite sum_const; ring). apply sum_upto_le. intros k Hk.
    apply Rmult_le_pos; [apply L0; lia|apply Rmult_le_pos; [exact D_pos|left; apply h3_pos; exact Hk]]. }
  assert (E0 : 0 <= e).
  { assert (Z0 : in_shape (map npts axes) (map (fun _ => 0%Z) axes)).
    { assert (G := good3). clear -G. induction G as [|a l (G1 & G2) G IH]; constructor; auto. lia. }
    specialize (Hs _ Z0). eapply Rle_trans; [|exact Hs]. apply Rabs_pos. }
  apply Rplus_le_compat; [apply Rplus_le_compat_l|].
  - apply Rmult_le_compat_r; [lra|]. rewrite <- prod_pow. apply prod_upto_le. intros k Hk. apply reach_gain_mono. auto.
  - apply sum_upto_le. intros k Hk.
    replace (B2R (nth k (spacings o (fzero o) gs) (fzero o))) with (h k).
    2:{ destruct (gs_k k Hk) as (g & E). rewrite (nth_error_nth gs k [] E). unfold spacings.
        erewrite nth_error_nth; [|apply map_nth_error; exact E]. reflexivity. }
    destruct (reach_miss_mono lin (M k) (K k) (h k) _ D (Ok' k Hk) (M0 k ltac:(lia)) (fun El => K0 El k ltac:(lia)) (Rlt_le _ _ (h3_pos k Hk))) as (P1 & P2).
    apply Rmult_le_compat; auto.
    + apply prod_upto_nonneg. intros i Hi'. apply (reach_gain_mono lin _ D). apply Ok'. lia.
    + rewrite <- prod_pow. apply prod_upto_le. intros i Hi'. apply reach_gain_mono. apply Ok'. lia.
Qed.
End Even.

Section Uneven.
Variable rho : R.
Notation err := (cubic_error prec emax (cubic_gain rho) (rectilinear_gamma prec rho) (length grids) A).
Hypothesis Ha : assume = false.
Hypothesis Hne : ~ Forall (evenly_spaced o) gs.
Hypothesis Hm : Forall (Forall (@moderate prec emax)) gs.
Hypothesis Hr1 : 1 <= rho.
Hypothesis Hr : Forall (fun a => spacing_ratio_at_most a rho) axes.
Hypothesis Hv : cubic_values prec emax rho (cubic_gain rho) (rectilinear_gamma prec rho) (length grids) A vs.
Hypothesis HN : 14000 * INR (length grids) * (roundoff prec * rho) <= 1.

Lemma uneven3 : exists eval, float_cubic_rectilinear Hp He c lin gs vs eval /\
  ((forall j, (j < n)%nat -> exists v, eval (pt j) = Ok v) -> returned3 o c obs grids vals o0 lin assume atol eval).
Proof using Hc Hn Hi Ha Hne.
  assert (FT : Forall (first_two_increase o) gs).
  { assert (G2 := grids_four). rewrite Forall_forall in *. intros g Hg. specialize (G2 g Hg). specialize (Hi g Hg).
    destruct g as [|a [|b g]]; simpl in G2; try lia. apply (Hi 0%nat 1%nat); auto. }
  assert (RI := call_rect o c obs grids vals o0 (good4_2 obs grids vals o0 Hc) Hn).
  destruct (call_uneven3 o c obs grids vals o0 lin assume atol Hc Hn FT Ha Hne) as (eval & Hs & Hr').
  exists eval. split; [|exact Hr'].
  destruct Hs as [(s & Es & ->)|(m & s & Es & ->)]; [apply float_cubic_rectilinear_flat|apply float_cubic_rectilinear_recursive]; auto.
Qed.
Theorem C82_proof_uneven c' (dom : list R -> Prop) eval' : multicubic c' lin (map B2R vs) axes dom eval' -> exists r,
  fst (py_interpn o c obs grids vals "cubic" None lin assume false atol) = Ret r /\
  nd_shape r = nd_shape o0 /\ length (nd_data r) = n /\
  forall j, (j < n)%nat -> exists e, eval' (map B2R (pt j)) = Ok e /\ fin (nth j (nd_data r) (fzero o)) /\
    Rabs (B2R (nth j (nd_data r) (fzero o)) - e) <= err.
Proof using All.
  intros H. destruct uneven3 as (eval & Hf & Hr').
  assert (T : forall j, (j < n)%nat -> exists y r, eval (pt j) = Ok y /\ fin y /\ eval' (map B2R (pt j)) = Ok r /\ Rabs (B2R y - r) <= err).
  { intros j Hj. assert (Q := C58_proof_rectilinear prec emax Hp He c lin gs vs eval (pt j) A rho Hf Hi Hm (pt_fin prec emax Hp He obs Fx j) (Hx j Hj) Hr1 Hr).
    rewrite map_length in Q. exact (Q Hv HN c' dom eval' H). }
  destruct Hr' as (r & R1 & R2 & R3 & R4).
  - intros j Hj. destruct (T j Hj) as (y & ? & Ey & _). eauto.
  - exists r. split; [exact R1|]. split; [exact R2|]. split; [exact R3|]. intros j Hj.
    destruct (T j Hj) as (y & e & Ey & Fy & Ee & By). exists e. rewrite (R4 j Hj) in Ey. rewrite (ok_same _ _ Ey). auto.
Qed.
Theorem C83_proof_uneven f e M h : samples_within e axes (map B2R vs) f ->
  (forall k, (k < length axes)%nat -> third_derivative_at_most axes f k (M k)) ->
  (forall k a, nth_error axes k = Some a -> spacing_at_most a (h k)) -> exists r,
  fst (py_interpn o c obs grids vals "cubic" None lin assume false atol) = Ret r /\
  nd_shape r = nd_shape o0 /\ length (nd_data r) = n /\
  forall j, (j < n)%nat -> fin (nth j (nd_data r) (fzero o)) /\
    Rabs (B2R (nth j (nd_data r) (fzero o)) - f (map B2R (pt j))) <= err + cubic_gain rho ^ length grids * e
      + sum_upto (length grids) (fun k => cubic_gain rho ^ k * (7 / 48 * M k * h k ^ 3)).
Proof using All.
  intros Hs HM Hh. destruct uneven3 as (eval & Hf & Hr'). apply (close3_intro eval _ _ Hr'). intros j Hj.
  assert (Q := C59_proof_rectilinear prec emax Hp He c lin gs vs eval (pt j) A rho Hf Hi Hm (pt_fin prec emax Hp He obs Fx j) (Hx j Hj) Hr1 Hr).
  rewrite map_length in Q. specialize (Q Hv HN f e M h Hs HM Hh). rewrite (proj1 len_axes) in Q. exact Q.
Qed.
End Uneven.
End B.
