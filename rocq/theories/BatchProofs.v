(** Batches of points: choosing and joining points commutes with evaluation. *)
From Coq Require Import List ZArith Bool Lia PeanoNat ZifyBool ZifyNat String.
From Verif Require Import Base Ops ModelCore ModelLinear ModelNearest ModelCubic ModelOneDim ModelPython Spec SpecPython SpecBatch.
From Verif Require Import CoreLemmas GenLemmas GenProofs GenProofs3 PyProofs.
Import ListNotations.
Unset Implicit Arguments.
Open Scope string_scope.
Open Scope list_scope.
Open Scope nat_scope.

Lemma select_len {A} (d : A) js xs : length (select d js xs) = length js.
Proof. apply map_length. Qed.
Lemma select_nth {A} (d : A) js xs i : i < length js -> nth i (select d js xs) d = nth (nth i js 0) xs d.
Proof.
  intros Hi. unfold select. rewrite nth_indep with (d' := nth 0 xs d) by (rewrite map_length; auto).
  apply (map_nth (fun j => nth j xs d) js 0 i).
Qed.
Lemma joined_len {A} (a b : list (list A)) : length a = length b -> length (joined a b) = length a.
Proof. intros H. unfold joined. rewrite map_length, combine_length. lia. Qed.

Section Batch.
Context {F : Type} (d : F).
Notation bf := (list (list F) -> list F -> outcome unit * list F).

(** What all batch functions have in common. *)
Definition batchlike (f : bf) : Prop := forall K, exists r : outcome (nat * (list F -> outcome F)),
  forall obs out, length obs = K -> f obs out = and_then r out (fun p => interp_batch (fst p) (snd p) obs out).

Lemma batch_ok_inv n one obs (out r : list F) : interp_batch n one obs out = (Ok tt, r) ->
  length obs = n /\ Forall (fun xs => length xs = length out) obs /\ length r = length out /\
  forall j, j < length out -> one (point_of d obs j) = Ok (nth j r d).
Proof.
  intros H. assert (L : length obs = n /\ Forall (fun xs => length xs = length out) obs).
  { unfold interp_batch in H. destruct (length obs =? n) eqn:E1; cbn [negb] in H; [|discriminate].
    destruct (forallb _ obs) eqn:E2; cbn [negb] in H; [|discriminate]. split; [lia|].
    apply Forall_forall. intros xs Hxs. rewrite forallb_forall in E2. specialize (E2 xs Hxs). simpl in E2. lia. }
  destruct L as (L1 & L2). split; auto. split; auto.
  assert (B := @interp_batch_spec F d n one obs out L1 L2). rewrite H in B. cbn [fst snd] in B. destruct B as (B1 & B2). split; auto.
Qed.
Lemma batch_ok n one obs (out r : list F) : length obs = n -> Forall (fun xs => length xs = length out) obs -> length r = length out ->
  (forall j, j < length out -> one (point_of d obs j) = Ok (nth j r d)) -> interp_batch n one obs out = (Ok tt, r).
Proof.
  intros L1 L2 L3 H. assert (B := @interp_batch_spec F d n one obs out L1 L2).
  destruct (batch_total d one obs out (interp_batch n one obs out) B) as (data & E & Ld & Hd); [eauto|].
  rewrite E. f_equal. apply (nth_ext _ _ d d); [congruence|]. intros j Hj. rewrite Ld in Hj.
  specialize (H j Hj). rewrite (Hd j Hj) in H. injection H as H. exact H.
Qed.

Lemma batchlike_ok f obs out r : batchlike f -> f obs out = (Ok tt, r) -> exists n one,
  interp_batch n one obs out = (Ok tt, r) /\ forall obs' out', length obs' = length obs -> f obs' out' = interp_batch n one obs' out'.
Proof.
  intros B H. destruct (B (length obs)) as (q & Hq). assert (E := Hq obs out eq_refl). rewrite H in E.
  destruct q as [[n one]|e|]; cbn [and_then fst snd] in E; try discriminate E. exists n, one. split; [auto|].
  intros obs' out' L. rewrite Hq by auto. reflexivity.
Qed.

Theorem select_proof f obs out r js out' : batchlike f -> f obs out = (Ok tt, r) ->
  Forall (fun j => j < length out) js -> length out' = length js ->
  f (map (select d js) obs) out' = (Ok tt, select d js r).
Proof.
  intros B H Hj L. destruct (batchlike_ok f obs out r B H) as (n & one & E & Hf).
  rewrite Hf by apply map_length. apply batch_ok_inv in E as (L1 & L2 & L3 & L4). apply batch_ok.
  - rewrite map_length. auto.
  - apply Forall_forall. intros xs Hxs. apply in_map_iff in Hxs as (ys & <- & _). rewrite select_len. auto.
  - rewrite select_len. auto.
  - intros i Hi. rewrite L in Hi. rewrite select_nth by auto. rewrite <- L4.
    + f_equal. unfold point_of. rewrite map_map. apply map_ext. intros xs. apply select_nth; auto.
    + rewrite Forall_forall in Hj. apply Hj. apply nth_In. auto.
Qed.

Theorem joined_proof f obs1 out1 r1 obs2 out2 r2 : batchlike f -> length obs1 = length obs2 ->
  f obs1 out1 = (Ok tt, r1) -> f obs2 out2 = (Ok tt, r2) ->
  f (joined obs1 obs2) (out1 ++ out2) = (Ok tt, r1 ++ r2).
Proof.
  intros B L H1 H2. destruct (batchlike_ok f obs1 out1 r1 B H1) as (n & one & E & Hf).
  rewrite Hf by (apply joined_len; auto). rewrite Hf in H2 by auto.
  apply batch_ok_inv in E as (L1 & L2 & L3 & L4). apply batch_ok_inv in H2 as (K1 & K2 & K3 & K4). apply batch_ok.
  - rewrite joined_len; auto.
  - apply Forall_forall. intros xs Hxs. unfold joined in Hxs. apply in_map_iff in Hxs as ([a b] & <- & Hab). simpl.
    rewrite !app_length. rewrite Forall_forall in L2, K2. rewrite (L2 a), (K2 b); auto; [eapply in_combine_r|eapply in_combine_l]; eauto.
  - rewrite !app_length. lia.
  - intros j Hj. rewrite app_length in Hj.
    assert (P : point_of d (joined obs1 obs2) j = if j <? length out1 then point_of d obs1 j else point_of d obs2 (j - length out1)).
    { clear -L L2 K2. unfold point_of, joined. rewrite map_map. revert obs2 L K2. induction obs1 as [|a obs1 IH]; intros [|b obs2] L K2; try discriminate L.
      - destruct (j <? length out1); reflexivity.
      - simpl in L. injection L as L. apply Forall_cons_iff in L2 as (La & L2). apply Forall_cons_iff in K2 as (Lb & K2).
        cbn [combine map fst snd]. rewrite (IH L2 obs2 L K2). destruct (j <? length out1) eqn:E; f_equal.
        + apply app_nth1. lia.
        + rewrite app_nth2 by lia. f_equal. lia. }
    rewrite P. destruct (j <? length out1) eqn:E.
    + rewrite L4 by lia. rewrite app_nth1 by lia. reflexivity.
    + rewrite K4 by lia. rewrite app_nth2 by lia. rewrite L3. reflexivity.
Qed.
End Batch.

(** Every batch function of the library is of that form. *)
Section Lib.
Context {F : Type} (o : Ops F) (c : cfg).
Notation bf := (list (list F) -> list F -> outcome unit * list F).

Lemma like_batch n (one : list F -> outcome F) : batchlike (interp_batch n one).
Proof. intros K. exists (Ok (n, one)). intros obs out _. reflexivity. Qed.
Lemma like_new {A} (m : outcome A) n (one : A -> list F -> outcome F) :
  batchlike (fun obs out => and_then m out (fun s => interp_batch (n s) (one s) obs out)).
Proof. intros K. exists (do s <- m ; Ok (n s, one s)). intros obs out _. destruct m; reflexivity. Qed.
Lemma like_into {A} (m : outcome A) k n (one : A -> list F -> outcome F) :
  batchlike (fun obs out => and_then m out (fun s => and_then (try_into_unwrap k obs) out (fun ob => interp_batch (n s) (one s) ob out))).
Proof.
  intros K. exists (do s <- m ; if (K =? k) then Ok (n s, one s) else Panic). intros obs out L. destruct m; try reflexivity.
  cbn [and_then bind]. unfold try_into_unwrap. rewrite L. destruct (K =? k); reflexivity.
Qed.
Lemma like_fail (e : string) : batchlike (fun (obs : list (list F)) out => (Err e, out)).
Proof. intros K. exists (Err e). reflexivity. Qed.
Lemma like_if (b : bool) (f g : bf) : batchlike f -> batchlike g -> batchlike (fun obs out => if b then f obs out else g obs out).
Proof. destruct b; auto. Qed.
Lemma like_len (b : nat -> bool) (f g : bf) : batchlike f -> batchlike g -> batchlike (fun obs out => if b (length obs) then f obs out else g obs out).
Proof.
  intros Hf Hg K. destruct (b K) eqn:E; [destruct (Hf K) as (r & H)|destruct (Hg K) as (r & H)]; exists r; intros obs out L; rewrite L, E; auto.
Qed.

Theorem library_batchlike f : batch_function o c f -> batchlike f.
Proof.
  intros []; try apply like_batch.
  - unfold mlr_interpn. cbv zeta. apply (like_len (fun n => negb (length starts =? length dims) || negb (length steps =? length dims) || negb (n =? length dims)));
      [apply like_fail|]. apply like_if; [apply like_into|]. apply like_if; [apply like_new|apply like_fail].
  - unfold mlrr_interpn. cbv zeta. apply like_if; [apply like_new|apply like_fail].
  - unfold mlc_interpn. cbv zeta. apply (like_len (fun n => negb (n =? length grids))); [apply like_fail|].
    apply like_if; [apply like_into|]. apply like_if; [apply like_new|apply like_fail].
  - unfold mlcr_interpn. cbv zeta. apply like_if; [apply like_new|apply like_fail].
  - unfold nr_interpn. cbv zeta. apply (like_len (fun n => negb (length starts =? length dims) || negb (length steps =? length dims) || negb (n =? length dims)));
      [apply like_fail|]. apply like_if; [apply like_into|apply like_fail].
  - unfold nc_interpn. cbv zeta. apply (like_len (fun n => negb (n =? length grids))); [apply like_fail|]. apply like_if; [apply like_into|apply like_fail].
  - unfold mcr_interpn. cbv zeta. apply like_if; [apply like_into|]. apply like_if; [apply like_new|apply like_fail].
  - unfold mcrr_interpn. cbv zeta. apply like_if; [apply like_new|apply like_fail].
  - unfold mcc_interpn. cbv zeta. apply like_if; [apply like_into|]. apply like_if; [apply like_new|apply like_fail].
  - unfold mccr_interpn. cbv zeta. apply like_if; [apply like_new|apply like_fail].
Qed.

Theorem C87_proof_select f obs out r js out' : batch_function o c f -> f obs out = (Ok tt, r) ->
  Forall (fun j => j < length out) js -> length out' = length js ->
  f (map (select (fzero o) js) obs) out' = (Ok tt, select (fzero o) js r).
Proof. intros B. apply select_proof. apply library_batchlike; auto. Qed.
Theorem C87_proof_joined f obs1 out1 r1 obs2 out2 r2 : batch_function o c f -> length obs1 = length obs2 ->
  f obs1 out1 = (Ok tt, r1) -> f obs2 out2 = (Ok tt, r2) ->
  f (joined obs1 obs2) (out1 ++ out2) = (Ok tt, r1 ++ r2).
Proof. intros B. apply (joined_proof (fzero o)). apply library_batchlike; auto. Qed.

(** One dimension. *)
Definition one1 (one : F -> outcome F) (x : list F) : outcome F := match x with [l] => one l | _ => Panic end.
Lemma batch_loop_ext {A} (p q : nat -> outcome A) is out : (forall i, In i is -> p i = q i) -> batch_loop p is out = batch_loop q is out.
Proof.
  revert out. induction is as [|i is IH]; intros out H; simpl; auto. rewrite (H i) by (left; auto).
  destruct (q i); auto. apply IH. intros j Hj. apply H. right. auto.
Qed.
Lemma eval1_batch one locs (out r : list F) : eval1 one locs out = (Ok tt, r) <-> interp_batch 1 (one1 one) [locs] out = (Ok tt, r).
Proof.
  unfold eval1, interp_batch. cbn [length Nat.eqb negb forallb]. rewrite andb_true_r.
  destruct (length locs =? length out) eqn:E; cbn [negb]; [|split; discriminate].
  replace (length locs) with (length out) by lia. 
  rewrite (batch_loop_ext (fun i => do l <- aget locs i ; one l) (fun i => do tmp <- gather 1 [locs] i ; one1 one tmp)); [reflexivity|].
  intros i _. unfold gather. cbn [seq mapM]. cbn [aget nth_error bind]. destruct (aget locs i); reflexivity.
Qed.
Theorem C87_proof_select1 one locs (out r : list F) js out' : eval1 one locs out = (Ok tt, r) ->
  Forall (fun j => j < length out) js -> length out' = length js ->
  eval1 one (select (fzero o) js locs) out' = (Ok tt, select (fzero o) js r).
Proof.
  rewrite !eval1_batch. apply (select_proof (fzero o) (interp_batch 1 (one1 one)) [locs]). apply like_batch.
Qed.
Theorem C87_proof_joined1 one locs1 out1 (r1 : list F) locs2 out2 r2 :
  eval1 one locs1 out1 = (Ok tt, r1) -> eval1 one locs2 out2 = (Ok tt, r2) ->
  eval1 one (locs1 ++ locs2) (out1 ++ out2) = (Ok tt, r1 ++ r2).
Proof.
  rewrite !eval1_batch. apply (joined_proof (fzero o) (interp_batch 1 (one1 one)) [locs1] out1 r1 [locs2]); [apply like_batch|reflexivity].
Qed.

(** The Python function. *)
Lemma python_char grids vals method lin assume atol : exists f : bf, batchlike f /\ forall obs r,
  fst (py_interpn o c obs grids vals method None lin assume false atol) = Ret r <->
  exists o0, hd_error obs = Some o0 /\ length obs <= 8 /\ nd_shape r = nd_shape o0 /\
    f (map nd_data obs) (repeat (fzero o) (length (nd_data o0))) = (Ok tt, nd_data r).
Proof.
  assert (NO : forall P : list (ndarray F) -> ndarray F -> Prop, (forall obs r, ~ P obs r) -> exists f : bf, batchlike f /\ forall obs r,
    P obs r <-> exists o0, hd_error obs = Some o0 /\ length obs <= 8 /\ nd_shape r = nd_shape o0 /\
    f (map nd_data obs) (repeat (fzero o) (length (nd_data o0))) = (Ok tt, nd_data r)).
  { intros P HP. exists (fun _ out => (Err "", out)). split; [apply like_fail|]. intros obs r. split; [intros H; destruct (HP _ _ H)|].
    intros (o0 & _ & _ & _ & H). discriminate H. }
  unfold py_interpn. cbv zeta. cbn [choose_out].
  destruct (if assume then Ret true else check_regular o (map nd_data grids)) as [reg|e]; cbn [py_bind].
  2:{ apply NO. intros [|o0 obs] r; discriminate. }
  match goal with |- context[py_bind (if reg then ?a else ?b) _] => destruct (if reg then a else b) as [[[dims starts] steps]|e] end; cbn [py_bind].
  2:{ apply NO. intros [|o0 obs] r; discriminate. }
  assert (D : exists f : bf, batchlike f /\ forall ob out,
    match py_dispatch o c reg method dims starts steps (map nd_data grids) (nd_data vals) lin ob out with
    | (Ret _, data) => length ob <= 8 /\ f ob out = (Ok tt, data) | _ => True end /\
    (forall data, length ob <= 8 -> f ob out = (Ok tt, data) -> py_dispatch o c reg method dims starts steps (map nd_data grids) (nd_data vals) lin ob out = (Ret tt, data))).
  { unfold py_dispatch.
    assert (G1 : forall (f : bf) b, batchlike f -> exists g : bf, batchlike g /\ forall ob out,
      let call := if negb b then (Raise OverflowError, out) else if negb (unpack_ok ob) then (Raise PanicException, out) else raw_result (f ob out) in
      match call with | (Ret _, data) => length ob <= 8 /\ g ob out = (Ok tt, data) | _ => True end /\
      (forall data, length ob <= 8 -> g ob out = (Ok tt, data) -> call = (Ret tt, data))).
    { intros f [] Bf; [exists f|exists (fun _ out => (Err "", out))]; (split; [try apply like_fail; auto|]); intros ob out; cbv zeta; cbn [negb].
      - unfold unpack_ok. destruct (length ob <=? 8) eqn:E; cbn [negb]; (split; [|intros data Hl H; try lia]); auto.
        + destruct (f ob out) as [[[]|e|] data]; cbn [raw_result]; auto. split; [lia|reflexivity].
        + rewrite H. reflexivity.
      - split; auto. discriminate. }
    assert (G2 : forall (f : bf) b, batchlike f -> exists g : bf, batchlike g /\ forall ob out,
      let call := if negb (b && unpack_ok ob) then (Raise PanicException, out) else raw_result (f ob out) in
      match call with | (Ret _, data) => length ob <= 8 /\ g ob out = (Ok tt, data) | _ => True end /\
      (forall data, length ob <= 8 -> g ob out = (Ok tt, data) -> call = (Ret tt, data))).
    { intros f [] Bf; [exists f|exists (fun _ out => (Err "", out))]; (split; [try apply like_fail; auto|]); intros ob out; cbv zeta; cbn [negb andb].
      - unfold unpack_ok. destruct (length ob <=? 8) eqn:E; cbn [negb]; (split; [|intros data Hl H; try lia]); auto.
        + destruct (f ob out) as [[[]|e|] data]; cbn [raw_result]; auto. split; [lia|reflexivity].
        + rewrite H. reflexivity.
      - split; auto. discriminate. }
    destruct (String.eqb method "linear"); [|destruct (String.eqb method "nearest"); [|destruct (String.eqb method "cubic")]].
    - destruct reg; [apply (G1 (mlr_interpn o c dims starts steps (nd_data vals)))|apply (G2 (mlc_interpn o c _ (nd_data vals)))];
        apply library_batchlike; constructor.
    - destruct reg; [apply (G1 (nr_interpn o c dims starts steps (nd_data vals)))|apply (G2 (nc_interpn o c _ (nd_data vals)))];
        apply library_batchlike; constructor.
    - destruct reg; [apply (G1 (mcr_interpn o c dims starts steps (nd_data vals) lin))|apply (G2 (mcc_interpn o c _ (nd_data vals) lin))];
        apply library_batchlike; constructor.
    - exists (fun _ out => (Err "", out)). split; [apply like_fail|]. intros ob out. split; auto. discriminate. }
  destruct D as (f & Bf & Hf). exists f. split; [exact Bf|]. intros [|o0 obs] r.
  { split; [discriminate|]. intros (o0 & H & _). discriminate H. }
  cbn [py_get nth_error py_bind nd_data nd_shape].
  destruct (Hf (map nd_data (o0 :: obs)) (repeat (fzero o) (length (nd_data o0)))) as (H1 & H2). rewrite map_length in H1, H2. split.
  - intros H. exists o0. split; [reflexivity|].
    destruct (py_dispatch _ _ _ _ _ _ _ _ _ _ _ _) as [[[]|e] data]; cbn [py_bind fst] in H; [|discriminate H].
    injection H as <-. destruct H1 as (H0 & H1). split; [exact H0|]. split; [reflexivity|]. exact H1.
  - intros (o1 & E & H0 & S & H). injection E as <-. rewrite (H2 _ H0 H). cbn [py_bind fst]. rewrite <- S. destruct r; reflexivity.
Qed.

Lemma like_out f obs (out r : list F) : batchlike f -> f obs out = (Ok tt, r) -> length r = length out.
Proof.
  intros B H. destruct (batchlike_ok f _ _ _ B H) as (n & one & E & _). apply (batch_ok_inv (fzero o)) in E as (_ & _ & E & _). exact E.
Qed.
Theorem C87_proof_python_select obs grids vals method lin assume atol r js obs' o0' :
  fst (py_interpn o c obs grids vals method None lin assume false atol) = Ret r ->
  Forall (fun j => j < length (nd_data r)) js ->
  map nd_data obs' = map (select (fzero o) js) (map nd_data obs) -> hd_error obs' = Some o0' ->
  exists r', fst (py_interpn o c obs' grids vals method None lin assume false atol) = Ret r' /\
    nd_shape r' = nd_shape o0' /\ nd_data r' = select (fzero o) js (nd_data r).
Proof.
  intros H Hj Ho H0. destruct (python_char grids vals method lin assume atol) as (f & Bf & Hf).
  apply Hf in H as (o0 & E0 & L8 & S & Ef). assert (Lr := like_out _ _ _ _ Bf Ef). rewrite repeat_length in Lr.
  assert (L0 : length (nd_data o0') = length js).
  { destruct obs' as [|o1 obs']; [discriminate H0|]. injection H0 as ->. destruct obs; [discriminate E0|]. cbn [map] in Ho.
    injection Ho as Ho _. rewrite Ho. apply select_len. }
  assert (LL : length obs' = length obs) by (apply (f_equal (@length _)) in Ho; rewrite !map_length in Ho; exact Ho).
  exists (mkNd (nd_shape o0') (select (fzero o) js (nd_data r))). split; [|split; reflexivity].
  apply Hf. exists o0'. split; [exact H0|]. split; [lia|]. split; [reflexivity|]. rewrite Ho. cbn [nd_data].
  eapply select_proof; [exact Bf|exact Ef| |]; rewrite ?repeat_length; auto. rewrite <- Lr. exact Hj.
Qed.
Theorem C87_proof_python_joined obs1 obs2 grids vals method lin assume atol r1 r2 obs o0 :
  fst (py_interpn o c obs1 grids vals method None lin assume false atol) = Ret r1 ->
  fst (py_interpn o c obs2 grids vals method None lin assume false atol) = Ret r2 -> length obs1 = length obs2 ->
  map nd_data obs = joined (map nd_data obs1) (map nd_data obs2) -> hd_error obs = Some o0 ->
  exists r, fst (py_interpn o c obs grids vals method None lin assume false atol) = Ret r /\
    nd_shape r = nd_shape o0 /\ nd_data r = nd_data r1 ++ nd_data r2.
Proof.
  intros H1 H2 L Ho H0. destruct (python_char grids vals method lin assume atol) as (f & Bf & Hf).
  apply Hf in H1 as (p1 & E1 & L1 & _ & F1). apply Hf in H2 as (p2 & E2 & L2 & _ & F2).
  assert (Q : nd_data o0 = nd_data p1 ++ nd_data p2).
  { destruct obs; [discriminate H0|]. injection H0 as ->. destruct obs1; [discriminate E1|]. injection E1 as ->.
    destruct obs2; [discriminate E2|]. injection E2 as ->. cbn [map joined combine fst snd] in Ho. injection Ho as Ho _. exact Ho. }
  assert (LL : length obs = length obs1) by (apply (f_equal (@length _)) in Ho; rewrite joined_len in Ho by (rewrite !map_length; auto); rewrite !map_length in Ho; exact Ho).
  exists (mkNd (nd_shape o0) (nd_data r1 ++ nd_data r2)). split; [|split; reflexivity].
  apply Hf. exists o0. split; [exact H0|]. split; [lia|]. split; [reflexivity|]. rewrite Ho, Q. cbn [nd_data].
  rewrite app_length, repeat_app. apply (joined_proof (fzero o)); auto. rewrite !map_length. auto.
Qed.
End Lib.

(** The wrapper classes and the function give the same. *)
Section Classes.
Context {F : Type} (o : Ops F) (c : cfg).
Variables (obs grids : list (ndarray F)) (vals o0 : ndarray F) (lin assume : bool) (atol : F).
Notation gs := (map nd_data grids).
Notation xs := (map nd_data obs).
Notation vs := (nd_data vals).
Notation dims := (map zlen gs).
Notation starts := (firsts (fzero o) gs).
Notation steps := (spacings o (fzero o) gs).
Notation call m := (fst (py_interpn o c obs grids vals m None lin assume false atol)).
Notation shaped e := (py_do data <- e ; Ret (mkNd (nd_shape o0) data)).
Hypothesis Ho : hd_error obs = Some o0.
Hypothesis L8 : length obs <= 8.
Hypothesis G2 : Forall (fun g => 2 <= length (nd_data g)) grids.

Lemma class_shaped (raw : list (list F) -> list F -> py unit * list F) (f : list (list F) -> list F -> outcome unit * list F) :
  raw xs (repeat (fzero o) (length (nd_data o0))) = raw_result (f xs (repeat (fzero o) (length (nd_data o0)))) ->
  python_result (nd_shape o0) (f xs (repeat (fzero o) (length (nd_data o0)))) = shaped (class_eval o raw xs None).
Proof using Ho.
  clear L8. intros E. unfold class_eval. destruct obs as [|o1 t]; [discriminate Ho|]. injection Ho as ->. cbn [map py_get nth_error py_bind].
  cbn [map] in E. rewrite E. destruct (f _ _) as [[[]|e|] data]; reflexivity.
Qed.
Lemma dims_nonneg : dims_ok dims = true.
Proof using. clear. unfold dims_ok. apply forallb_forall. intros d Hd. apply in_map_iff in Hd as (g & <- & _). unfold zlen. lia. Qed.
Lemma obs_fit : unpack_ok xs = true.
Proof using L8. unfold unpack_ok. rewrite map_length. apply Nat.leb_le. exact L8. Qed.

Theorem C88_proof_regular : assume = true \/ Forall (evenly_spaced o) gs ->
  call "linear" = shaped (class_eval o (raw_linear_regular o c dims starts steps vs) xs None) /\
  call "nearest" = shaped (class_eval o (raw_nearest_regular o c dims starts steps vs) xs None) /\
  call "cubic" = shaped (class_eval o (raw_cubic_regular o c dims starts steps vs lin) xs None).
Proof using All.
  intros H. destruct (dispatch_regular o c obs grids vals o0 lin assume atol Ho L8 G2 H) as (E1 & E2 & E3).
  assert (D := dims_nonneg). assert (U := obs_fit).
  rewrite E1, E2, E3. split; [|split]; cbn [fst]; apply class_shaped;
    [unfold raw_linear_regular|unfold raw_nearest_regular|unfold raw_cubic_regular]; rewrite D, U; reflexivity.
Qed.
Theorem C88_proof_rectilinear : assume = false -> ~ Forall (evenly_spaced o) gs -> length grids <= 8 ->
  call "linear" = shaped (class_eval o (raw_linear_rectilinear o c gs vs) xs None) /\
  call "nearest" = shaped (class_eval o (raw_nearest_rectilinear o c gs vs) xs None) /\
  call "cubic" = shaped (class_eval o (raw_cubic_rectilinear o c gs vs lin) xs None).
Proof using All.
  intros Ha Hn Lg. destruct (dispatch_rectilinear o c obs grids vals o0 lin assume atol Ho L8 G2 Ha Hn Lg) as (E1 & E2 & E3).
  assert (U := obs_fit). assert (V : unpack_ok gs = true) by (unfold unpack_ok; rewrite map_length; apply Nat.leb_le; exact Lg).
  rewrite E1, E2, E3. split; [|split]; cbn [fst]; apply class_shaped;
    [unfold raw_linear_rectilinear|unfold raw_nearest_rectilinear|unfold raw_cubic_rectilinear]; rewrite V, U; reflexivity.
Qed.
End Classes.
