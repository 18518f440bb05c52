(** The flattened loop and the recursion both compute the same tensor-product
    evaluation [tens], for any footprint, any number of axes and any arithmetic. *)
From Coq Require Import ZifyBool ZifyNat PeanoNat.
From Verif Require Import Base Ops ModelCore Spec CoreLemmas.

(** Evaluate along axes k-1, ..., 0 (innermost axis first); [suf] holds the node
    indices already chosen for axes k, k+1, ... *)
Fixpoint tens {F} (FP : nat) (V : list Z -> F) (nd : nat -> list F -> F) (origin : list Z)
  (k : nat) (suf : list Z) : F :=
  match k with
  | O => V suf
  | S k' => nd k' (map (fun i => tens FP V nd origin k' ((nth k' origin 0 + Z.of_nat i) :: suf))
                       (seq 0 FP))
  end.

(** [suf] is in the footprint of axes k, k+1, ... *)
Definition in_foot (FP : nat) (origin : list Z) (k : nat) (suf : list Z) : Prop :=
  length suf = (length origin - k)%nat /\
  forall j, (j < length suf)%nat ->
    nth (k + j) origin 0 <= nth j suf 0 < nth (k + j) origin 0 + Z.of_nat FP.

Lemma in_foot_nil FP origin : in_foot FP origin (length origin) [].
Proof. split; simpl; [lia|]. intros; lia. Qed.

Lemma in_foot_cons FP origin k i suf :
  (k < length origin)%nat -> (i < FP)%nat -> in_foot FP origin (S k) suf ->
  in_foot FP origin k ((nth k origin 0 + Z.of_nat i) :: suf).
Proof.
  intros Hk Hi (Hl & H). split; [simpl; lia|]. intros [|j] Hj; simpl in *.
  - rewrite Nat.add_0_r. lia.
  - specialize (H j ltac:(lia)). replace (k + S j)%nat with (S (k + j)) by lia. exact H.
Qed.

Lemma tens_ext F FP (V V' : list Z -> F) nd nd' origin k suf :
  (k <= length origin)%nat ->
  in_foot FP origin k suf ->
  (forall s, in_foot FP origin 0 s -> V s = V' s) ->
  (forall j vs, (j < k)%nat -> length vs = FP -> nd j vs = nd' j vs) ->
  tens FP V nd origin k suf = tens FP V' nd' origin k suf.
Proof.
  intros Hk Hs HV Hn. revert suf Hs. induction k as [|k IH]; intros suf Hs; simpl; auto.
  rewrite Hn by (rewrite ?map_length, ?seq_length; lia). f_equal.
  apply map_ext_in. intros i Hi. apply in_seq in Hi.
  apply IH; try lia; auto. apply in_foot_cons; auto; lia.
Qed.

Lemma skipn_tl A k (l : list A) : skipn (S k) l = tl (skipn k l).
Proof. revert l; induction k; intros [|a l]; simpl; auto. rewrite <- IHk. reflexivity. Qed.

Section Eval.
Context {F : Type} (c : cfg) (FP : nat).
Hypothesis HFP : (2 <= FP)%nat.
Variables (origin : list Z) (V : list Z -> F) (nd : nat -> list F -> F).
Notation n := (length origin).

(** ** The recursion *)
Lemma populate_spec dimprod vals node :
  (forall k, (k < n)%nat -> 0 <= nth k origin 0 /\ nth k origin 0 + Z.of_nat FP <= two64) ->
  (forall s, in_foot FP origin 0 s -> index_arr c s dimprod vals = Ok (V s)) ->
  (forall k vs, (k < n)%nat -> length vs = FP -> node k vs = Ok (nd k vs)) ->
  forall k loc, (k <= n)%nat -> length loc = n -> in_foot FP origin k (skipn k loc) ->
  exists loc', populate c FP origin dimprod vals node k loc
               = Ok (tens FP V nd origin k (skipn k loc), loc')
            /\ length loc' = n /\ skipn k loc' = skipn k loc.
Proof.
  intros Horig Hleaf Hnode. induction k as [|k IH]; intros loc Hk Hl Hf.
  - simpl in *. rewrite Hleaf by assumption. exists loc; auto.
  - cbn [populate tens].
    match goal with |- context[foldM ?g _ _] => set (f := g) end.
    assert (G : forall m i vs loc0, (i + m = FP)%nat -> length loc0 = n ->
       skipn (S k) loc0 = skipn (S k) loc ->
       exists loc1,
       foldM f (vs, loc0) (seq i m)
       = Ok (vs ++ map (fun i => tens FP V nd origin k
                          ((nth k origin 0 + Z.of_nat i) :: skipn (S k) loc)) (seq i m), loc1)
       /\ length loc1 = n /\ skipn (S k) loc1 = skipn (S k) loc).
    { induction m as [|m IHm]; intros i vs loc0 Him Hl0 Hs0.
      - simpl. exists loc0. rewrite app_nil_r. auto.
      - cbn [seq foldM map].
        assert (Ho := Horig k ltac:(lia)).
        assert (Es : skipn k (upd loc0 k (nth k origin 0 + Z.of_nat i))
                     = (nth k origin 0 + Z.of_nat i) :: skipn (S k) loc).
        { rewrite skipn_upd_cons by lia. f_equal. exact Hs0. }
        destruct (IH (upd loc0 k (nth k origin 0 + Z.of_nat i))) as (loc' & E & Hl' & Hs').
        { lia. } { rewrite upd_length; lia. }
        { rewrite Es. apply in_foot_cons; auto; lia. }
        assert (Ef : f (vs, loc0) i = Ok (vs ++ [tens FP V nd origin k
             ((nth k origin 0 + Z.of_nat i) :: skipn (S k) loc)], loc')).
        { unfold f. rewrite (aget_nth _ 0) by lia. cbn [bind].
          rewrite usize_add_ok by lia. cbn [bind].
          rewrite aset_ok by lia. cbn [bind]. rewrite E. cbn [bind]. rewrite Es. reflexivity. }
        rewrite Ef. cbn [bind].
        destruct (IHm (S i) (vs ++ [tens FP V nd origin k
             ((nth k origin 0 + Z.of_nat i) :: skipn (S k) loc)]) loc') as (loc1 & E1 & H1 & H2).
        { lia. } { exact Hl'. }
        { rewrite skipn_tl, Hs', Es. reflexivity. }
        exists loc1. rewrite E1. rewrite <- app_assoc. auto. }
    destruct (G FP 0%nat [] loc) as (loc1 & E & Hl1 & Hs1); auto.
    rewrite E. cbn [bind app].
    rewrite (aget_nth _ 0) by lia. cbn [bind].
    rewrite aset_ok by lia. cbn [bind].
    rewrite Hnode by (rewrite ?map_length, ?seq_length; lia). cbn [bind].
    eexists; split; [reflexivity|]. split; [rewrite upd_length; lia|].
    rewrite skipn_upd. exact Hs1.
Qed.

(** ** The flattened loop *)

(** Node indices of axes m, m+1, ... for block number b at level m. *)
Definition suffix (m b : nat) : list Z :=
  map (fun k => nth k origin 0 + Z.of_nat ((b / FP ^ (k - m)) mod FP)) (seq m (n - m)).

(** Value of block b at level m. *)
Definition T (m b : nat) : F := tens FP V nd origin m (suffix m b).

Lemma suffix_cons m b p : (m < n)%nat -> (p < FP)%nat ->
  suffix m (FP * b + p) = (nth m origin 0 + Z.of_nat p) :: suffix (S m) b.
Proof.
  intros Hm Hp. unfold suffix.
  replace (n - m)%nat with (S (n - S m)) by lia. cbn [seq map].
  f_equal.
  - do 2 f_equal. rewrite Nat.sub_diag. change (FP ^ 0)%nat with 1%nat.
    rewrite Nat.div_1_r. rewrite Nat.add_comm, Nat.mul_comm, Nat.mod_add by lia.
    apply Nat.mod_small; lia.
  - apply map_ext_in. intros k Hk. apply in_seq in Hk. do 2 f_equal. f_equal.
    replace (k - m)%nat with (S (k - S m)) by lia. cbn [Nat.pow].
    rewrite <- Nat.div_div by (try apply Nat.pow_nonzero; lia).
    rewrite Nat.add_comm, Nat.mul_comm, Nat.div_add by lia.
    rewrite (Nat.div_small p) by lia. reflexivity.
Qed.

Lemma T_succ m b : (m < n)%nat ->
  T (S m) b = nd m (map (fun p => T m (FP * b + p)) (seq 0 FP)).
Proof.
  intros Hm. unfold T. cbn [tens]. f_equal. apply map_ext_in.
  intros p Hp. apply in_seq in Hp. rewrite suffix_cons by lia. reflexivity.
Qed.

Variables (leaf : nat -> outcome F) (node : nat -> list F -> outcome F).
Hypothesis Hleaf : forall i, (i < FP ^ n)%nat -> leaf i = Ok (V (suffix 0 i)).
Hypothesis Hnode : forall k vs, (k < n)%nat -> length vs = FP -> node k vs = Ok (nd k vs).

Definition shaped (st : list (list F)) : Prop :=
  length st = n /\ forall r row, nth_error st r = Some row -> length row = FP.

Lemma store_set_ok st r p v : shaped st -> (r < n)%nat -> (p < FP)%nat ->
  exists row, nth_error st r = Some row /\ length row = FP /\
  store_set st r p v = Ok (upd st r (upd row p v)) /\ shaped (upd st r (upd row p v)).
Proof.
  intros (Hl & Hr) Hrn Hp.
  destruct (nth_error st r) as [row|] eqn:E.
  2:{ apply nth_error_None in E. lia. }
  exists row. assert (L := Hr _ _ E).
  split; auto. split; auto.
  unfold store_set. rewrite (aget_ok _ _ E). cbn [bind].
  rewrite aset_ok by lia. cbn [bind]. rewrite aset_ok by lia.
  split; auto. split; [rewrite upd_length; auto|].
  intros r' row' H. destruct (Nat.eq_dec r' r) as [->|D].
  - rewrite upd_same in H by lia. inversion H; subst. rewrite upd_length; auto.
  - rewrite upd_other in H by auto. eauto.
Qed.

(** After [cnt] completed blocks at level j, row j of the store holds the blocks
    of the current group up to the last completed one. *)
Definition rowinv (st : list (list F)) (j cnt : nat) : Prop :=
  (1 <= cnt)%nat -> forall p, (p <= (cnt - 1) mod FP)%nat ->
  exists row, nth_error st j = Some row /\
              nth_error row p = Some (T j (FP * ((cnt - 1) / FP) + p)).

Lemma rowinv_write st j cnt row :
  shaped st -> (j < n)%nat -> nth_error st j = Some row ->
  rowinv st j cnt ->
  rowinv (upd st j (upd row (cnt mod FP) (T j cnt))) j (S cnt).
Proof.
  intros (Hl & Hr) Hj Hrow H _ p Hp.
  replace (S cnt - 1)%nat with cnt in * by lia.
  exists (upd row (cnt mod FP) (T j cnt)).
  split; [apply upd_same; lia|].
  assert (L := Hr _ _ Hrow).
  assert (Hm := Nat.mod_upper_bound cnt FP ltac:(lia)).
  assert (Hdm := Nat.div_mod cnt FP ltac:(lia)).
  destruct (Nat.eq_dec p (cnt mod FP)) as [->|Hne].
  - rewrite upd_same by lia. do 2 f_equal. exact Hdm.
  - rewrite upd_other by auto.
    assert (Hc : (1 <= cnt mod FP)%nat) by lia.
    assert (E1 : (cnt - 1 = FP * (cnt / FP) + (cnt mod FP - 1))%nat)
      by (revert Hc Hdm; generalize (cnt / FP)%nat (cnt mod FP)%nat; intros; lia).
    assert (Ed : ((cnt - 1) / FP = cnt / FP)%nat).
    { symmetry. eapply Nat.div_unique; [|exact E1]. lia. }
    assert (Em : ((cnt - 1) mod FP = cnt mod FP - 1)%nat).
    { symmetry. eapply Nat.mod_unique; [|exact E1]. lia. }
    destruct (H ltac:(destruct cnt; [rewrite Nat.mod_0_l in Hc; lia|lia]) p ltac:(lia))
      as (row' & E2 & E3).
    rewrite Hrow in E2. inversion E2; subst row'. rewrite E3, Ed. reflexivity.
Qed.

Lemma rowinv_upd_other st j cnt r row' : r <> j -> rowinv st j cnt -> rowinv (upd st r row') j cnt.
Proof.
  intros Hne H Hc p Hp. destruct (H Hc p Hp) as (row & E1 & E2).
  exists row. rewrite upd_other by auto. auto.
Qed.

Lemma rowinv_full st j b : shaped st -> (j < n)%nat -> rowinv st j (FP * (b + 1)) ->
  nth_error st j = Some (map (fun p => T j (FP * b + p)) (seq 0 FP)).
Proof.
  intros (Hl & Hr) Hj H.
  assert (E1 : (FP * (b + 1) - 1 = FP * b + (FP - 1))%nat) by nia.
  assert (Ed : ((FP * (b + 1) - 1) / FP = b)%nat).
  { symmetry. eapply Nat.div_unique; [|exact E1]. lia. }
  assert (Em : ((FP * (b + 1) - 1) mod FP = FP - 1)%nat).
  { symmetry. eapply Nat.mod_unique; [|exact E1]. lia. }
  assert (Hc : (1 <= FP * (b + 1))%nat) by nia.
  destruct (nth_error st j) as [row|] eqn:E; [|apply nth_error_None in E; lia].
  assert (L := Hr _ _ E). f_equal.
  apply list_ext; [rewrite map_length, seq_length; auto|].
  intros p Hp. destruct (H Hc p ltac:(lia)) as (row' & E2 & E3).
  rewrite E in E2. inversion E2; subst row'. rewrite E3, Ed.
  rewrite (nth_error_nth' _ (T j (FP * b + 0))) by (rewrite map_length, seq_length; lia).
  rewrite (map_nth (fun p => T j (FP * b + p)) (seq 0 FP) 0%nat p).
  rewrite seq_nth by lia. reflexivity.
Qed.

Lemma div_succ_nomul i q : (0 < q)%nat -> ((i + 1) mod q <> 0)%nat -> ((i + 1) / q = i / q)%nat.
Proof.
  intros Hq Hm. assert (D := Nat.div_mod (i + 1) q ltac:(lia)).
  assert (U := Nat.mod_upper_bound (i + 1) q ltac:(lia)).
  apply (Nat.div_unique i q _ ((i + 1) mod q - 1)); lia.
Qed.

Lemma div_succ_mul i q : (0 < q)%nat -> ((i + 1) mod q = 0)%nat -> ((i + 1) / q = i / q + 1)%nat.
Proof.
  intros Hq Hm. assert (D := Nat.div_mod (i + 1) q ltac:(lia)).
  rewrite Hm in D.
  assert (1 <= (i + 1) / q)%nat by nia.
  assert (i / q = (i + 1) / q - 1)%nat; [|lia].
  symmetry. apply (Nat.div_unique i q _ (q - 1)); nia.
Qed.

Lemma pow_pos_nat j : (0 < FP ^ j)%nat.
Proof. apply Nat.neq_0_lt_0, Nat.pow_nonzero. lia. Qed.

Lemma flat_vertex_spec st i : (i < FP ^ n)%nat -> shaped st ->
  (forall j, (j < n)%nat -> rowinv st j (i / FP ^ j)) ->
  exists st', flat_vertex FP n leaf node st i = Ok st' /\ shaped st' /\
  (forall j, (j < n)%nat -> rowinv st' j ((i + 1) / FP ^ j)).
Proof.
  intros Hi Hsh Hinv. unfold flat_vertex.
  set (body := fun (st0 : list (list F)) (j : nat) => _).
  assert (G : forall m j st0, (j + m = n)%nat -> shaped st0 ->
    (forall j', (j' < j)%nat -> rowinv st0 j' ((i + 1) / FP ^ j')) ->
    (forall j', (j <= j' < n)%nat -> rowinv st0 j' (i / FP ^ j')) ->
    exists st', foldM body st0 (seq j m) = Ok st' /\ shaped st' /\
      (forall j', (j' < n)%nat -> rowinv st' j' ((i + 1) / FP ^ j'))).
  { induction m as [|m IH]; intros j st0 Hjm Hs H1 H2.
    - exists st0. simpl. split; auto. split; auto. intros j' Hj'. apply H1. lia.
    - cbn [seq foldM].
      assert (Hq := pow_pos_nat j).
      assert (Step : exists st1, body st0 j = Ok st1 /\ shaped st1 /\
         (forall j', (j' < S j)%nat -> rowinv st1 j' ((i + 1) / FP ^ j')) /\
         (forall j', (S j <= j' < n)%nat -> rowinv st1 j' (i / FP ^ j'))).
      { unfold body. destruct (Nat.eqb_spec j 0) as [->|Hj0].
        - rewrite Hleaf by assumption. cbn [bind].
          destruct (@store_set_ok st0 0 (i mod FP) (V (suffix 0 i))) as (row & E1 & E2 & E3 & E4);
            auto; try lia; try (apply Nat.mod_upper_bound; lia).
          rewrite E3. eexists; split; [reflexivity|]. split; [exact E4|]. split.
          + intros j' Hj'. replace j' with 0%nat by lia.
            change (FP ^ 0)%nat with 1%nat. rewrite Nat.div_1_r, Nat.add_1_r.
            change (V (suffix 0 i)) with (T 0 i).
            apply rowinv_write; auto; try lia.
            specialize (H2 0%nat ltac:(lia)). change (FP ^ 0)%nat with 1%nat in H2.
            rewrite Nat.div_1_r in H2. exact H2.
          + intros j' Hj'. apply rowinv_upd_other; [lia|]. apply H2; lia.
        - destruct (Nat.eqb_spec ((i + 1) mod FP ^ j) 0) as [Hm|Hm].
          + assert (Hd := @div_succ_mul i _ Hq Hm).
            set (b := (i / FP ^ j)%nat) in *.
            assert (Hprev : ((i + 1) / FP ^ (j - 1) = FP * (b + 1))%nat).
            { assert (Hq' := pow_pos_nat (j - 1)).
              assert (D := Nat.div_mod (i + 1) (FP ^ j) ltac:(lia)). rewrite Hm, Hd in D.
              rewrite D. replace j with (S (j - 1)) at 1 by lia. cbn [Nat.pow].
              rewrite Nat.add_0_r.
              replace (FP * FP ^ (j - 1) * (b + 1))%nat with (FP * (b + 1) * FP ^ (j - 1))%nat by lia.
              apply Nat.div_mul. lia. }
            assert (Hrow := H1 (j - 1)%nat ltac:(lia)). rewrite Hprev in Hrow.
            apply rowinv_full in Hrow; [|auto|lia].
            rewrite (aget_ok _ _ Hrow). cbn [bind].
            rewrite Hnode by (rewrite ?map_length, ?seq_length; lia). cbn [bind].
            rewrite <- T_succ by lia. replace (S (j - 1)) with j by lia.
            rewrite Hd. replace (b + 1 - 1)%nat with b by lia.
            destruct (@store_set_ok st0 j (b mod FP) (T j b)) as (row & E1 & E2 & E3 & E4);
              auto; try lia; try (apply Nat.mod_upper_bound; lia).
            rewrite E3. eexists; split; [reflexivity|]. split; [exact E4|]. split.
            * intros j' Hj'. destruct (Nat.eq_dec j' j) as [->|Hne].
              -- rewrite Hd, Nat.add_1_r. apply rowinv_write; auto; try lia. apply H2; lia.
              -- apply rowinv_upd_other; [lia|]. apply H1; lia.
            * intros j' Hj'. apply rowinv_upd_other; [lia|]. apply H2; lia.
          + eexists; split; [reflexivity|]. split; [exact Hs|]. split.
            * intros j' Hj'. destruct (Nat.eq_dec j' j) as [->|Hne].
              -- rewrite div_succ_nomul by (auto; lia). apply H2; lia.
              -- apply H1; lia.
            * intros j' Hj'. apply H2; lia. }
      destruct Step as (st1 & E & S1 & S2 & S3). rewrite E. cbn [bind].
      apply IH; auto; lia. }
  apply (G n 0%nat st); auto; intros; [lia|]. apply Hinv; lia.
Qed.

Lemma flat_eval_spec z : (0 < n)%nat ->
  flat_eval FP n z leaf node = Ok (tens FP V nd origin n []).
Proof.
  intros Hn. unfold flat_eval. assert (En : n = S (n - 1)) by lia.
  set (n' := (n - 1)%nat) in *. rewrite En at 1. cbv iota.
  assert (G : forall m i st, (i + m = FP ^ n)%nat -> shaped st ->
    (forall j, (j < n)%nat -> rowinv st j (i / FP ^ j)) ->
    exists st', foldM (flat_vertex FP n leaf node) st (seq i m) = Ok st' /\ shaped st' /\
      (forall j, (j < n)%nat -> rowinv st' j ((i + m) / FP ^ j))).
  { induction m as [|m IH]; intros i st Him Hs H.
    - exists st. simpl. rewrite Nat.add_0_r. auto.
    - cbn [seq foldM].
      destruct (@flat_vertex_spec st i) as (st1 & E1 & S1 & R1); auto; try lia.
      rewrite E1. cbn [bind]. rewrite Nat.add_1_r in R1.
      destruct (IH (S i) st1) as (st2 & E2 & S2 & R2); auto; try lia.
      exists st2. split; auto. split; auto.
      replace (i + S m)%nat with (S i + m)%nat by lia. auto. }
  destruct (G (FP ^ n)%nat 0%nat (repeat (repeat z FP) n)) as (st & E & S & R).
  - lia.
  - split; [apply repeat_length|]. intros r row Hr.
    apply nth_error_In, repeat_spec in Hr. subst. apply repeat_length.
  - intros j Hj Hc. exfalso. rewrite Nat.div_0_l in Hc; [lia|].
    apply Nat.pow_nonzero; lia.
  - rewrite E. cbn [bind]. specialize (R n' ltac:(lia)). rewrite Nat.add_0_l in R.
    assert (D : (FP ^ n / FP ^ n' = FP * (0 + 1))%nat).
    { rewrite En. cbn [Nat.pow]. rewrite Nat.div_mul by (apply Nat.pow_nonzero; lia). lia. }
    rewrite D in R. apply rowinv_full in R; [|auto|lia].
    rewrite (aget_ok _ _ R). cbn [bind].
    rewrite Hnode by (rewrite ?map_length, ?seq_length; lia). f_equal.
    rewrite <- T_succ by lia. unfold T. rewrite <- En. f_equal.
    unfold suffix. rewrite Nat.sub_diag. reflexivity.
Qed.

Lemma suffix_in_foot i : in_foot FP origin 0 (suffix 0 i).
Proof using HFP.
  clear -HFP.
  unfold suffix. split; [rewrite map_length, seq_length; lia|].
  intros j Hj. rewrite map_length, seq_length in Hj. rewrite Nat.add_0_l.
  match goal with |- context[nth j (map ?f ?l) 0] =>
    rewrite (nth_indep (map f l) 0 (f 0%nat)) by (rewrite map_length, seq_length; lia);
    rewrite (map_nth f l 0%nat j) end.
  rewrite seq_nth by lia. rewrite Nat.add_0_l, Nat.sub_0_r.
  assert (U := Nat.mod_upper_bound (i / FP ^ j) FP ltac:(lia)). lia.
Qed.

End Eval.
