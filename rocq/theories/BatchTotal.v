(** Batches over rectilinear grids never fail. *)
From Coq Require Import PeanoNat.
From Verif Require Import Base Ops ModelCore ModelLinear ModelNearest ModelCubic Spec.
From Verif Require Import CoreLemmas MethodLemmas MethodChar GenLemmas GenProofs GenProofs2 GenProofs3.
Open Scope Z_scope.

Lemma batch_never {F} (d : F) n one obs out r : batch_spec d one obs out (fst r) (snd r) -> length obs = n ->
  (forall x, length x = n -> exists v, one x = Ok v) -> exists vs, r = (Ok tt, vs) /\ length vs = length out.
Proof.
  destruct r as [res data]. simpl. intros (L & H) Lo T.
  assert (P : forall j, length (point_of d obs j) = n) by (intros; unfold point_of; rewrite map_length; auto).
  destruct res as [[]|e|]; [eauto| |]; destruct H as (i & Hi & E & _); destruct (T _ (P i)); congruence.
Qed.
