(** Specification vocabulary for the estimates, over the reals. *)
From Coq Require Import Reals.
From Verif Require Import Base Lane MEst.
Open Scope R_scope.

(** the processor's reciprocal and reciprocal square root have relative error at most e (Intel and AMD document 1.5 * 2^-12) *)
Definition accurate (hw : HwEst RL) (e : R) : Prop :=
  (forall x : R, x <> 0 -> Rabs (x * @hw_rcp RL hw x - 1) <= e) /\
  (forall x : R, 0 < x -> Rabs (sqrt x * @hw_rsqrt RL hw x - 1) <= e).
(** x is y up to a relative error e *)
Definition rel_within (e x y : R) : Prop := Rabs (x - y) <= e * Rabs y.
