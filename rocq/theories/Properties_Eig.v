(** C73: the cubic solver and the axes behind BoundingOrientedBox::CreateFromPoints, in exact arithmetic.
    [cube_root cbrt]: the libm cube root is exact; the arc cosine, sine and cosine are the library's polynomials. *)
From Coq Require Import Reals Lra Psatz Bool List.
From Verif Require Import Base F32 Intrin Lane MVec MTrig MQuat MInterp MPlane MMatrix Shapes MCollide SpecGeom SpecEig PReal PVec PEig PEigVec.
Open Scope R_scope.

(** "only one real root" is reported only for a cubic that is not a product of three real factors, and the triple root is exact *)
Theorem C73_one_root (cbrt : R -> R) e f g : SolveCubic (L:=RL) cbrt e f g = None -> ~ exists t u v, roots e f g t u v.
Proof. intros H (t & u & v & Hr). apply none_R in H. apply roots_disc in Hr. lra. Qed.
(** otherwise the three values are the three roots up to 1.3e-6 of their spread [r] about the mean *)
Theorem C73_roots (cbrt : R -> R) e f g t u v : cube_root cbrt -> SolveCubic (L:=RL) cbrt e f g = Some (t, u, v) ->
  exists t' u' v' r, roots e f g t' u' v' /\ 0 <= r /\ r * r = (e * e - 3 * f) / 9 /\
    Rabs (t - t') <= 13 / 10000000 * r /\ Rabs (u - u') <= 13 / 10000000 * r /\ Rabs (v - v') <= 13 / 10000000 * r.
Proof. intros C. exact (solve_close cbrt C e f g t u v). Qed.
(** the coefficients handed to the solver are those of the characteristic polynomial; three real roots are always reported *)
Theorem C73_covariance (cbrt : R -> R) b s : cube_root cbrt -> exists t u v t' u' v' r,
  EigenVectorsFromCovariance (L:=RL) cbrt b (s11 s) (s22 s) (s33 s) (s12 s) (s13 s) (s23 s) = cevs b s t u v /\
  (forall x, charpoly s x = (x - t') * (x - u') * (x - v')) /\ 0 <= r /\ 9 * (r * r) = (t' + u' + v') * (t' + u' + v') - 3 * (t' * u' + u' * v' + v' * t') /\
  Rabs (t - t') <= 13 / 10000000 * r /\ Rabs (u - u') <= 13 / 10000000 * r /\ Rabs (v - v') <= 13 / 10000000 * r.
Proof.
  intros C. unfold EigenVectorsFromCovariance. cbv zeta.
  set (e := tneg (tadd (tadd (s11 s) (s22 s)) (s33 s))).
  match goal with |- context [SolveCubic cbrt e ?F ?G] => set (f := F); set (g := G) end.
  assert (L2 : two (L:=RL) = 2) by (unfold two; cbn; unfold Rlit; cbn; ring).
  assert (D : dish e f g <= 0).
  { pose proof (sym_disc (s11 s) (s12 s) (s13 s) (s22 s) (s23 s) (s33 s)) as H. unfold g. rewrite L2. exact H. }
  destruct (SolveCubic cbrt e f g) as [[[t u] v]|] eqn:E; [|apply none_R in E; lra].
  destruct (solve_close cbrt C e f g t u v E) as (t' & u' & v' & r & Hr & R0 & RR & A1 & A2 & A3).
  exists t, u, v, t', u', v', r. split; [reflexivity|]. split; [|split; [exact R0|split; [|auto]]].
  - intros x. rewrite <- (Hr x). unfold g. rewrite L2. unfold e, f, cubic, charpoly, det3, det2. rl. rt. ring.
  - apply roots_coeff in Hr as (-> & -> & _). lra.
Qed.
(** the vector computed for any number [l]: rows 1 and 2 of [S - l I] annihilate it, row 3 up to the characteristic polynomial *)
Theorem C73_eigenvector b s l : let n := cross (row1 s l) (row2 s l) in ~ zero3 n ->
  norm3 (cev b s l) = 1 /\ eq3 (sapply s (cev b s l)) (plus (scale l (cev b s l)) (Q 0 0 (- charpoly s l / norm3 n) 0)) /\
  (charpoly s l = 0 -> unit_axis s l (cev b s l)).
Proof. intros n Z. destruct (cev_residual b s l Z) as [U E]. split; [exact U|]. split; [exact E|]. exact (cev_axis b s l Z). Qed.
(** with three different eigenvalues and independent first rows: an orthonormal basis of eigenvectors *)
Theorem C73_axes b s l1 l2 l3 : l1 <> l2 -> l1 <> l3 -> l2 <> l3 -> charpoly s l1 = 0 -> charpoly s l2 = 0 -> charpoly s l3 = 0 ->
  ~ zero3 (cross (row1 s l1) (row2 s l1)) -> ~ zero3 (cross (row1 s l2) (row2 s l2)) -> ~ zero3 (cross (row1 s l3) (row2 s l3)) ->
  exists u v w, cevs b s l1 l2 l3 = (u, v, w) /\ orthonormal3 u v w /\ unit_axis s l1 u /\ unit_axis s l2 v /\ unit_axis s l3 w.
Proof. exact (distinct_axes b s l1 l2 l3). Qed.
(** with at most one vector found: it is completed to an orthonormal basis *)
Theorem C73_completed b s l1 l2 l3 :
  (zero3 (cev b s l1) /\ zero3 (cev b s l2)) \/ (zero3 (cev b s l1) /\ zero3 (cev b s l3)) \/ (zero3 (cev b s l2) /\ zero3 (cev b s l3)) ->
  exists u v w, cevs b s l1 l2 l3 = (u, v, w) /\ orthonormal3 u v w /\
    (~ zero3 (cev b s l1) -> u = cev b s l1) /\ (~ zero3 (cev b s l2) -> v = cev b s l2) /\ (~ zero3 (cev b s l3) -> w = cev b s l3).
Proof. exact (one_axis b s l1 l2 l3). Qed.
(** when the first two rows of [S - l I] are parallel with no zero entry, the fallback (f2 - f1) / f3 always misses the kernel *)
Theorem C73_planar_refuted b s l : zero3 (cross (row1 s l) (row2 s l)) -> s11 s - l <> 0 -> s12 s <> 0 -> s13 s <> 0 ->
  ~ unit_axis s l (cev b s l).
Proof.
  intros Z N1 N2 N3 [_ (A & _)]. apply (planar_wrong b s l Z N1 N2 N3). unfold sapply, scale in A; cbn [qx qy qz] in A. unfold dot3, row1; cbn [qx qy qz]. lra.
Qed.
(** the diagonal matrix (2, 1, 1): the vector computed for the eigenvalue 1 is the one of the eigenvalue 2 *)
Theorem C73_diagonal_refuted b : let s := Sym 2 0 0 1 0 1 in charpoly s 1 = 0 /\ cev b s 1 = Q 1 0 0 0 /\ ~ unit_axis s 1 (cev b s 1).
Proof.
  intros s. split; [unfold s, charpoly, det3, det2; cbn; ring|]. assert (E : cev b s 1 = Q 1 0 0 0).
  { apply cev_diag; unfold s; cbn; lra. }
  split; [exact E|]. rewrite E. intros [_ (A & _)]. unfold s, sapply, scale in A; cbn in A. lra.
Qed.
(** exact eigenvalues 6, 0, 3 of a covariance matrix, and the three axes are neither unit nor orthogonal *)
Theorem C73_axes_refuted b : let s := Sym 2 2 (-1) 2 (-1) 5 in (forall x, charpoly s x = (x - 6) * (x - 0) * (x - 3)) /\
  exists u v w, cevs b s 6 0 3 = (u, v, w) /\ norm3 u < 6 / 10 /\ 8 / 10 < Rabs (dot3 v w).
Proof. intros s. split; [intros x; unfold s, charpoly, det3, det2; cbn; ring|exact (skewed b)]. Qed.
Example C73_ex : let s := Sym 2 1 0 2 1 2 in
  (forall x, charpoly s x = (x - (2 + sqrt 2)) * (x - 2) * (x - (2 - sqrt 2))) /\ cross (row1 s 2) (row2 s 2) = Q 1 0 (-1) 0 /\ ~ zero3 (cross (row1 s 2) (row2 s 2)) /\
  ~ zero3 (cross (row1 s (2 + sqrt 2)) (row2 s (2 + sqrt 2))) /\ ~ zero3 (cross (row1 s (2 - sqrt 2)) (row2 s (2 - sqrt 2))).
Proof.
  intros s. pose proof (sqrt_sqrt 2 ltac:(lra)) as H. set (k := sqrt 2) in *. unfold s, charpoly, det3, det2, zero3, cross, row1, row2; cbn [s11 s12 s13 s22 s23 s33 qx qy qz].
  split; [intros x|split; [|split; [|split]]].
  - replace ((x - (2 + k)) * (x - 2) * (x - (2 - k))) with ((x - 2) * ((x - 2) * (x - 2) - k * k)) by ring. rewrite H. ring.
  - apply (@Qeq R); ring.
  - lra.
  - intros (A & B & C). nra.
  - intros (A & B & C). nra.
Qed.
