(** Combination of the two numerical solutions. *)
From Coq Require Import Reals List Lra Lia.
From Coquelicot Require Import Coquelicot.
From Verif Require Import Base Model.Potentials Model.Equations Model.Background Model.Perturbations
  Spec.BackgroundSpec Spec.PerturbationSpec.
Import ListNotations.
Open Scope C_scope.

Lemma Csub0 (x y : C) : x - y = 0 -> x = y.
Proof. intros E. replace x with (x - y + y) by ring. rewrite E. ring. Qed.
Lemma coeffs_ok (uk duk y1 dy1 y2 dy2 : C) : y1 * dy2 - dy1 * y2 <> 0 ->
  let ab := coefficients_a_b uk duk y1 dy1 y2 dy2 in
  fst ab * y1 + snd ab * y2 = uk /\ fst ab * dy1 + snd ab * dy2 = duk.
Proof.
  intros W. cbv zeta. unfold coefficients_a_b. cbn [fst snd].
  assert (W2 : y2 * dy1 - dy2 * y1 <> 0).
  { intros X. apply W. replace (y1 * dy2 - dy1 * y2) with (- (y2 * dy1 - dy2 * y1)) by ring. rewrite X. ring. }
  split; field; auto.
Qed.
Lemma coeffs_unique (uk duk y1 dy1 y2 dy2 c d : C) : y1 * dy2 - dy1 * y2 <> 0 ->
  c * y1 + d * y2 = uk -> c * dy1 + d * dy2 = duk -> (c, d) = coefficients_a_b uk duk y1 dy1 y2 dy2.
Proof.
  intros W <- <-. unfold coefficients_a_b.
  assert (W2 : y2 * dy1 - dy2 * y1 <> 0).
  { intros X. apply W. replace (y1 * dy2 - dy1 * y2) with (- (y2 * dy1 - dy2 * y1)) by ring. rewrite X. ring. }
  f_equal; field; auto.
Qed.

Lemma last_five_map {A B} (f : A -> B) l : last_five (map f l) = map f (last_five l).
Proof. unfold last_five. rewrite map_length. apply skipn_map. Qed.

(** a propagator: value and derivative along the grid as linear functions of the initial data *)
Lemma combine_basis nanmedian norm (uk duk ue ve : C) (P1 P2 : list (C * C)) (D1 D2 : list (C * C)) x1 d1 x2 d2 :
  (forall c l, l <> [] -> (forall z, In z l -> z = c) -> nanmedian l = c) ->
  x1 * d2 - d1 * x2 <> 0 ->
  (exists r1 s1, P1 = (RtoC 1, RtoC 0) :: r1 /\ D1 = (RtoC 0, RtoC 1) :: s1) ->
  (exists r2 s2, P2 = (RtoC 1, RtoC 0) :: r2 /\ D2 = (RtoC 0, RtoC 1) :: s2) ->
  (forall m, In m (last_five P1) -> m = (ue, ve)) -> (forall m, In m (last_five P2) -> m = (ue, ve)) ->
  let at_ x d := map (fun m : C * C => fst m * x + snd m * d) in
  combine_solutions nanmedian norm (uk, duk) (at_ x1 d1 P1) (at_ x1 d1 D1) (at_ x2 d2 P2) (at_ x2 d2 D2)
  = Ok (Cmod (ue * uk + ve * duk)%C ^ 2 * norm)%R.
Proof.
  intros M W (r1 & s1 & -> & ->) (r2 & s2 & -> & ->) F1 F2. cbv zeta.
  assert (Q : forall x d (r : list (C * C)), (forall m, In m (last_five ((RtoC 1, RtoC 0) :: r)) -> m = (ue, ve)) ->
     nanmedian (last_five (map (fun m : C * C => fst m * x + snd m * d) ((RtoC 1, RtoC 0) :: r))) = ue * x + ve * d).
  { intros x d r F. apply M.
    - rewrite last_five_map. intros X. apply map_eq_nil in X. unfold last_five in X.
      assert (L : List.length (skipn (List.length ((RtoC 1, RtoC 0) :: r) - 5) ((RtoC 1, RtoC 0) :: r)) = 0%nat) by (rewrite X; reflexivity).
      rewrite skipn_length in L. cbn [List.length] in L. lia.
    - intros z Hz. rewrite last_five_map in Hz. apply in_map_iff in Hz. destruct Hz as (m & <- & Hm). rewrite (F m Hm). reflexivity. }
  unfold combine_solutions. 
  pose proof (Q x1 d1 r1 F1) as Q1. pose proof (Q x2 d2 r2 F2) as Q2. cbn [map] in Q1, Q2. cbn [map].
  rewrite Q1, Q2. clear Q Q1 Q2. cbn [fst snd].
  replace (RtoC 1 * x1 + RtoC 0 * d1) with x1 by ring. replace (RtoC 0 * x1 + RtoC 1 * d1) with d1 by ring.
  replace (RtoC 1 * x2 + RtoC 0 * d2) with x2 by ring. replace (RtoC 0 * x2 + RtoC 1 * d2) with d2 by ring.
  destruct (coeffs_ok uk duk x1 d1 x2 d2 W) as [A1 A2]. cbv zeta in A1, A2.
  set (ab := coefficients_a_b uk duk x1 d1 x2 d2) in *.
  replace (fst ab * (ue * x1 + ve * d1) + snd ab * (ue * x2 + ve * d2)) with
    (ue * (fst ab * x1 + snd ab * x2) + ve * (fst ab * d1 + snd ab * d2)) by ring.
  rewrite A1, A2. reflexivity.
Qed.

(** ms_frequency entries are square roots of the squared frequencies *)
Lemma csqrt_sq x : csqrt_real x * csqrt_real x = RtoC x.
Proof.
  unfold csqrt_real. destruct (Rlt_dec x 0) as [L|L]; unfold Cmult, RtoC; cbn [fst snd]; f_equal.
  - replace (0 * 0 - sqrt (- x) * sqrt (- x))%R with (- (sqrt (- x) * sqrt (- x)))%R by ring. rewrite sqrt_sqrt by lra. ring.
  - ring.
  - rewrite sqrt_sqrt by lra. ring.
  - ring.
Qed.
Lemma ms_frequency_sq l : map (fun w => w * w) (ms_frequency l) = map RtoC l.
Proof.
  unfold ms_frequency. destruct (forallb _ l) eqn:E; rewrite map_map; apply map_ext_in; intros x Hx.
  - rewrite forallb_forall in E. specialize (E x Hx). destruct (Rlt_dec 0 x); [|discriminate].
    rewrite <- RtoC_mult, sqrt_sqrt by lra. reflexivity.
  - apply csqrt_sq.
Qed.
