(** Properties C87 and C88: the searches for the end of inflation succeed, and phi_end separates
    inflation from its end (/repo/primpy/potentials.py). *)
From Coq Require Import Reals ZArith Lra Lia ClassicalDedekindReals Classical_Prop.
From Coquelicot Require Import Coquelicot.
From Verif Require Import Base Model.Potentials Model.SlowRoll Spec.PotentialSpec Spec.SlowRollSpec
  Proofs.BaseLemmas Proofs.PhiEnd Proofs.SRN Proofs.Bracket.
Open Scope R_scope.

(** A root finder as the properties assume it exists (intermediate value theorem). *)
Theorem C87_root_finder_exists : exists root, root_spec root /\ root_total root.
Proof.
  assert (IVT : forall f a b, a < b -> cont_on f a b -> f a * f b <= 0 -> {r : R | f r = 0 /\ a <= r <= b}).
  { intros f a b Hab HC HS. set (c := fun x => Rmax a (Rmin b x)).
    assert (CR : forall x, a <= c x <= b).
    { intros x. unfold c. split; [apply Rmax_l|]. apply Rmax_lub; [lra|apply Rmin_l]. }
    assert (CL : forall x y, Rabs (c x - c y) <= Rabs (x - y)).
    { intros x y. unfold c, Rmax, Rmin. repeat destruct (Rle_dec _ _); unfold Rabs; repeat destruct (Rcase_abs _); lra. }
    assert (Ca : c a = a) by (unfold c, Rmax, Rmin; repeat destruct (Rle_dec _ _); lra).
    assert (Cb : c b = b) by (unfold c, Rmax, Rmin; repeat destruct (Rle_dec _ _); lra).
    destruct (IVT_gen (fun x => f (c x)) a b 0) as [r [_ Hz]].
    - intros x eps Heps. destruct (HC (c x) (CR x) eps Heps) as [d [Hd Q]]. exists d. split; [exact Hd|].
      intros y [_ Hy]. unfold dist in *; simpl in *; unfold R_dist in *. apply Q; [apply CR|]. eapply Rle_lt_trans; [apply CL|exact Hy].
    - rewrite Ca, Cb. unfold Rmin, Rmax. destruct (Rle_dec (f a) (f b)); nra.
    - exists (c r). split; [exact Hz|apply CR]. }
  exists (fun f a b => match sig_not_dec (a < b /\ cont_on f a b /\ f a * f b <= 0) with
    | left h => Ok (proj1_sig (IVT f a b (proj1 (NNPP _ h)) (proj1 (proj2 (NNPP _ h))) (proj2 (proj2 (NNPP _ h)))))
    | right _ => Raise ValueError end).
  split.
  - intros f a b r. destruct (sig_not_dec _) as [h|h]; [|discriminate]. intros E. injection E as <-.
    match goal with |- context [proj1_sig ?X] => destruct X as [r [H1 H2]] end. cbn [proj1_sig]. split; [exact H1|].
    pose proof (proj1 (NNPP _ h)). rewrite Rmin_left, Rmax_right by lra. exact H2.
  - intros f a b H1 H2 H3. destruct (sig_not_dec _) as [h|h]; [eexists; reflexivity|]. exfalso. tauto.
Qed.

(** C87: for every double well with a power 1 < p <= 2^50 and width phi0 <= 2^51, the search for the
    end of inflation succeeds; the result is the only field value on the branch with epsilon_1 = 1 *)
Theorem C87_double_well : forall root L P p phi0,
  root_spec root -> root_total root -> L <> 0 -> 1 < p <= 2^50 -> 0 < phi0 <= 2^51 ->
  P = DoubleWell p phi0 \/ (P = DoubleWell4 phi0 /\ p = 4) ->
  exists e, phi_end root P L = Ok e /\ 0 < e < phi0 /\ forall phi, 0 < phi < phi0 -> (eps1V P phi = 1 <-> phi = e).
Proof.
  intros root L P p phi0 HR HT HL Hp H0 HP. pose proof EPS_small as HE.
  assert (PE : phi_end root P L = root (fun phi => dw_eps1 p phi0 phi - 1) (EPS * phi0) phi0) by (destruct HP as [->|[-> ->]]; reflexivity).
  assert (EV : forall phi, eps1V P phi = dw_eps1 p phi0 phi) by (destruct HP as [->|[-> ->]]; reflexivity).
  assert (B : 0 < EPS * phi0 < phi0) by (split; [apply Rmult_lt_0_compat; lra|nra]).
  destruct (HT (fun phi => dw_eps1 p phi0 phi - 1) (EPS * phi0) phi0) as [e He].
  - lra.
  - apply dw_cont; lra.
  - rewrite dw_upper by lra. pose proof (dw_lower p phi0 ltac:(lra) H0). lra.
  - exists e. rewrite PE. split; [exact He|]. apply HR in He. destruct He as [E1 [E2 E3]].
    rewrite Rmin_left in E2 by lra. rewrite Rmax_right in E3 by lra.
    assert (EN : e <> phi0) by (intros ->; rewrite dw_upper in E1 by lra; lra).
    split; [lra|]. intros phi Hphi. rewrite EV. split; [|intros ->; lra]. intros H.
    destruct (Rtotal_order phi e) as [C|[C|C]]; [|exact C|].
    + pose proof (dw_decr p phi0 phi e ltac:(lra) ltac:(lra) ltac:(lra) C ltac:(lra)). lra.
    + pose proof (dw_decr p phi0 e phi ltac:(lra) ltac:(lra) ltac:(lra) C ltac:(lra)). lra.
Qed.

(** C87: likewise for radion gauge inflation with 10^-3 <= p <= 2^52 and alpha >= 2^-51 *)
Theorem C87_radion : forall root L p alpha,
  root_spec root -> root_total root -> L <> 0 -> / 10^3 <= p <= 2^52 -> / 2^51 <= alpha ->
  exists e, phi_end root (RadionGauge p alpha) L = Ok e /\ 0 < e /\
    forall phi, 0 < phi -> (eps1V (RadionGauge p alpha) phi = 1 <-> phi = e).
Proof.
  intros root L p alpha HR HT HL Hp Hal.
  assert (A0 : 0 < / 2^51) by (apply Rinv_0_lt_compat, pow_lt; lra).
  assert (P0 : 0 < / 10^3) by (apply Rinv_0_lt_compat, pow_lt; lra).
  assert (D0 : 0 < / 10^30 < 1) by lra.
  destruct (rg_upper p alpha L ltac:(lra) Hal HL) as [U1 U2]. pose proof (rg_lower p alpha ltac:(lra) Hal) as U3.
  destruct (HT (fun phi => rg_eps1 p alpha phi - 1) (/ 10^30) (rg_inv_V p alpha L (L^4 * (1 - EPS)))) as [e He].
  - lra.
  - apply rg_cont; lra.
  - nra.
  - exists e. split; [exact He|].
    destruct (phi_end_spec root (RadionGauge p alpha) L e HR I ltac:(simpl; lra) HL He) as [E0 E1].
    split; [exact E0|]. intros phi Hphi. split; [|intros ->; exact E1]. intros H.
    assert (ND : forall p' phi0', RadionGauge p alpha = DoubleWell p' phi0' -> 1 <= p') by discriminate.
    destruct (Rtotal_order phi e) as [C|[C|C]]; [|exact C|].
    + pose proof (eps1_decr (RadionGauge p alpha) phi e I ltac:(simpl; lra) ND Hphi E0 C). lra.
    + pose proof (eps1_decr (RadionGauge p alpha) e phi I ltac:(simpl; lra) ND E0 Hphi C). lra.
Qed.

(** C87: and the field value N e-folds before the end is found for every 0 <= N <= 900 when
    p <= 10^6 and alpha >= 2 * 10^-15 *)
Theorem C87_radion_N2phi : forall root W L p alpha N,
  root_spec root -> root_total root -> L <> 0 -> / 10^3 <= p <= 10^6 -> 2 * / 10^15 <= alpha -> 0 <= N <= 900 ->
  exists phi, sr_N2phi root W (RadionGauge p alpha) L N = Ok phi.
Proof.
  intros root W L p alpha N HR HT HL Hp Hal HN.
  assert (P0 : 0 < / 10^3) by (apply Rinv_0_lt_compat, pow_lt; lra).
  assert (D0 : 0 < / 10^15 < / 10) by lra.
  destruct (C87_radion root L p alpha HR HT HL ltac:(lra) ltac:(lra)) as [e [He [E0 EU]]].
  set (d := / 10^15) in *. set (u := rg_inv_V p alpha L (L^4 * (1 - d))).
  assert (Hal0 : 0 < alpha) by lra.
  assert (UP : pypow u p = alpha * (1 - d) / d) by (apply rg_inv_val; lra).
  assert (U0 : 0 < u) by (apply rg_inv_pos; lra).
  assert (U1 : 1 <= u).
  { apply (pow_ge1 u p); try lra. rewrite UP. apply Rmult_le_reg_r with d; [lra|]. replace (alpha * (1 - d) / d * d) with (alpha * (1 - d)) by (field; lra). nra. }
  (* e is bounded *)
  assert (EE : eps1V (RadionGauge p alpha) e = 1) by (apply EU; auto). simpl in EE. unfold rg_eps1 in EE.
  pose proof (pypow_gt0 e p E0) as EP. set (X := pypow e p) in *.
  assert (SQ : (e * (alpha + X)) * (e * (alpha + X)) * 2 = (alpha * p) * (alpha * p)).
  { apply (Rmult_eq_compat_r (2 * e^2 * (alpha + X)^2)) in EE. replace (alpha^2 * p^2 / (2 * e^2 * (alpha + X)^2) * (2 * e^2 * (alpha + X)^2)) with ((alpha * p) * (alpha * p)) in EE by (field; lra). nra. }
  assert (EB : e * (alpha + X) < alpha * p).
  { destruct (Rlt_dec (e * (alpha + X)) (alpha * p)) as [h|h]; [exact h|]. exfalso. assert (0 < alpha * p) by (apply Rmult_lt_0_compat; lra). nra. }
  assert (Ep : e < p) by (apply Rmult_lt_reg_l with alpha; [lra|]; nra).
  assert (EX : X * e^2 < alpha * p^2).
  { assert (X * e < alpha * p) by nra. assert (X * e * e < alpha * p * p); [|nra]. apply Rmult_gt_0_lt_compat; try lra. apply Rmult_lt_0_compat; lra. }
  assert (UD : pypow u p = alpha * (10^15 - 1)) by (rewrite UP; unfold d; field).
  assert (LT : e < u).
  { destruct (Rlt_dec e u) as [h|h]; [exact h|]. exfalso. apply Rnot_lt_le in h.
    assert (pypow u p <= X). { destruct h as [h|h]; [left; apply pow_lt_base; lra|subst u; rewrite h; apply Rle_refl]. }
    assert (X * e^2 >= alpha * (10^15 - 1) * e^2) by (apply Rle_ge; apply Rmult_le_compat_r; [nra|lra]).
    assert (1 <= e^2) by nra.
    assert (alpha * (10^15 - 1) < alpha * p^2) by nra.
    assert (10^15 - 1 < p^2) by (apply Rmult_lt_reg_l with alpha; lra).
    assert (X < alpha * p). { assert (X * 1 <= X * e) by (apply Rmult_le_compat_l; lra). nra. }
    assert (10^15 - 1 < p) by (apply Rmult_lt_reg_l with alpha; [lra|]; lra). lra. }
  destruct (HT (fun phi => rg_phi2N p alpha e phi - N) e u) as [r Hr].
  - exact LT.
  - apply (cont_on_ext _ (fun phi => (exp ((p+2) * ln phi) - pypow e (p+2) + (phi^2 - e^2) * (alpha*p/2 + alpha)) / (alpha * p * (p+2)) - N)).
    + intros x Hx. apply (ex_derive_continuous (fun phi : R => (exp ((p+2) * ln phi) - pypow e (p+2) + (phi^2 - e^2) * (alpha*p/2 + alpha)) / (alpha * p * (p+2)) - N)).
      auto_derive. lra.
    + intros x Hx. unfold rg_phi2N. rewrite (pypow_pos x) by lra. reflexivity.
  - assert (Z : rg_phi2N p alpha e e = 0) by (unfold rg_phi2N, Rdiv; ring). rewrite Z.
    assert (G : 900 <= rg_phi2N p alpha e u).
    { unfold rg_phi2N. assert (PP : forall x, 0 < x -> pypow x (p + 2) = pypow x p * x^2) by (intros x Hx; apply pypow_p2; left; exact Hx).
      rewrite !PP by assumption. fold X. rewrite UD.
      assert (AP : 0 < alpha * p) by (apply Rmult_lt_0_compat; lra).
      assert (M : 0 < alpha * p * (p + 2)) by (apply Rmult_lt_0_compat; lra).
      apply Rmult_le_reg_r with (alpha * p * (p + 2)); [exact M|].
      match goal with |- _ <= ?a / ?b * ?b => replace (a / b * b) with a by (field; lra) end.
      assert (S1 : 0 <= (u^2 - e^2) * (alpha * p / 2 + alpha)) by (apply Rmult_le_pos; nra).
      assert (S2 : alpha * (10^15 - 1) * 1 <= alpha * (10^15 - 1) * u^2) by (apply Rmult_le_compat_l; nra).
      assert (S3 : 900 * (p * (p + 2)) <= 10^15 - 1 - p^2) by nra.
      assert (S4 : alpha * (900 * (p * (p + 2))) <= alpha * (10^15 - 1 - p^2)) by (apply Rmult_le_compat_l; lra).
      nra. }
    nra.
  - exists r. unfold sr_N2phi. rewrite He. cbn [bind]. exact Hr.
Qed.
(** the hypotheses hold for an ordinary case *)
Theorem C87_nonvacuous : exists root e1 e2 phi, root_spec root /\ root_total root /\
  phi_end root (DoubleWell 3 20) 1 = Ok e1 /\ phi_end root (RadionGauge 1 (1/10)) 1 = Ok e2 /\
  sr_N2phi root (fun x => x) (RadionGauge 1 (1/10)) 1 60 = Ok phi.
Proof.
  destruct C87_root_finder_exists as [root [HR HT]].
  destruct (C87_double_well root 1 (DoubleWell 3 20) 3 20 HR HT ltac:(lra) ltac:(lra) ltac:(lra) (or_introl eq_refl)) as [e1 [H1 _]].
  destruct (C87_radion root 1 1 (1/10) HR HT ltac:(lra) ltac:(lra) ltac:(lra)) as [e2 [H2 _]].
  destruct (C87_radion_N2phi root (fun x => x) 1 1 (1/10) 60 HR HT ltac:(lra) ltac:(lra) ltac:(lra) ltac:(lra)) as [phi H3].
  exists root, e1, e2, phi. auto.
Qed.

(** C88: phi_end separates slow-roll inflation from its end: on the branch, epsilon_1V < 1 exactly
    above phi_end, and sr_phi2N counts a positive number of e-folds exactly there. *)
Theorem C88_phi_end_is_boundary : forall root P L e phi,
  root_spec root -> featureless P -> valid P -> L <> 0 -> P <> DoubleWell 1 (sqrt 2) ->
  (forall p phi0, P = DoubleWell p phi0 -> 1 <= p) ->
  phi_end root P L = Ok e -> branch P phi ->
  (eps1V P phi < 1 <-> e < phi) /\ (1 < eps1V P phi <-> phi < e) /\
  exists N, sr_phi2N root P L phi = Ok N /\ (0 < N <-> eps1V P phi < 1).
Proof.
  intros root P L e phi HR HF HV HL HN HD HE HB.
  destruct (phi_end_spec root P L e HR HF HV HL HE) as [E0 E1].
  pose proof (phi_end_branch root P L e HR HF HV HL HN HE) as BE.
  assert (A : phi < e -> 1 < eps1V P phi) by (intros C; rewrite <- E1; apply eps1_decr; assumption).
  assert (B : e < phi -> eps1V P phi < 1) by (intros C; rewrite <- E1; apply eps1_decr; assumption).
  assert (T : eps1V P phi < 1 <-> e < phi).
  { split; [|exact B]. intros H. destruct (Rtotal_order phi e) as [C|[C|C]]; [apply A in C; lra|subst; lra|exact C]. }
  split; [exact T|]. split.
  { split; [|exact A]. intros H. destruct (Rtotal_order phi e) as [C|[C|C]]; [exact C|subst; lra|apply B in C; lra]. }
  exists (Nfun P e phi). split; [exact (Nfun_ok root P L e phi HE)|]. rewrite T.
  pose proof (Nfun_end root P L e HF HV HE) as Z.
  split; intros H.
  - destruct (Rtotal_order phi e) as [C|[C|C]]; [|subst; lra|exact C].
    pose proof (Nfun_incr P e phi e HF HV HB BE C). lra.
  - rewrite <- Z. apply Nfun_incr; assumption.
Qed.
Theorem C88_nonvacuous : featureless (Natural 5) /\ valid (Natural 5) /\ Natural 5 <> DoubleWell 1 (sqrt 2) /\
  (exists e, phi_end (fun _ _ _ => Raise ValueError) (Natural 5) 1 = Ok e) /\ branch (Natural 5) 4.
Proof. simpl. repeat match goal with |- _ /\ _ => split end; try exact I; try lra; try discriminate. eexists; reflexivity. Qed.
