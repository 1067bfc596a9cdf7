(** C124: what the error about a rejected start says, and whether its advice works. *)
From Coq Require Import Reals List String Bool Lra Lia.
From Coquelicot Require Import Coquelicot.
From Verif Require Import Base Model.Float Model.Potentials Model.SlowRoll Model.Equations Model.Background Model.Solution Model.InitCond Model.ErrorText
  Spec.PotentialSpec Proofs.BaseLemmas Proofs.FloatLemmas Proofs.BackgroundEx Properties.InitProps.
Import ListNotations.
Open Scope R_scope.
Open Scope string_scope.

Lemma aH2_fin (V c n K : R) : c <> 0 -> fsub (fmul (fdiv (Fin V) (Fin c)) (fexp (Fin (2 * n)))) (Fin K) = Fin (V / c * exp (2 * n) - K).
Proof. intros H. rewrite fdiv_fin by exact H. reflexivity. Qed.

(** an error text exists exactly when the construction raises InflationStartError *)
Theorem C124_raised : forall fs fg q phi t eta xe kw,
  (sr_init q phi t eta xe kw = Raise InflationStartError <-> sr_error fs fg q phi kw <> None) /\
  (is_init q phi t eta xe kw = Raise InflationStartError <-> is_error fs fg q phi kw <> None).
Proof.
  intros fs fg q phi t eta xe [n o]. unfold sr_init, is_init, sr_error, is_error. cbn [kw_N kw_O]. destruct n as [n|], o as [o|].
  - split; split; intros; try discriminate; congruence.
  - split; (destruct (flt _ _); cbn [bind]; split; [intros _; discriminate|reflexivity|destruct q; discriminate|congruence]).
  - split; (destruct (flt _ _); [destruct (feq _ _)|]; cbn [bind]; split; try discriminate; try congruence; try (destruct q; discriminate); reflexivity).
  - split; split; intros; try discriminate; congruence.
Qed.

(** with N_i: only closed universes are rejected (for a non-negative potential), the text says so, and the number it prints
    is negative, as the text claims *)
Theorem C124_closed : forall fs fg q phi n g m, 0 <= pV (ie_U q) phi -> ie_K q = 1 \/ ie_K q = 0 \/ ie_K q = -1 ->
  (sr_error fs fg q phi (kw_of (InN n)) = Some (g, m) -> ie_K q = 1 /\ g = "closed" /\
     exists x, x = pV (ie_U q) phi / 3 * exp (2 * n) - 1 /\ x < 0 /\
       m = "Inflation start condition for closed universes is violated. V_i / 3 * exp(2 N_i) - 1 = " ++ fs (Fin x) ++ " < 0 but needs to be > 0. Increase either N_i or phi_i.") /\
  (is_error fs fg q phi (kw_of (InN n)) = Some (g, m) -> ie_K q = 1 /\ g = "closed" /\
     exists x, x = pV (ie_U q) phi / 2 * exp (2 * n) - 1 /\ x < 0 /\
       m = "Inflation start condition for closed universes is violated. V_i / 2 * exp(2 N_i) - 1 = " ++ fs (Fin x) ++ " < 0 but needs to be > 0. Increase either N_i or phi_i.").
Proof.
  intros fs fg q phi n g m HV HK. unfold sr_error, is_error. cbn [kw_of kw_N kw_O]. rewrite !aH2_fin by lra. pose proof (exp_pos (2 * n)) as EP.
  set (V := pV (ie_U q) phi) in *. assert (NN : forall c, 0 < c -> 0 <= V / c * exp (2 * n)) by (intros c Hc; apply Rmult_le_pos; [apply Rmult_le_pos; [lra|left; apply Rinv_0_lt_compat; lra]|lra]).
  split.
  - destruct (flt _ _) eqn:F; [|discriminate]. apply flt_iff in F. intros E. injection E as <- <-. pose proof (NN 3 ltac:(lra)) as X. assert (K1 : ie_K q = 1) by lra. rewrite K1 in *.
    split; [reflexivity|]. split; [reflexivity|]. exists (V / 3 * exp (2 * n) - 1). split; [reflexivity|]. split; [exact F|reflexivity].
  - destruct (flt _ _) eqn:F; [|discriminate]. apply flt_iff in F. intros E. injection E as <- <-. pose proof (NN 2 ltac:(lra)) as X. assert (K1 : ie_K q = 1) by lra. rewrite K1 in *.
    split; [reflexivity|]. split; [reflexivity|]. exists (V / 2 * exp (2 * n) - 1). split; [reflexivity|]. split; [exact F|reflexivity].
Qed.
(** which number is printed, for every potential (also a negative one) and every curvature: InflationStartIC prints what
    its text announces, V/2 exp(2 N_i) - 1, although it tests with the curvature; SlowRollIC prints the tested number, so
    for a flat universe not the announced one *)
Theorem C124_printed : forall fs fg q phi n g m,
  (is_error fs fg q phi (kw_of (InN n)) = Some (g, m) -> pV (ie_U q) phi / 2 * exp (2 * n) < ie_K q /\
     m = "Inflation start condition for closed universes is violated. V_i / 2 * exp(2 N_i) - 1 = " ++ fs (Fin (pV (ie_U q) phi / 2 * exp (2 * n) - 1)) ++ " < 0 but needs to be > 0. Increase either N_i or phi_i.") /\
  (sr_error fs fg q phi (kw_of (InN n)) = Some (g, m) -> pV (ie_U q) phi / 3 * exp (2 * n) < ie_K q /\
     m = "Inflation start condition for closed universes is violated. V_i / 3 * exp(2 N_i) - 1 = " ++ fs (Fin (pV (ie_U q) phi / 3 * exp (2 * n) - ie_K q)) ++ " < 0 but needs to be > 0. Increase either N_i or phi_i.").
Proof.
  intros fs fg q phi n g m. unfold sr_error, is_error. cbn [kw_of kw_N kw_O]. rewrite !aH2_fin by lra. split.
  - destruct (flt _ _) eqn:F; [|discriminate]. apply flt_iff in F. intros E. injection E as <- <-. split; [lra|reflexivity].
  - destruct (flt _ _) eqn:F; [|discriminate]. apply flt_iff in F. intros E. injection E as <- <-. split; [lra|reflexivity].
Qed.
(** the error made directly: without the keyword the text speaks of all types of universes, with it of the given one; the
    attributes geometry and message hold the two parts *)
Theorem C124_direct : forall message g,
  start_error message None = ("all types of", "Inflation start condition for all types of universes is violated. " ++ message) /\
  start_error message (Some g) = (g, "Inflation start condition for " ++ g ++ " universes is violated. " ++ message).
Proof.
  intros message g. split; [reflexivity|]. unfold start_error. f_equal.
  assert (AP : forall a b c : string, (a ++ b) ++ c = a ++ b ++ c) by (induction a as [|x a IH]; intros; cbn; [reflexivity|rewrite IH; reflexivity]).
  rewrite !AP. reflexivity.
Qed.
(** with Omega_Ki: the text always speaks of open universes and quotes the value given *)
Theorem C124_open : forall fs fg q phi o g m,
  (sr_error fs fg q phi (kw_of (InO o)) = Some (g, m) \/ is_error fs fg q phi (kw_of (InO o)) = Some (g, m)) -> 1 <= o /\ g = "open" /\
  m = "Inflation start condition for open universes is violated. Primordial curvature for open universes has to be Omega_Ki < 1, but Omega_Ki = " ++ fg (Fin o) ++ " was requested.".
Proof.
  intros fs fg q phi o g m. unfold sr_error, is_error. cbn [kw_of kw_N kw_O]. destruct (flt (Fin o) (Fin 1)) eqn:F; [intros [E|E]; discriminate|].
  intros E. assert (E' : Some (start_error ("Primordial curvature for open universes has to be Omega_Ki < 1, but Omega_Ki = " ++ fg (Fin o) ++ " was requested.") (Some "open")) = Some (g, m)) by (destruct E; assumption).
  injection E' as <- <-. split; [|split; reflexivity].
  destruct (Rle_dec 1 o) as [X|X]; [exact X|]. assert (flt (Fin o) (Fin 1) = true) by (apply flt_iff; lra). congruence.
Qed.
(** ... also in closed and flat universes: the geometry named need not be the geometry of the universe *)
Theorem C124_geometry_refuted : forall fs fg U phi t eta xe te,
  exists m1 m2, sr_init (IT 1 U te) phi t eta xe (kw_of (InO 2)) = Raise InflationStartError /\ sr_error fs fg (IT 1 U te) phi (kw_of (InO 2)) = Some ("open", m1) /\
    is_init (IT 0 U te) phi t eta xe (kw_of (InO 2)) = Raise InflationStartError /\ is_error fs fg (IT 0 U te) phi (kw_of (InO 2)) = Some ("open", m2).
Proof.
  intros. assert (F : flt (Fin 2) (Fin 1) = false). { destruct (flt (Fin 2) (Fin 1)) eqn:F; [apply flt_iff in F; lra|reflexivity]. }
  assert (G : forall q, guarded 3 (ie_K q) (pV (ie_U q) phi) (InO 2) /\ guarded 2 (ie_K q) (pV (ie_U q) phi) (InO 2)) by (intros; cbn; lra).
  eexists. eexists. split; [apply (proj1 (C33_guards (IT 1 U te) phi t eta xe (InO 2))); apply (G (IT 1 U te))|]. split; [unfold sr_error; cbn [kw_of kw_N kw_O]; rewrite F; reflexivity|].
  split; [apply (proj2 (C33_guards (IT 0 U te) phi t eta xe (InO 2))); apply (G (IT 0 U te))|]. unfold is_error; cbn [kw_of kw_N kw_O]; rewrite F; reflexivity.
Qed.

(** ** "Increase either N_i or phi_i." *)
Lemma accepted q phi t eta xe n :
  (~ guarded 3 (ie_K q) (pV (ie_U q) phi) (InN n) -> exists ic, sr_init q phi t eta xe (kw_of (InN n)) = Ok ic) /\
  (~ guarded 2 (ie_K q) (pV (ie_U q) phi) (InN n) -> exists ic, is_init q phi t eta xe (kw_of (InN n)) = Ok ic).
Proof.
  destruct (C33_guards q phi t eta xe (InN n)) as [[G1 _] [G2 _]].
  split; intros B.
  - unfold sr_init in *. cbn [kw_of kw_N kw_O] in *. destruct (flt _ _); [exfalso; apply B, G1; reflexivity|]. cbn [bind]. destruct q; eexists; reflexivity.
  - unfold is_init in *. cbn [kw_of kw_N kw_O] in *. destruct (flt _ _); [exfalso; apply B, G2; reflexivity|]. cbn [bind]. eexists; reflexivity.
Qed.
(** a later start is accepted, from a definite N_i on *)
Theorem C124_more_efolds : forall q phi t eta xe n, 0 < pV (ie_U q) phi ->
  (sr_init q phi t eta xe (kw_of (InN n)) = Raise InflationStartError -> exists N0, n < N0 /\ forall n', N0 <= n' -> exists ic, sr_init q phi t eta xe (kw_of (InN n')) = Ok ic) /\
  (is_init q phi t eta xe (kw_of (InN n)) = Raise InflationStartError -> exists N0, n < N0 /\ forall n', N0 <= n' -> exists ic, is_init q phi t eta xe (kw_of (InN n')) = Ok ic).
Proof.
  intros q phi t eta xe n HV. destruct (C33_guards q phi t eta xe (InN n)) as [[G1 _] [G2 _]].
  assert (W : forall c, 0 < c -> guarded c (ie_K q) (pV (ie_U q) phi) (InN n) -> n < ln (c * ie_K q / pV (ie_U q) phi) / 2 /\
    forall n', ln (c * ie_K q / pV (ie_U q) phi) / 2 <= n' -> ~ guarded c (ie_K q) (pV (ie_U q) phi) (InN n')).
  { cbn [guarded]. set (V := pV (ie_U q) phi) in *. set (K := ie_K q) in *. intros c Hc G.
    assert (VC : 0 < V / c) by (apply Rdiv_lt_0_compat; lra). pose proof (exp_pos (2 * n)) as EP.
    assert (KP : 0 < K) by (assert (0 < V / c * exp (2 * n)) by (apply Rmult_lt_0_compat; lra); lra).
    assert (Q : 0 < c * K / V) by (apply Rdiv_lt_0_compat; [apply Rmult_lt_0_compat; lra|exact HV]).
    assert (EX : exp (2 * n) < c * K / V).
    { apply Rmult_lt_reg_l with (V / c); [exact VC|]. replace (V / c * (c * K / V)) with K by (field; lra). lra. }
    split.
    - apply ln_increasing in EX; [|exact EP]. rewrite ln_exp in EX. lra.
    - intros n' Hn Gn. assert (exp (ln (c * K / V)) <= exp (2 * n')) as X by (destruct (Rle_lt_or_eq_dec _ _ Hn) as [Y|Y]; [left; apply exp_increasing; lra|right; f_equal; lra]).
      rewrite exp_ln in X by exact Q. apply (Rmult_le_compat_l (V / c)) in X; [|lra]. replace (V / c * (c * K / V)) with K in X by (field; lra). lra. }
  split; intros E.
  - destruct (W 3 ltac:(lra) (G1 E)) as [A B]. eexists. split; [exact A|]. intros n' Hn. apply accepted, B, Hn.
  - destruct (W 2 ltac:(lra) (G2 E)) as [A B]. eexists. split; [exact A|]. intros n' Hn. apply accepted, B, Hn.
Qed.
(** the monomial potentials grow without bound, so a larger field is accepted as well *)
Definition monomial (P : pot) : Prop := match P with Monomial p => 0 < p | Linear | Quadratic | Cubic | Quartic => True | _ => False end.
Lemma L4_pos L : L <> 0 -> 0 < L^4.
Proof. intros H. replace (L^4) with ((L^2)^2) by ring. apply pow2_gt_0. apply Rgt_not_eq, pow2_gt_0, H. Qed.
Lemma mono_grows p L M : 0 < p -> L <> 0 -> exists x0, 0 < x0 /\ forall x, x0 <= x -> M <= mono_V p L x.
Proof.
  intros Hp HL. pose proof (L4_pos L HL) as LP. set (M' := Rmax 1 (M / L^4)). assert (M1 : 1 <= M') by apply Rmax_l. assert (M2 : M / L^4 <= M') by apply Rmax_r.
  exists (Rpower M' (/ p)). split; [apply exp_pos|]. intros x Hx. unfold mono_V. pose proof (exp_pos (/ p * ln M')) as XP. fold (Rpower M' (/ p)) in XP.
  rewrite Rabs_right by lra. rewrite pypow_pos by lra.
  apply Rle_trans with (L^4 * M').
  - apply (Rmult_le_compat_l (L^4)) in M2; [|lra]. replace (L^4 * (M / L^4)) with M in M2 by (field; exact HL). exact M2.
  - apply Rmult_le_compat_l; [lra|]. replace M' with (Rpower (Rpower M' (/ p)) p) at 1.
    + apply Rle_Rpower_l; [lra|split; [exact XP|exact Hx]].
    + rewrite Rpower_mult. replace (/ p * p) with 1 by (field; lra). apply Rpower_1. lra.
Qed.
Theorem C124_larger_field : forall P L q t eta xe n, monomial P -> L <> 0 -> ie_U q = potfun_of P L ->
  exists phi0, forall phi, phi0 <= phi ->
    (exists ic, sr_init q phi t eta xe (kw_of (InN n)) = Ok ic) /\ (exists ic, is_init q phi t eta xe (kw_of (InN n)) = Ok ic).
Proof.
  intros P L q t eta xe n HM HL HU. pose proof (exp_pos (2 * n)) as EP. pose proof (L4_pos L HL) as LP.
  assert (G : exists x0, 0 < x0 /\ forall x, x0 <= x -> 3 * Rabs (ie_K q) / exp (2 * n) <= V P L x).
  { destruct P; try contradiction; cbn in HM; unfold V.
    - apply mono_grows; assumption.
    - apply mono_grows; [lra|assumption].
    - set (M := 3 * Rabs (ie_K q) / exp (2 * n)). unfold quad_V. exists (Rmax 1 (M / L^4)). pose proof (Rmax_l 1 (M / L^4)). pose proof (Rmax_r 1 (M / L^4)) as M2. split; [lra|].
      intros x Hx. assert (X : M / L^4 <= x^2) by nra. apply (Rmult_le_compat_l (L^4)) in X; [|lra]. replace (L^4 * (M / L^4)) with M in X by (field; exact HL). exact X.
    - apply mono_grows; [lra|assumption].
    - apply mono_grows; [lra|assumption]. }
  destruct G as (x0 & X0 & G). exists x0. intros phi Hp. specialize (G phi Hp).
  apply (Rmult_le_compat_r (exp (2 * n))) in G; [|lra]. replace (3 * Rabs (ie_K q) / exp (2 * n) * exp (2 * n)) with (3 * Rabs (ie_K q)) in G by (field; lra).
  pose proof (Rle_abs (ie_K q)) as RA. pose proof (Rabs_pos (ie_K q)) as RP.
  assert (HVV : pV (ie_U q) phi = V P L phi) by (rewrite HU; reflexivity).
  split; apply accepted; cbn [guarded]; rewrite HVV; lra.
Qed.
(** every other potential is bounded by Lambda^4 on its branch ... *)
Lemma pow_lt_1 x y : 0 < x < 1 -> 0 < y -> 0 < pypow x y < 1.
Proof.
  intros Hx Hy. rewrite pypow_pos by lra. split; [apply exp_pos|]. unfold Rpower. rewrite <- exp_0. apply exp_increasing.
  assert (ln x < 0) by (rewrite <- ln_1; apply ln_increasing; lra). nra.
Qed.
Lemma bounded_V P L phi : featureless P -> valid P -> ~ monomial P -> branch P phi -> V P L phi <= L^4.
Proof.
  intros HF HV HM HB. assert (L4 : 0 <= L^4) by (replace (L^4) with ((L^2)^2) by ring; apply pow2_ge_0).
  assert (F : forall f, f <= 1 -> L^4 * f <= L^4) by (intros f Hf; rewrite <- (Rmult_1_r (L^4)) at 2; apply Rmult_le_compat_l; assumption).
  assert (SQ : forall z, 0 < z < 1 -> (1 - z)^2 <= 1) by (intros z Hz; nra).
  destruct P; cbn in HF, HV, HM, HB; try contradiction; try (exfalso; apply HM; exact I || assumption); unfold V.
  - unfold star_V. apply F, SQ. split; [apply exp_pos|]. rewrite <- exp_0. apply exp_increasing.
    assert (0 < gamma) by (unfold gamma; apply sqrt_lt_R0; lra). nra.
  - unfold nat_V. pose proof (COS_bound (PI * phi / phi0)). replace (L^4 / 2 * (1 - cos (PI * phi / phi0))) with (L^4 * ((1 - cos (PI * phi / phi0)) / 2)) by field. apply F. lra.
  - unfold dw_V, dw_x. apply F, SQ, pow_lt_1; [|lra]. assert (0 < phi / phi0) by (apply Rdiv_lt_0_compat; lra). assert (phi / phi0 < 1) by (apply Rmult_lt_reg_r with phi0; [lra|unfold Rdiv; rewrite Rmult_assoc, Rinv_l; lra]). lra.
  - unfold dw_V, dw_x. apply F, SQ, pow_lt_1; [|lra]. assert (0 < phi / phi0) by (apply Rdiv_lt_0_compat; lra). assert (phi / phi0 < 1) by (apply Rmult_lt_reg_r with phi0; [lra|unfold Rdiv; rewrite Rmult_assoc, Rinv_l; lra]). lra.
  - unfold dw_V, dw_x. apply F, SQ, pow_lt_1; [|lra]. assert (0 < phi / phi0) by (apply Rdiv_lt_0_compat; lra). assert (phi / phi0 < 1) by (apply Rmult_lt_reg_r with phi0; [lra|unfold Rdiv; rewrite Rmult_assoc, Rinv_l; lra]). lra.
  - unfold tm_V. apply F. left. apply pow_lt_1; [|lra]. unfold tm_C. assert (0 < s_6_a alpha) by (unfold s_6_a; apply sqrt_lt_R0; lra).
    assert (X : 0 < phi / s_6_a alpha) by (apply Rdiv_lt_0_compat; lra). set (x := phi / s_6_a alpha) in *. unfold tanh, sinh, cosh.
    pose proof (exp_pos x) as E1. pose proof (exp_pos (- x)) as E2. assert (E3 : exp (- x) < exp x) by (apply exp_increasing; lra).
    replace ((exp x - exp (- x)) / 2 / ((exp x + exp (- x)) / 2)) with ((exp x - exp (- x)) / (exp x + exp (- x))) by (field; lra).
    split; [apply Rdiv_lt_0_compat; lra|]. apply Rmult_lt_reg_r with (exp x + exp (- x)); [lra|]. unfold Rdiv. rewrite Rmult_assoc, Rinv_l; lra.
  - unfold rg_V. pose proof (pypow_gt0 phi p HB) as E. set (x := pypow phi p) in *. replace (L^4 * x / (alpha + x)) with (L^4 * (x / (alpha + x))) by (field; lra). apply F.
    apply Rmult_le_reg_r with (alpha + x); [lra|]. unfold Rdiv. rewrite Rmult_assoc, Rinv_l; lra.
  - unfold rg_V. pose proof (pypow_gt0 phi 2 HB) as E. set (x := pypow phi 2) in *. replace (L^4 * x / (alpha + x)) with (L^4 * (x / (alpha + x))) by (field; lra). apply F.
    apply Rmult_le_reg_r with (alpha + x); [lra|]. unfold Rdiv. rewrite Rmult_assoc, Rinv_l; lra.
Qed.
(** ... so no field value at all helps when the start is early enough, although the text advises to increase phi_i *)
Theorem C124_field_advice_refuted : forall fs fg P L q t eta xe n, featureless P -> valid P -> ~ monomial P -> ie_U q = potfun_of P L ->
  L^4 / 2 * exp (2 * n) < ie_K q ->
  forall phi, branch P phi ->
    sr_init q phi t eta xe (kw_of (InN n)) = Raise InflationStartError /\ is_init q phi t eta xe (kw_of (InN n)) = Raise InflationStartError /\
    exists m1 m2, sr_error fs fg q phi (kw_of (InN n)) = Some ("closed", m1) /\ is_error fs fg q phi (kw_of (InN n)) = Some ("closed", m2) /\
      (exists s, m1 = s ++ " < 0 but needs to be > 0. Increase either N_i or phi_i.") /\ (exists s, m2 = s ++ " < 0 but needs to be > 0. Increase either N_i or phi_i.").
Proof.
  intros fs fg P L q t eta xe n HF HV HM HU HK phi HB. pose proof (bounded_V P L phi HF HV HM HB) as BV. pose proof (exp_pos (2 * n)) as EP.
  assert (L4 : 0 <= L^4) by (replace (L^4) with ((L^2)^2) by ring; apply pow2_ge_0).
  assert (HVV : pV (ie_U q) phi = V P L phi) by (rewrite HU; reflexivity).
  assert (G2 : V P L phi / 2 * exp (2 * n) - ie_K q < 0) by (assert (V P L phi / 2 * exp (2 * n) <= L^4 / 2 * exp (2 * n)) by (apply Rmult_le_compat_r; lra); lra).
  assert (G3 : V P L phi / 3 * exp (2 * n) - ie_K q < 0).
  { assert (X : V P L phi / 3 * exp (2 * n) <= L^4 / 3 * exp (2 * n)) by (apply Rmult_le_compat_r; lra). assert (0 <= L^4 * exp (2 * n)) by (apply Rmult_le_pos; lra). lra. }
  destruct (C33_guards q phi t eta xe (InN n)) as [[_ R1] [_ R2]]. cbn [guarded] in R1, R2. rewrite HVV in R1, R2.
  split; [apply R1, G3|]. split; [apply R2, G2|].
  apply flt_iff in G2, G3. unfold sr_error, is_error. cbn [kw_of kw_N kw_O]. rewrite !aH2_fin by lra. rewrite HVV, G2, G3.
  eexists. eexists. split; [reflexivity|]. split; [reflexivity|]. unfold start_error. cbn [fst snd].
  assert (AP : forall a b c : string, a ++ b ++ c = (a ++ b) ++ c) by (induction a as [|x a IH]; intros; cbn; [reflexivity|rewrite IH; reflexivity]).
  split; eexists; rewrite !AP; reflexivity.
Qed.

(** ** concrete cases *)
Theorem C124_nonvacuous : let q := IT 1 (potfun_of Quadratic 1) true in let qs := IT 1 (potfun_of Starobinsky 1) true in
  0 < pV (ie_U q) (1/2) /\ sr_init q (1/2) None None 1 (kw_of (InN 0)) = Raise InflationStartError /\ (exists ic, sr_init q 2 None None 1 (kw_of (InN 0)) = Ok ic) /\
  featureless Starobinsky /\ valid Starobinsky /\ ~ monomial Starobinsky /\ 1^4 / 2 * exp (2 * 0) < ie_K qs /\ branch Starobinsky 100.
Proof.
  cbv zeta. assert (E : exp (2 * 0) = 1) by (rewrite Rmult_0_r; apply exp_0).
  split; [cbn; unfold quad_V; lra|]. split; [apply C33_guards; cbn [guarded ie_K ie_U potfun_of pV]; unfold V, quad_V; rewrite E; lra|].
  split; [apply accepted; cbn [guarded ie_K ie_U potfun_of pV]; unfold V, quad_V; rewrite E; lra|].
  split; [exact I|]. split; [exact I|]. split; [intros []|]. split; [rewrite E; cbn [ie_K]; lra|cbn; lra].
Qed.
