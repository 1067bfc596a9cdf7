(** The slow-roll expansions of the power spectra as functions of the Hubble-flow parameters:
    properties C49 and C50. *)
From Coq Require Import Reals List String ZArith Bool Lra Lia.
From Coquelicot Require Import Coquelicot.
From Verif Require Import Base Model.Equations Model.Background Model.ApproxPower.
Import ListNotations.
Open Scope R_scope.

(** ** C49: P_t = 16 epsilon_1 P_s at leading order *)
(** exact for the zeroth order amplitudes *)
Theorem C49_leading : forall H e1, e1 <> 0 -> Pt0 H = 16 * e1 * Ps0 H e1.
Proof. intros H e1 He. unfold Pt0, Ps0. field. split; [exact He|exact PI_neq0]. Qed.

(** the tensor-to-scalar ratio of each method at wavenumber k = k_star exp(L), divided by 16 epsilon_1, for flow
    parameters scaled down uniformly by [x] *)
Definition ratio_LLMS (C e1 e2 e3 H L x : R) : R :=
  exp (llms_logP_t C (x * e1) (x * e2) H L) / exp (llms_logP_s C (x * e1) (x * e2) (x * e3) H L) / (16 * (x * e1)).
Definition ratio_STE (C e1 e2 e3 H x : R) : R :=
  (Pt0 H * ste_at0 C (x * e1) (x * e2)) / (Ps0 H (x * e1) * ste_as0 C (x * e1) (x * e2) (x * e3)) / (16 * (x * e1)).
Definition ratio_ARBDS (n : nat) (al Z e1 e2 e3 e4 H L x : R) : R :=
  (Pt0 H * arbds_t al Z (x * e1) (x * e2) (x * e3) n L) / (Ps0 H (x * e1) * arbds_s al Z (x * e1) (x * e2) (x * e3) (x * e4) n L) / (16 * (x * e1)).
Definition ratio_CGS (n : nat) (C : consts) (f : R -> flow) (H x : R) : R :=
  (Pt0 H * cgs_t C (f x) n) / (Ps0 H (fe1 (f x)) * cgs_s C (f x) n) / (16 * fe1 (f x)).
(** every parameter of the flow is of first order: it is [x] times a fixed number *)
Definition scaled (g : flow) (x : R) : flow :=
  mkflow (x * fe1 g) (x * fe2 g) (x * fe3 g) (x * fd1 g) (x * fd2 g) (x * fd3 g) (x * fg2 g) (x * fg3 g).

Lemma lim_ratio (f g : R -> R) (h : R -> R) : (forall x, 0 < x -> h x = f x / g x) -> g 0 = 1 -> f 0 = 1 ->
  continuous f 0 -> continuous g 0 -> filterlim h (at_right 0) (locally 1).
Proof.
  intros E G0 F0 Cf Cg.
  apply (filterlim_ext_loc (fun x => f x / g x)).
  - exists (mkposreal 1 Rlt_0_1). intros y _ Hy. symmetry. apply E, Hy.
  - apply (filterlim_filter_le_1 (F := locally 0)).
    + intros P [d Hd]. exists d. intros y Hy _. apply Hd, Hy.
    + replace (locally 1) with (locally (f 0 / g 0)) by (f_equal; rewrite F0, G0; field).
      apply (continuous_mult f (fun x => / g x)); [exact Cf|].
      apply (continuous_comp g Rinv); [exact Cg|]. apply continuous_Rinv. rewrite G0. lra.
Qed.
Lemma derive_cont (f : R -> R) x l : is_derive f x l -> continuous f x.
Proof. intros H. apply (ex_derive_continuous (K := R_AbsRing) (V := R_NormedModule)). exists l. exact H. Qed.
Ltac cont := eapply derive_cont; auto_derive; [exact I|reflexivity].

Lemma Pt0_pos H : H <> 0 -> 0 < Pt0 H.
Proof. intros h. unfold Pt0. apply Rmult_lt_0_compat; [lra|]. apply pow2_gt_0. apply Rdiv_nonzero || (unfold Rdiv; apply Rmult_integral_contrapositive; split; [exact h|apply Rinv_neq_0_compat, PI_neq0]). Qed.
Lemma Ps0_pos H e1 : H <> 0 -> 0 < e1 -> 0 < Ps0 H e1.
Proof.
  intros h He. unfold Ps0. apply Rdiv_lt_0_compat; [apply pow2_gt_0, h|]. apply Rmult_lt_0_compat; [|exact He].
  apply Rmult_lt_0_compat; [lra|apply pow2_gt_0, PI_neq0].
Qed.

Theorem C49_LLMS : forall C e1 e2 e3 H L, H <> 0 -> 0 < e1 -> filterlim (ratio_LLMS C e1 e2 e3 H L) (at_right 0) (locally 1).
Proof.
  intros C e1 e2 e3 H L HH He.
  apply (lim_ratio (fun x => exp (llms_bt0 C (x * e1) (x * e2) + llms_nt C (x * e1) (x * e2) * L + llms_nt_run (x * e1) (x * e2) / 2 * L^2))
                   (fun x => exp (llms_bs0 C (x * e1) (x * e2) (x * e3) + (llms_ns C (x * e1) (x * e2) (x * e3) - 1) * L + llms_ns_run (x * e1) (x * e2) (x * e3) / 2 * L^2))).
  - intros x Hx. assert (Hxe : 0 < x * e1) by (apply Rmult_lt_0_compat; lra). unfold ratio_LLMS, llms_logP_t, llms_logP_s.
    repeat rewrite Rplus_assoc. rewrite exp_plus. rewrite (exp_plus (ln (Ps0 H (x * e1)))). rewrite !exp_ln by (first [apply Ps0_pos|apply Pt0_pos]; assumption).
    rewrite (C49_leading H (x * e1)) by lra. field. split; [apply Rgt_not_eq, exp_pos|]. split; [|split]; try lra. apply Rgt_not_eq, Ps0_pos; assumption.
  - unfold llms_bs0, llms_ns, llms_ns_run. rewrite <- exp_0. f_equal. field.
  - unfold llms_bt0, llms_nt, llms_nt_run. rewrite <- exp_0. f_equal. field.
  - unfold llms_bt0, llms_nt, llms_nt_run. cont.
  - unfold llms_bs0, llms_ns, llms_ns_run. cont.
Qed.
Lemma ratio_poly H (f g : R -> R) e1 : H <> 0 -> 0 < e1 -> f 0 = 1 -> g 0 = 1 -> continuous f 0 -> continuous g 0 ->
  filterlim (fun x => (Pt0 H * f x) / (Ps0 H (x * e1) * g x) / (16 * (x * e1))) (at_right 0) (locally 1).
Proof.
  intros HH He F0 G0 Cf Cg. apply (lim_ratio f g); try assumption.
  intros x Hx. assert (Hxe : 0 < x * e1) by (apply Rmult_lt_0_compat; lra). rewrite (C49_leading H (x * e1)) by lra.
  assert (P := Ps0_pos H (x * e1) HH Hxe). unfold Rdiv. rewrite !Rinv_mult.
  generalize (/ g x). intros i. field. repeat split; lra.
Qed.
Theorem C49_STE : forall C e1 e2 e3 H, H <> 0 -> 0 < e1 -> filterlim (ratio_STE C e1 e2 e3 H) (at_right 0) (locally 1).
Proof.
  intros C e1 e2 e3 H HH He. apply (ratio_poly H (fun x => ste_at0 C (x * e1) (x * e2)) (fun x => ste_as0 C (x * e1) (x * e2) (x * e3))); try assumption;
    unfold ste_at0, ste_as0; first [field|cont].
Qed.
Theorem C49_ARBDS : forall n al Z e1 e2 e3 e4 H L, H <> 0 -> 0 < e1 ->
  filterlim (ratio_ARBDS n al Z e1 e2 e3 e4 H L) (at_right 0) (locally 1).
Proof.
  intros n al Z e1 e2 e3 e4 H L HH He.
  apply (ratio_poly H (fun x => arbds_t al Z (x * e1) (x * e2) (x * e3) n L) (fun x => arbds_s al Z (x * e1) (x * e2) (x * e3) (x * e4) n L)); try assumption;
    unfold arbds_t, arbds_s, as0_1, as0_2, as0_3, as1_1, as1_2, as1_3, as2_2, as2_3, as3_3, at0_1, at0_2, at0_3, at1_1, at1_2, at1_3, at2_2, at2_3, at3_3;
    destruct n as [|[|[|n]]]; first [field|cont].
Qed.
Theorem C49_CGS : forall n C g H, H <> 0 -> 0 < fe1 g -> filterlim (ratio_CGS n C (scaled g) H) (at_right 0) (locally 1).
Proof.
  intros n C g H HH He.
  apply (ratio_poly H (fun x => cgs_t C (scaled g x) n) (fun x => cgs_s C (scaled g x) n)); try assumption;
    unfold cgs_t, cgs_s, cgs1_t, cgs2_t, cgs3_t, cgs1_s, cgs2_s, cgs3_s, scaled; cbn [fe1 fe2 fe3 fd1 fd2 fd3 fg2 fg3];
    destruct n as [|[|[|n]]]; first [reflexivity|field|cont].
Qed.

(** ** C50: the expansions agree to second order *)
Lemma mvt_pow (f f' : R -> R) M n x : (forall c, is_derive f c (f' c)) -> f 0 = 0 -> Rabs x <= 1 ->
  (forall c, Rabs c <= Rabs x -> Rabs (f' c) <= M * Rabs c ^ n) -> 0 <= M -> Rabs (f x) <= M * Rabs x ^ S n.
Proof.
  intros D F0 Hx B HM. destruct (MVT_gen f 0 x f') as (c & Hc & E).
  - intros c _. apply D.
  - intros c _. apply continuity_pt_filterlim. apply (derive_cont f c _ (D c)).
  - rewrite F0, Rminus_0_r in E. rewrite E, Rminus_0_r, Rabs_mult.
    assert (Hcx : Rabs c <= Rabs x). { revert Hc. unfold Rmin, Rmax. destruct (Rle_dec 0 x); intros ?; unfold Rabs; destruct (Rcase_abs c), (Rcase_abs x); lra. }
    replace (M * Rabs x ^ S n) with (M * Rabs x ^ n * Rabs x) by (simpl; ring).
    apply Rmult_le_compat_r; [apply Rabs_pos|]. eapply Rle_trans; [apply B, Hcx|]. apply Rmult_le_compat_l; [exact HM|].
    apply pow_incr. split; [apply Rabs_pos|exact Hcx].
Qed.
Lemma exp_2nd x : Rabs x <= 1 -> Rabs (exp x - (1 + x + x^2/2)) <= 3 * Rabs x ^ 3.
Proof.
  intros Hx. apply (mvt_pow (fun x => exp x - (1 + x + x^2/2)) (fun x => exp x - (1 + x)) 3 2 x); [|rewrite exp_0; field|exact Hx| |lra].
  { intros c. evar_last; [auto_derive; [exact I|reflexivity]|field]. }
  intros y Hy. apply (mvt_pow (fun x => exp x - (1 + x)) (fun x => exp x - 1) 3 1 y); [|rewrite exp_0; field|lra| |lra].
  { intros c. evar_last; [auto_derive; [exact I|reflexivity]|field]. }
  intros z Hz. apply (mvt_pow (fun x => exp x - 1) exp 3 0 z); [|rewrite exp_0; field|lra| |lra].
  { intros c. evar_last; [auto_derive; [exact I|reflexivity]|field]. }
  intros c Hc. rewrite Rabs_pos_eq by (left; apply exp_pos). simpl. rewrite Rmult_1_r. apply Rle_trans with (exp 1); [|exact exp_le_3].
  assert (c <= 1) by (unfold Rabs in Hc, Hz, Hy, Hx; destruct (Rcase_abs c), (Rcase_abs z), (Rcase_abs y), (Rcase_abs x); lra).
  destruct H as [H| ->]; [left; apply exp_increasing, H|right; reflexivity].
Qed.
(** [F] and [G] have the same Taylor polynomial of second order at 0 *)
Definition agree2 (F G : R -> R) : Prop := exists M d, 0 < d /\ forall x, 0 <= x <= d -> Rabs (F x - G x) <= M * x ^ 3.
Lemma agree2_sym F G : agree2 F G -> agree2 G F.
Proof. intros (M & d & Hd & B). exists M, d. split; [exact Hd|]. intros x Hx. rewrite Rabs_minus_sym. apply B, Hx. Qed.
Lemma agree2_trans F G H : agree2 F G -> agree2 G H -> agree2 F H.
Proof.
  intros (M & d & Hd & B) (M' & d' & Hd' & B'). exists (M + M'), (Rmin d d'). split; [apply Rmin_pos; assumption|]. intros x [Hx0 Hx].
  assert (x <= d) by (eapply Rle_trans; [exact Hx|apply Rmin_l]). assert (x <= d') by (eapply Rle_trans; [exact Hx|apply Rmin_r]).
  replace (F x - H x) with ((F x - G x) + (G x - H x)) by ring. eapply Rle_trans; [apply Rabs_triang|].
  rewrite Rmult_plus_distr_r. apply Rplus_le_compat; [apply B|apply B']; lra.
Qed.
(** a function that is a polynomial with no terms below the third order *)
Lemma agree2_poly F G (c : R -> R) K : (forall x, F x - G x = x^3 * c x) -> (forall x, 0 <= x <= 1 -> Rabs (c x) <= K) -> agree2 F G.
Proof.
  intros E B. exists K, 1. split; [lra|]. intros x Hx. rewrite E, Rabs_mult, (Rabs_pos_eq (x^3)) by (apply pow_le; lra).
  rewrite Rmult_comm. apply Rmult_le_compat_r; [apply pow_le; lra|apply B, Hx].
Qed.
Lemma poly_bound c0 c1 c2 c3 x : 0 <= x <= 1 -> Rabs (c0 + c1 * x + c2 * x^2 + c3 * x^3) <= Rabs c0 + Rabs c1 + Rabs c2 + Rabs c3.
Proof.
  intros Hx. assert (P : forall c n, Rabs (c * x^n) <= Rabs c).
  { intros c n. rewrite Rabs_mult, (Rabs_pos_eq (x^n)) by (apply pow_le; lra). rewrite <- (Rmult_1_r (Rabs c)) at 2.
    apply Rmult_le_compat_l; [apply Rabs_pos|]. rewrite <- (pow1 n). apply pow_incr, Hx. }
  pose proof (P c1 1%nat). pose proof (P c2 2%nat). pose proof (P c3 3%nat). rewrite pow_1 in H.
  repeat (eapply Rle_trans; [apply Rabs_triang|]; apply Rplus_le_compat; [|assumption]). apply Rle_refl.
Qed.
Lemma agree_exp b1 b2 : agree2 (fun x => 1 + b1 * x + (b2 + b1^2/2) * x^2) (fun x => exp (b1 * x + b2 * x^2)).
Proof.
  apply (agree2_trans _ (fun x => 1 + (b1 * x + b2 * x^2) + (b1 * x + b2 * x^2)^2/2)).
  - eapply (agree2_poly _ _ (fun x => - (b1 * b2) + - (b2^2/2) * x + 0 * x^2 + 0 * x^3)); [intros x; field|]. intros x Hx. apply poly_bound, Hx.
  - set (B := Rabs b1 + Rabs b2 + 1). assert (HB : 1 <= B) by (unfold B; pose proof (Rabs_pos b1); pose proof (Rabs_pos b2); lra).
    assert (IB : 0 < / B) by (apply Rinv_0_lt_compat; lra). assert (IB1 : / B <= 1) by (rewrite <- Rinv_1; apply Rinv_le_contravar; lra).
    exists (3 * B^3), (/ B). split; [exact IB|]. intros x Hx. rewrite Rabs_minus_sym.
    assert (L : Rabs (b1 * x + b2 * x^2) <= B * x).
    { replace (b1 * x + b2 * x^2) with ((b1 + b2 * x + 0 * x^2 + 0 * x^3) * x) by ring. rewrite Rabs_mult, (Rabs_pos_eq x) by lra. apply Rmult_le_compat_r; [lra|].
      eapply Rle_trans; [apply poly_bound; lra|]. rewrite Rabs_R0. unfold B. lra. }
    eapply Rle_trans; [apply exp_2nd|].
    + eapply Rle_trans; [exact L|]. apply Rle_trans with (B * / B); [apply Rmult_le_compat_l; lra|right; field; lra].
    + replace (3 * B^3 * x^3) with (3 * (B * x)^3) by ring. apply Rmult_le_compat_l; [lra|]. apply pow_incr. split; [apply Rabs_pos|exact L].
Qed.
Lemma agree2_ext F F' G G' : (forall x, F x = F' x) -> (forall x, G x = G' x) -> agree2 F' G' -> agree2 F G.
Proof. intros E E' (M & d & Hd & B). exists M, d. split; [exact Hd|]. intros x Hx. rewrite E, E'. apply B, Hx. Qed.
(** times a polynomial *)
Lemma agree2_scale p0 p1 p2 F G : agree2 F G -> agree2 (fun x => (p0 + p1 * x + p2 * x^2) * F x) (fun x => (p0 + p1 * x + p2 * x^2) * G x).
Proof.
  intros (M & d & Hd & B). set (K := Rabs p0 + Rabs p1 + Rabs p2 + Rabs 0).
  exists (K * M), (Rmin d 1). split; [apply Rmin_pos; lra|]. intros x [Hx0 Hx].
  assert (x <= d) by (eapply Rle_trans; [exact Hx|apply Rmin_l]). assert (x <= 1) by (eapply Rle_trans; [exact Hx|apply Rmin_r]).
  rewrite <- Rmult_minus_distr_l, Rabs_mult, Rmult_assoc. apply Rmult_le_compat; try apply Rabs_pos.
  - replace (p0 + p1 * x + p2 * x^2) with (p0 + p1 * x + p2 * x^2 + 0 * x^3) by ring. apply poly_bound; lra.
  - apply B; lra.
Qed.
(** not agreeing: a difference of second order *)
Lemma not_agree2 F G c : c <> 0 -> (forall x, F x - G x = c * x^2) -> ~ agree2 F G.
Proof.
  intros Hc E (M & d & Hd & B). pose proof (Rabs_pos_lt c Hc) as Pc.
  set (x := Rmin d (Rabs c / (2 * (Rabs M + 1)))). pose proof (Rabs_pos M) as PM.
  assert (Px : 0 < x). { apply Rmin_pos; [exact Hd|]. apply Rdiv_lt_0_compat; lra. }
  assert (Xd : x <= d) by apply Rmin_l.
  assert (XM : x * (2 * (Rabs M + 1)) <= Rabs c).
  { apply Rle_trans with (Rabs c / (2 * (Rabs M + 1)) * (2 * (Rabs M + 1))); [|right; field; lra]. apply Rmult_le_compat_r; [lra|apply Rmin_r]. }
  specialize (B x ltac:(lra)). rewrite E, Rabs_mult, (Rabs_pos_eq (x^2)) in B by (apply pow_le; lra).
  pose proof (Rle_abs M). assert (0 < x^2) by (apply pow_lt; lra).
  assert (Rabs c * x^2 <= Rabs M * x * x^2). { eapply Rle_trans; [exact B|]. replace (M * x^3) with (M * (x * x^2)) by ring. rewrite Rmult_assoc. apply Rmult_le_compat_r; [apply Rmult_le_pos; lra|assumption]. }
  apply Rmult_le_reg_r in H1; [|assumption]. lra.
Qed.

Section C50.
Variables (C Z e1 e2 e3 e4 : R).
(** the amplitude factors of the pivot scale for flow parameters scaled by [x]; the ARBDS series uses alpha = -C *)
Definition LLMS_s (L x : R) := exp (llms_bs0 C (x * e1) (x * e2) (x * e3) + (llms_ns C (x * e1) (x * e2) (x * e3) - 1) * L + llms_ns_run (x * e1) (x * e2) (x * e3) / 2 * L^2).
Definition LLMS_t (L x : R) := exp (llms_bt0 C (x * e1) (x * e2) + llms_nt C (x * e1) (x * e2) * L + llms_nt_run (x * e1) (x * e2) / 2 * L^2).
Definition STE_s (x : R) := ste_as0 C (x * e1) (x * e2) (x * e3).
Definition STE_t (x : R) := ste_at0 C (x * e1) (x * e2).
Definition ARBDS_s (L x : R) := arbds_s (- C) Z (x * e1) (x * e2) (x * e3) (x * e4) 2 L.
Definition ARBDS_t (L x : R) := arbds_t (- C) Z (x * e1) (x * e2) (x * e3) 2 L.

Ltac expand := intros; unfold STE_s, STE_t, ARBDS_s, ARBDS_t, arbds_s, arbds_t, ste_as0, ste_at0, llms_bs0, llms_bt0, llms_ns, llms_nt, llms_ns_run, llms_nt_run,
  as0_1, as0_2, as1_1, as1_2, as2_2, at0_1, at0_2, at1_1, at1_2, at2_2; field.
Theorem C50_LLMS_STE : agree2 STE_s (LLMS_s 0) /\ agree2 STE_t (LLMS_t 0).
Proof.
  split.
  - eapply agree2_ext; [| |apply (agree_exp (-2 * (C + 1) * e1 - C * e2)
      ((-2 * C + PI^2 / 2 - 7) * e1^2 + (- C^2 - 3 * C + 7 * PI^2 / 12 - 7) * e1 * e2 + (PI^2 / 8 - 1) * e2^2 + (- C^2 / 2 + PI^2 / 24) * e2 * e3))].
    + expand.
    + intros x. unfold LLMS_s. f_equal. expand.
  - eapply agree2_ext; [| |apply (agree_exp (-2 * (C + 1) * e1) ((-2 * C + PI^2 / 2 - 7) * e1^2 + (- C^2 - 2 * C + PI^2 / 12 - 2) * e1 * e2))].
    + expand.
    + intros x. unfold LLMS_t. f_equal. expand.
Qed.
(** the ARBDS series, evaluated at the wavenumber where -k eta = 1 at the pivot's horizon crossing, agrees with LLMS for every k *)
Theorem C50_ARBDS_shifted : forall L, agree2 (fun x => ARBDS_s (L + x * e1) x) (LLMS_s L) /\ agree2 (fun x => ARBDS_t (L + x * e1) x) (LLMS_t L).
Proof.
  intros L. split.
  - eapply agree2_trans; [|eapply agree2_ext; [| |apply (agree_exp (-2 * (C + 1) * e1 - C * e2 + (-2 * e1 - e2) * L)
      ((-2 * C + PI^2 / 2 - 7) * e1^2 + (- C^2 - 3 * C + 7 * PI^2 / 12 - 7) * e1 * e2 + (PI^2 / 8 - 1) * e2^2 + (- C^2 / 2 + PI^2 / 24) * e2 * e3
       + (- 2 * e1^2 - (2 * C + 3) * e1 * e2 - C * e2 * e3) * L + (-2 * e1 * e2 - e2 * e3) / 2 * L^2))]].
    2:{ intros x. reflexivity. }
    2:{ intros x. unfold LLMS_s. f_equal. expand. }
    eapply (agree2_poly _ _ (fun x => ((2 * (2 * C + 1) * e1^2 + (2 * C - 1) * e1 * e2 + C * e2^2 - C * e2 * e3) * e1 + 1/2 * (4 * e1^2 + 2 * e1 * e2 + e2^2 - e2 * e3) * (2 * L * e1))
        + (1/2 * (4 * e1^2 + 2 * e1 * e2 + e2^2 - e2 * e3) * e1^2) * x + 0 * x^2 + 0 * x^3)).
    + expand.
    + intros x Hx. apply poly_bound, Hx.
  - eapply agree2_trans; [|eapply agree2_ext; [| |apply (agree_exp (-2 * (C + 1) * e1 + (-2 * e1) * L)
      ((-2 * C + PI^2 / 2 - 7) * e1^2 + (- C^2 - 2 * C + PI^2 / 12 - 2) * e1 * e2 + (- 2 * e1^2 - 2 * (C + 1) * e1 * e2) * L + (-2 * e1 * e2) / 2 * L^2))]].
    2:{ intros x. reflexivity. }
    2:{ intros x. unfold LLMS_t. f_equal. expand. }
    eapply (agree2_poly _ _ (fun x => ((2 * (2 * C + 1) * e1^2 + (-2 - 2 * C) * e1 * e2) * e1 + 1/2 * (4 * e1^2 - 2 * e1 * e2) * (2 * L * e1))
        + (1/2 * (4 * e1^2 - 2 * e1 * e2) * e1^2) * x + 0 * x^2 + 0 * x^3)).
    + expand.
    + intros x Hx. apply poly_bound, Hx.
Qed.
(** spectral index and running: the series is A + B L + D L^2 with B and D those of A exp((n_s-1) L + run/2 L^2) *)
Theorem C50_index_partial : exists A B D : R -> R, (forall x L, ARBDS_s L x = A x + B x * L + D x * L^2) /\
  agree2 B (fun x => (llms_ns C (x * e1) (x * e2) (x * e3) - 1) * A x) /\
  agree2 D (fun x => (llms_ns_run (x * e1) (x * e2) (x * e3) + (llms_ns C (x * e1) (x * e2) (x * e3) - 1)^2) / 2 * A x).
Proof.
  exists (fun x => as0_1 (-C) (x * e1) (x * e2) + as0_2 (-C) (x * e1) (x * e2) (x * e3)), (fun x => as1_1 (x * e1) (x * e2) + as1_2 (-C) (x * e1) (x * e2) (x * e3)),
    (fun x => as2_2 (x * e1) (x * e2) (x * e3)).
  split; [reflexivity|].
  set (a1 := -2 * (1 + C) * e1 - C * e2).
  set (a2 := (-3 + 2 * C + 2 * C^2 + PI^2/2) * e1^2 + (-6 - C + C^2 + 7 * PI^2 / 12) * e1 * e2 + (-8 + 4 * C^2 + PI^2) / 8 * e2^2 + (-12 * C^2 + PI^2) / 24 * e2 * e3).
  set (n1 := -2 * e1 - e2). set (n2 := - 2 * e1^2 - (2 * C + 3) * e1 * e2 - C * e2 * e3). set (r2 := -2 * e1 * e2 - e2 * e3).
  split.
  - eapply (agree2_poly _ _ (fun x => - (n1 * a2 + n2 * a1) + - (n2 * a2) * x + 0 * x^2 + 0 * x^3)); [|intros x Hx; apply poly_bound, Hx].
    intros x. unfold a1, a2, n1, n2. expand.
  - eapply (agree2_poly _ _ (fun x => - (2 * n1 * n2 + (r2 + n1^2) * a1) / 2 + - ((2 * n1 * n2) * a1 + (r2 + n1^2) * a2 + n2^2) / 2 * x + - (n2^2 * a1 + 2 * n1 * n2 * a2)/2 * x^2 + - (n2^2 * a2)/2 * x^3)); [|intros x Hx; apply poly_bound, Hx].
    intros x. unfold a1, a2, n1, n2, r2. expand.
Qed.
(** the amplitude of the pivot scale differs at second order *)
Theorem C50_ARBDS_difference : forall x, ARBDS_s 0 x - STE_s x = (2 * e1^2 + e1 * e2) * x^2 /\ ARBDS_t 0 x - STE_t x = 2 * e1^2 * x^2.
Proof. intros x. split; expand. Qed.
Theorem C50_ARBDS_refuted : e1 <> 0 -> ~ agree2 (ARBDS_t 0) STE_t /\ (2 * e1 + e2 <> 0 -> ~ agree2 (ARBDS_s 0) STE_s).
Proof.
  intros H1. split.
  - apply (not_agree2 _ _ (2 * e1^2)); [|intros x; apply C50_ARBDS_difference]. pose proof (pow2_gt_0 e1 H1). lra.
  - intros H2. apply (not_agree2 _ _ (2 * e1^2 + e1 * e2)); [|intros x; apply C50_ARBDS_difference].
    replace (2 * e1^2 + e1 * e2) with (e1 * (2 * e1 + e2)) by ring. apply Rmult_integral_contrapositive. split; assumption.
Qed.
End C50.
(** the constant C of the code: alpha = -C in derive_approx_power_ARBDS *)
Lemma C50_constants : forall Co, arbds_alpha Co = - llms_C Co.
Proof. intros. unfold llms_C, arbds_alpha. ring. Qed.
Theorem C50_nonvacuous : ~ agree2 (ARBDS_s (-1) 1 (1/100) (1/50) (1/50) 0 0) (STE_s (-1) (1/100) (1/50) (1/50)).
Proof. apply C50_ARBDS_refuted; intros X; lra. Qed.

(** ** C50 for Choe, Gong & Stewart *)
(** how the parameters of that expansion depend on the Hubble-flow parameters: delta_1 = e2/2 - e1 etc. *)
Definition flow_relations (f : flow) : Prop :=
  fd1 f = fe2 f / 2 - fe1 f /\ fd2 f = fe2 f * fe3 f / 2 - fe1 f * fe2 f + fd1 f ^ 2 - fe1 f * fd1 f /\
  fg2 f = fe1 f * fe2 f /\ fg3 f = fe1 f * fe2 f * (fe2 f + fe3 f - fe1 f).
(** the numbers the code computes satisfy them in flat space *)
Theorem C50_flow_relations : forall q N H phi dphi, 0 < H -> dphi <> 0 -> fe2 (flow_of q 0 N H phi dphi) <> 0 ->
  flow_relations (flow_of q 0 N H phi dphi).
Proof.
  intros [[] K U] N H phi p HH Hp He2; unfold flow_relations, flow_of in *; cbn [a_kind a_U fe1 fe2 fe3 fd1 fd2 fd3 fg2 fg3] in *.
  - unfold T_get_dH, T_get_d2H, T_get_d3H in *. set (d2 := T_get_d2phi _ _ _) in *. clearbody d2.
    set (d3 := T_get_d3phi _ _ _ _ _ _ _) in *. clearbody d3.
    replace (- p ^ 2 / 2 + 0 * exp (-2 * N)) with (- p^2/2) in * by ring. replace (- d2 * p - 2 * 0 * H * exp (-2 * N)) with (- d2 * p) in * by ring.
    replace (- d3 * p - d2 ^ 2 + 2 * 0 * (2 * H ^ 2 - - p ^ 2 / 2) * exp (-2 * N)) with (- d3 * p - d2^2) in * by ring.
    unfold T_get_epsilon_1H, T_get_epsilon_2H, T_get_epsilon_3H, T_get_delta_1, T_get_delta_2 in *.
    assert (E : - d2 * p / (H * (- p ^ 2 / 2)) - 2 * (- p ^ 2 / 2) / H ^ 2 = (2 * H * d2 + p^3) / (H^2 * p)) by (field; lra). rewrite E in He2.
    assert (NZ : 2 * H * d2 + p^3 <> 0). { intros X. apply He2. rewrite X. field. lra. }
    assert (NZ2 : H * (- d2 * p) - 2 * (- p ^ 2 / 2) ^ 2 <> 0). { intros X. apply NZ. apply (Rmult_eq_reg_l (- p / 2)); [|intros Y; apply Hp; lra]. rewrite Rmult_0_r, <- X. field. }
    repeat split; field; repeat split; try lra; try assumption.
  - unfold N_get_dH, N_get_d2H, N_get_d3H in *. set (d2 := N_get_d2phi _ _ _ _) in *. clearbody d2.
    set (d3 := N_get_d3phi _ _ _ _ _ _ _) in *. clearbody d3.
    set (k := 0 * exp (-2 * N)) in *. assert (Ek : k = 0) by (unfold k; ring). rewrite Ek in *. clear k Ek. 
    unfold N_get_epsilon_1H, N_get_epsilon_2H, N_get_epsilon_3H, N_get_delta_1, N_get_delta_2 in *.
    assert (E1 : - p ^ 2 * H / 2 + 0 / H = - p^2 * H / 2) by (field; lra). rewrite E1 in *.
    assert (E2 : - d2 * p * H - p ^ 2 * (- p ^ 2 * H / 2) / 2 - 0 * (2 * H + - p ^ 2 * H / 2) / H ^ 2 = - d2 * p * H + p^4 * H / 4) by (field; lra). rewrite E2 in *.
    set (s2 := - d2 * p * H + p^4 * H / 4) in *.
    assert (NZ : d2 <> 0). { intros X. apply He2. unfold s2. rewrite X. field. repeat split; try lra; try assumption. }
    assert (E3 : H ^ 2 * s2 ^ 2 - 2 * H * (- p ^ 2 * H / 2) ^ 2 * s2 + (- p ^ 2 * H / 2) ^ 4 = (d2 * p * H^2)^2) by (unfold s2; field).
    rewrite E3, Rabs_pos_eq by apply pow2_ge_0. unfold s2.
    repeat split; field; repeat split; try lra; try assumption.
Qed.
Definition cgs_scaled (e1 e2 e3 d3 x : R) : flow :=
  mkflow (x * e1) (x * e2) (x * e3) (x * (e2/2 - e1)) (x^2 * (e2 * e3 / 2 - e1 * e2 + (e2/2 - e1)^2 - e1 * (e2/2 - e1))) (x^3 * d3)
    (x^2 * (e1 * e2)) (x^3 * (e1 * e2 * (e2 + e3 - e1))).
Lemma C50_scaled_relations : forall e1 e2 e3 d3 x, flow_relations (cgs_scaled e1 e2 e3 d3 x).
Proof. intros. unfold flow_relations, cgs_scaled. cbn. repeat split; field. Qed.
Lemma agree2_cont F G (c : R -> R) : (forall x, F x - G x = x^3 * c x) -> (forall x, continuous c x) -> agree2 F G.
Proof.
  intros E Cc. destruct (continuity_ab_maj (fun x => Rabs (c x)) 0 1) as (m & Hm & _); [lra| |].
  - intros x _. apply (continuity_pt_comp c Rabs); [|apply Rcontinuity_abs]. apply continuity_pt_filterlim, Cc.
  - exact (agree2_poly F G c (Rabs (c m)) E Hm).
Qed.
Theorem C50_CGS : forall Co e1 e2 e3 d3,
  agree2 (fun x => cgs_s Co (cgs_scaled e1 e2 e3 d3 x) 2) (STE_s (llms_C Co) e1 e2 e3) /\
  agree2 (fun x => cgs_t Co (cgs_scaled e1 e2 e3 d3 x) 2) (STE_t (llms_C Co) e1 e2).
Proof.
  intros Co e1 e2 e3 d3. replace (llms_C Co) with (- cgs_alpha Co) by (unfold llms_C, cgs_alpha; ring). split.
  - apply (agree2_cont _ _ (fun x => let al := cgs_alpha Co in let A := al - x * e1 in let d1 := e2/2 - e1 in let D2 := e2 * e3 / 2 - e1 * e2 + d1^2 - e1 * d1 in
      d3 * (1 / 3 * A^3 - PI^2 / 12 * A + 4 / 3 - 2 / 3 * zeta3 Co) + e1 * (al + A) * D2 - 4 * e1^3 * (al + A) - e1^2 * d1 * (3 * (al + A) + 2) - 3 * e1 * d1^2 * (al + A)
      + (-5/3 * A^3 - 2 * A^2 + 20 * A - 9/4 * PI^2 * A + 16/3 + PI^2 / 6 - 14/3 * zeta3 Co) * e1 * D2
      + (-3*A^3 + 8*A - 7/12 * PI^2 * A - 4 + 2 * zeta3 Co) * d1 * D2)).
    + intros x. unfold cgs_s, cgs1_s, cgs2_s, STE_s, ste_as0, cgs_scaled. cbn [fe1 fe2 fe3 fd1 fd2 fd3 fg2 fg3]. cbv zeta. generalize (cgs_alpha Co). intros al. field.
    + intros x. cbv zeta. cont.
  - apply (agree2_cont _ _ (fun x => let al := cgs_alpha Co in let A := al - x * e1 in let g2 := e1 * e2 in let g3 := e1 * e2 * (e2 + e3 - e1) in
      g3 * (A^3/3 - A^2 + (2-PI^2/12)*A + PI^2/12 - 2/3 - 2/3*zeta3 Co) + g2 * (e1 * (al + A) - 2 * e1) - 2 * e1^3 * (al + A) + 2 * e1^3
      + (-5/3 * A^3 + 2 * A^2 + (8 - 11/12 * PI^2) * A + 7/6 * PI^2 - 26/3 - 2/3 * zeta3 Co) * e1 * g2)).
    + intros x. unfold cgs_t, cgs1_t, cgs2_t, STE_t, ste_at0, cgs_scaled. cbn [fe1 fe2 fe3 fd1 fd2 fd3 fg2 fg3]. cbv zeta. generalize (cgs_alpha Co). intros al. field.
    + intros x. cbv zeta. cont.
Qed.
(** the four expansions with the constants as each method of the code computes them *)
Theorem C50_methods : forall Co e1 e2 e3 e4 d3 L,
  let eC := llms_C Co in
  agree2 (fun x => cgs_s Co (cgs_scaled e1 e2 e3 d3 x) 2) (LLMS_s eC e1 e2 e3 0) /\
  agree2 (fun x => cgs_t Co (cgs_scaled e1 e2 e3 d3 x) 2) (LLMS_t eC e1 e2 0) /\
  agree2 (STE_s eC e1 e2 e3) (LLMS_s eC e1 e2 e3 0) /\ agree2 (STE_t eC e1 e2) (LLMS_t eC e1 e2 0) /\
  agree2 (fun x => arbds_s (arbds_alpha Co) (arbds_Z Co) (x * e1) (x * e2) (x * e3) (x * e4) 2 (L + x * e1)) (LLMS_s eC e1 e2 e3 L) /\
  agree2 (fun x => arbds_t (arbds_alpha Co) (arbds_Z Co) (x * e1) (x * e2) (x * e3) 2 (L + x * e1)) (LLMS_t eC e1 e2 L).
Proof.
  intros Co e1 e2 e3 e4 d3 L eC. destruct (C50_CGS Co e1 e2 e3 d3) as [A1 A2]. destruct (C50_LLMS_STE eC e1 e2 e3) as [B1 B2].
  assert (T : forall F G K, agree2 F G -> agree2 G K -> agree2 F K).
  { intros F G K (M & d & Hd & P) (M' & d' & Hd' & P'). exists (M + M'), (Rmin d d'). split; [apply Rmin_pos; assumption|]. intros x Hx.
    pose proof (Rmin_l d d'). pose proof (Rmin_r d d'). specialize (P x ltac:(lra)). specialize (P' x ltac:(lra)).
    replace (F x - K x) with ((F x - G x) + (G x - K x)) by ring. eapply Rle_trans; [apply Rabs_triang|]. lra. }
  destruct (C50_ARBDS_shifted eC (arbds_Z Co) e1 e2 e3 e4 L) as [S1 S2]. unfold ARBDS_s, ARBDS_t in S1, S2.
  replace (- eC) with (arbds_alpha Co) in S1, S2 by (unfold eC, arbds_alpha, llms_C; ring).
  repeat split; [apply (T _ _ _ A1 B1)|apply (T _ _ _ A2 B2)|exact B1|exact B2|exact S1|exact S2].
Qed.
