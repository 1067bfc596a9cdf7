(** Standard Big Bang evolution, continued: C64, C65, C66, C80, C81, C82. *)
From Coq Require Import Reals List String Bool Lra Lia Psatz.
From Coquelicot Require Import Coquelicot.
From Verif Require Import Base Model.Float Model.Equations Model.ApproxPower Model.BigBang Spec.BigBangSpec Proofs.BaseLemmas Proofs.BigBangLines Properties.BigBangProps.
Import ListNotations.
Open Scope R_scope.
Open Scope string_scope.

(** ** C66 *)
Theorem C66_inverts :
  forall N_end N_reh l_end l_reh w, N_end <> N_reh -> l_reh - l_end = (1 + 3 * w) / 2 * (N_reh - N_end) ->
  get_w_delta_reh N_end N_reh l_end l_reh = (w, N_reh - N_end).
Proof.
  intros Ne Nr le lr w D E. unfold get_w_delta_reh. cbv zeta. f_equal. rewrite E. field. lra.
Qed.
Theorem C66_unique :
  forall N_end N_reh l_end l_reh, N_end <> N_reh ->
  let (w, d) := get_w_delta_reh N_end N_reh l_end l_reh in
  l_reh - l_end = (1 + 3 * w) / 2 * d /\ N_reh = N_end + d.
Proof. intros. unfold get_w_delta_reh. cbv zeta. split; [field|]; lra. Qed.
(** during an epoch with p = w rho, rho ~ a^{-3(1+w)}: cHH = 1/(aH) ~ a^{(1+3w)/2} *)
Theorem C66_constant_w_epoch :
  forall N_end N_reh H_end H_reh w, 0 < H_end -> 0 < H_reh -> N_end <> N_reh ->
  H_reh ^ 2 = H_end ^ 2 * exp (-3 * (1 + w) * (N_reh - N_end)) ->
  get_w_delta_reh N_end N_reh (ln (/ (exp N_end * H_end))) (ln (/ (exp N_reh * H_reh))) = (w, N_reh - N_end).
Proof.
  intros Ne Nr He Hr w P1 P2 D E. apply C66_inverts; [exact D|].
  rewrite !ln_Rinv by (apply Rmult_lt_0_compat; [apply exp_pos|assumption]). rewrite !ln_mult by (try apply exp_pos; assumption). rewrite !ln_exp.
  assert (L : 2 * ln Hr = 2 * ln He + -3 * (1 + w) * (Nr - Ne)).
  { assert (Q : forall y, 0 < y -> ln (y ^ 2) = 2 * ln y) by (intros y Hy; replace (y ^ 2) with (y * y) by ring; rewrite ln_mult by assumption; ring).
    rewrite <- !Q by assumption. rewrite E, ln_mult by (try apply exp_pos; apply pow_lt; assumption). rewrite ln_exp. reflexivity. }
  lra.
Qed.
Theorem C66_nonvacuous : get_w_delta_reh 60 66 0 3 = (0, 6).
Proof. rewrite (C66_inverts 60 66 0 3 0) by lra. f_equal; lra. Qed.

Section U.
Variable F : phys.
Hypothesis OK : phys_ok F.

(** known units *)
Lemma H0_known h u : u = "planck" \/ u = "H0" \/ u = "SI" -> exists H0, get_H0 F h u = Ok H0.
Proof. intros [-> | [-> | ->] ]; eexists; reflexivity. Qed.
(** a family of successful calls *)
Lemma hubble_ok N k h u : 0 < h -> -3/2 <= k -> u = "planck" \/ u = "H0" \/ u = "SI" -> exists w v, Hubble_parameter F N (1/2) k h u = Ok (w, v).
Proof.
  intros Hh Hk U. destruct (H0_known h u U) as [H0 E]. destruct (Or_val F OK h Hh) as (r & Er & Pr). destruct (a0_val F OK h k Hh) as (a0 & Ea & _).
  unfold Hubble_parameter. rewrite E, Er, Ea, C60_nonvacuous. cbn [bind]. destruct (Rlt_dec 2 (1 - r - 1/2 - k)); [lra|].
  unfold expand_recollapse_line. destruct (Rle_dec 0 (1/2)); [|lra]. destruct (Rlt_dec (1/2) 1); [|lra]. cbn [andb bind]. eexists _, _. reflexivity.
Qed.
(** units only rescale the value *)
Lemma hubble_units N m k h u u' w v H0 H0' : 0 < h -> Hubble_parameter F N m k h u = Ok (w, v) ->
  get_H0 F h u = Ok H0 -> get_H0 F h u' = Ok H0' ->
  exists v', Hubble_parameter F N m k h u' = Ok (w, v') /\
  ((v = NaN /\ v' = NaN) \/ exists s, v = Fin (H0 * s) /\ v' = Fin (H0' * s) /\ 0 <= s).
Proof.
  intros Hh E E1 E2. unfold Hubble_parameter in *. rewrite E1 in E. rewrite E2. cbn [bind] in *.
  destruct (get_Omega_r0 F h) as [r|]; [|discriminate]. cbn [bind] in *. destruct (no_Big_Bang_line m) as [n|]; [|discriminate]. cbn [bind] in *.
  destruct (Rlt_dec n _); [discriminate|]. destruct (expand_recollapse_line m) as [rc|]; [|discriminate]. cbn [bind] in *.
  destruct (get_a0 F h k "planck") as [a0|]; [|discriminate]. cbn [bind] in *. injection E as <- <-. eexists. split; [reflexivity|].
  cbn [fsqrt]. destruct (Rlt_dec _ 0); [left; split; reflexivity|right]. eexists. split; [reflexivity|]. split; [reflexivity|]. apply sqrt_pos.
Qed.
(** ** C64 *)
Theorem C64_horizon_units :
  forall N m k h lp, 0 < h -> comoving_Hubble_horizon F N m k h "planck" = Ok (Fin lp) ->
  comoving_Hubble_horizon F N m k h "SI" = Ok (Fin (lp * u_lp_m F)) /\
  comoving_Hubble_horizon F N m k h "Mpc" = Ok (Fin (lp * u_lp_m F / u_Mpc_m F)).
Proof.
  intros N m k h lp Hh E. pose proof (Mpc_pos F OK) as MP. pose proof (tp_pos F OK) as TP. destruct (C67_planck_units F OK) as (S & _).
  assert (Hc : 0 < p_c F) by apply OK. destruct (C63_H0_units F OK h) as (Hp & Hh' & Hs & E1 & E2 & E3 & V1 & V2 & V3).
  unfold comoving_Hubble_horizon in *. destruct (a0_val F OK h k Hh) as (a0 & Ea & Pa). rewrite Ea in *. cbn [bind String.eqb Ascii.eqb Bool.eqb] in *.
  destruct (Hubble_parameter F N m k h "planck") as [[w v]|e] eqn:EH; [|discriminate]. cbn [bind snd] in E.
  destruct (hubble_units N m k h "planck" "SI" w v Hp Hs Hh EH E1 E3) as (v1 & Q1 & R1).
  destruct (hubble_units N m k h "planck" "H0" w v Hp Hh' Hh EH E1 E2) as (v2 & Q2 & R2). rewrite Q1, Q2. cbn [bind snd].
  destruct R1 as [[-> ->]|(s & -> & -> & Ps)]; [discriminate|]. destruct R2 as [[X _]|(s2 & X & -> & Ps2)]; [discriminate|].
  assert (PH : 0 < Hp) by (apply (H0_pos F OK h "planck"); assumption).
  injection X as X. apply Rmult_eq_reg_l in X; [|lra]. rewrite <- X.
  cbn [fmul fdiv] in *. destruct (Req_EM_T (exp N * (Hp * s)) 0) as [Z|Z].
  { injection E as E. unfold inf_of in E. destruct (Rlt_dec 0 a0); [discriminate|]. lra. }
  injection E as <-. pose proof (exp_pos N) as PN.
  assert (Zs : s <> 0) by (intros ->; apply Z; ring).
  assert (Hh1 : Hh' <> 0) by lra. assert (Hs1 : Hs <> 0). { rewrite V3 in PH. intros Y. rewrite Y in PH. lra. }
  destruct (Req_EM_T (exp N * (Hs * s)) 0) as [Y|_].
  { exfalso. apply Rmult_integral in Y. destruct Y as [Y|Y]; [lra|]. apply Rmult_integral in Y. destruct Y; contradiction. }
  destruct (Req_EM_T (exp N * (Hh' * s) * 1000) 0) as [Y|_].
  { exfalso. apply Rmult_integral in Y. destruct Y as [Y|Y]; [|lra]. apply Rmult_integral in Y. destruct Y as [Y|Y]; [lra|].
    apply Rmult_integral in Y. destruct Y; contradiction. }
  split; f_equal; f_equal.
  - rewrite V3, S. field. repeat split; lra.
  - rewrite V3, V2, S. field. repeat split; lra.
Qed.
(** and it is 1/(aH) in units of today's scale factor *)
Theorem C64_definition :
  forall N m k h w H a0, 0 < h -> Hubble_parameter F N m k h "planck" = Ok (w, Fin H) -> H <> 0 -> get_a0 F h k "planck" = Ok a0 ->
  comoving_Hubble_horizon F N m k h "planck" = Ok (Fin (a0 / (exp N * H))).
Proof.
  intros N m k h w H a0 Hh E HH Ea. unfold comoving_Hubble_horizon. rewrite Ea. cbn [bind String.eqb Ascii.eqb Bool.eqb]. rewrite E. cbn.
  destruct (Req_EM_T (exp N * H) 0) as [Z|_]; [|reflexivity]. pose proof (exp_pos N). apply Rmult_integral in Z. destruct Z; [lra|contradiction].
Qed.
Theorem C64_unknown_units :
  forall N m k h u, 0 < h -> u <> "planck" -> u <> "SI" -> u <> "Mpc" -> u <> "H0" ->
  comoving_Hubble_horizon F N m k h u = Raise NotImplementedError.
Proof.
  intros N m k h u Hh A B C D. apply String.eqb_neq in A, B, C, D. unfold comoving_Hubble_horizon.
  destruct (a0_val F OK h k Hh) as (a0 & -> & _). cbn [bind]. rewrite C. unfold Hubble_parameter, get_H0. rewrite A, B, D. reflexivity.
Qed.
Theorem C64_nonvacuous : exists lp, comoving_Hubble_horizon F (-3) (1/2) 0 1 "planck" = Ok (Fin lp).
Proof.
  destruct (hubble_ok (-3) 0 1 "planck" ltac:(lra) ltac:(lra) ltac:(auto)) as (w & v & E).
  destruct (C62_real_in_the_past F OK (-3) (1/2) 0 1 "planck" w v 1 ltac:(lra) E (C63_flat F 1 "planck") ltac:(rewrite ln_1; lra)) as (H & -> & P).
  rewrite (C64_definition (-3) (1/2) 0 1 w H 1); [eexists; reflexivity|lra|exact E|lra|apply C63_flat].
Qed.

(** ** C80, C81: error and warning against the exact Friedmann equation (radiation included) *)
(** no error: the universe has a Big Bang; a universe that bounces is always rejected *)
Theorem C80_big_bang_partial :
  forall N m k h r, 0 < h -> 0 <= m -> get_Omega_r0 F h = Ok r ->
  bounces r m k (1 - r - m - k) -> Hubble_parameter F N m k h "planck" = Raise BigBangError.
Proof.
  intros N m k h r Hh Hm Er (x & Hx & Neg).
  unfold Hubble_parameter. rewrite Er. destruct (H0_known h "planck" ltac:(auto)) as [H0 ->]. cbn [bind].
  destruct (C60_no_big_bang_line m Hm) as (l & El & _). rewrite El. cbn [bind].
  destruct (Rlt_dec l (1 - r - m - k)) as [_|L]; [reflexivity|]. exfalso.
  destruct (Or_val F OK h Hh) as (r' & Er' & Pr). rewrite Er in Er'. injection Er' as <-.
  pose proof (E2_rad_pos r m k l x Pr Hm El ltac:(lra) ltac:(lra)). lra.
Qed.
(** but the error is also raised for universes with a Big Bang: the line neglects radiation *)
Theorem C80_big_bang_refuted :
  ~ (forall N m k h r, 0 < h -> 0 <= m -> get_Omega_r0 F h = Ok r ->
     Hubble_parameter F N m k h "planck" = Raise BigBangError -> bounces r m k (1 - r - m - k)).
Proof.
  intros C. destruct (Or_val F OK 1 ltac:(lra)) as (r & Er & Pr).
  (* m = 0, Omega_L0 = 1 + d, curvature k = -r-d with (r+d)^2 < 4 r (1+d) *)
  set (d := Rmin 1 (r / (1 + r)) / 1).
  assert (D : exists d, 0 < d /\ forall x, 0 <= E2 r 0 (- r - d) (1 + d) x).
  { destruct (Rle_dec r 2) as [L|L].
    - exists r. split; [exact Pr|]. intros x. unfold E2.
      replace (r * x ^ 4 + 0 * x ^ 3 + (- r - r) * x ^ 2 + (1 + r)) with (r * (x ^ 2 - 1) ^ 2 + 1) by ring.
      assert (0 <= r * (x ^ 2 - 1) ^ 2) by (apply Rmult_le_pos; [lra|apply pow2_ge_0]). lra.
    - exists r. split; [exact Pr|]. intros x. unfold E2.
      replace (r * x ^ 4 + 0 * x ^ 3 + (- r - r) * x ^ 2 + (1 + r)) with (r * (x ^ 2 - 1) ^ 2 + 1) by ring.
      assert (0 <= r * (x ^ 2 - 1) ^ 2) by (apply Rmult_le_pos; [lra|apply pow2_ge_0]). lra. }
  clear d. destruct D as (d & Pd & Pos).
  destruct (C 0 0 (- r - d) 1 r ltac:(lra) ltac:(lra) Er) as (x & Hx & Neg).
  - unfold Hubble_parameter. rewrite Er. destruct (H0_known 1 "planck" ltac:(auto)) as [H0 ->]. cbn [bind].
    unfold no_Big_Bang_line. destruct (Req_EM_T 0 0) as [_|]; [|lra]. cbn [bind]. destruct (Rlt_dec 1 _); [reflexivity|lra].
  - specialize (Pos x). replace (1 - r - 0 - (- r - d)) with (1 + d) in Neg by ring. lra.
Qed.
(** a BigBangWarning is only issued for universes that really recollapse *)
Theorem C81_recollapse_warning_partial :
  forall N m k h u v r, 0 < h -> Hubble_parameter F N m k h u = Ok (true, v) -> get_Omega_r0 F h = Ok r ->
  recollapses r m k (1 - r - m - k).
Proof.
  intros N m k h u v r Hh E Er. destruct (hubble_val F OK N m k h u true v Hh E) as (H0 & r' & a1 & nbb & rec & E1 & E2' & E3 & E4 & E5 & P1 & P2 & P3 & L & Pm & W & _).
  rewrite Er in E2'. injection E2' as <-. assert (L' : 1 - r - m - k < rec) by (apply W; reflexivity).
  destruct (C61_recollapse_line m Pm) as (l & El & B). rewrite E5 in El. injection El as <-.
  destruct (proj2 (B _) L') as (x & Hx & Neg). exists x. split; [exact Hx|].
  assert (D : E2 r m k (1 - r - m - k) x = E2 0 m (1 - m - (1 - r - m - k)) (1 - r - m - k) x - r * (x ^ 2 - x ^ 4)) by (unfold E2; ring).
  assert (0 <= r * (x ^ 2 - x ^ 4)); [|lra]. apply Rmult_le_pos; [lra|]. replace (x ^ 2 - x ^ 4) with (x ^ 2 * (1 - x ^ 2)) by ring.
  apply Rmult_le_pos; nra.
Qed.
(** but some recollapsing universes get no warning *)
Theorem C81_recollapse_warning_refuted :
  ~ (forall N m k h u w v r, 0 < h -> Hubble_parameter F N m k h u = Ok (w, v) -> get_Omega_r0 F h = Ok r ->
     recollapses r m k (1 - r - m - k) -> w = true).
Proof.
  intros C. destruct (Or_val F OK 1 ltac:(lra)) as (r & Er & Pr). destruct (a0_val F OK 1 (- r) ltac:(lra)) as (a0 & Ea & _).
  (* Einstein-de Sitter matter plus radiation: m = 1, Omega_L0 = 0, curvature -r *)
  destruct (rec_c 1 ltac:(lra)) as (c & Ec & F3 & G). assert (c = 0) as ->.
  { replace ((1 - 1) / 1) with 0 in F3 by field. assert (Z : c * (4 * c ^ 2 - 3) = 0) by lra. apply Rmult_integral in Z. destruct Z as [Z|Z]; [exact Z|]. nra. }
  destruct (nbb_c 1 ltac:(lra)) as (c & En & _ & Gc).
  assert (X : exists v, Hubble_parameter F 0 1 (- r) 1 "planck" = Ok (false, v)).
  { unfold Hubble_parameter. rewrite Er, Ea, Ec, En. destruct (H0_known 1 "planck" ltac:(auto)) as [H0 ->]. cbn [bind].
    assert (0 < c ^ 3) by (apply pow_lt; lra).
    destruct (Rlt_dec (4 * 1 * c ^ 3) _) as [?|_]; [lra|]. destruct (Rlt_dec (1 - r - 1 - - r) _) as [?|_]; [exfalso; lra|]. eexists; reflexivity. }
  destruct X as [v X]. enough (false = true) by discriminate. apply (C 0 1 (- r) 1 "planck" false v r); [lra|exact X|exact Er|].
  (* E2 = x^2 (r x^2 + x - r) < 0 for small x *)
  exists (Rmin (1/2) (r / 2) / (1 + r)). pose proof (Rmin_l (1/2) (r/2)) as M1. pose proof (Rmin_r (1/2) (r/2)) as M2.
  assert (M0 : 0 < Rmin (1/2) (r/2)) by (apply Rmin_glb_lt; lra). set (q := Rmin (1/2) (r / 2)) in *.
  assert (Y0 : 0 < q / (1 + r)) by (apply Rdiv_lt_0_compat; lra).
  assert (Y1 : q / (1 + r) < 1) by (apply Rmult_lt_reg_r with (1 + r); [lra|]; unfold Rdiv; rewrite Rmult_assoc, Rinv_l by lra; lra).
  split; [split; assumption|]. set (y := q / (1 + r)) in *. assert (Q : y * (1 + r) = q) by (unfold y; field; lra).
  unfold E2. replace (r * y ^ 4 + 1 * y ^ 3 + - r * y ^ 2 + (1 - r - 1 - - r)) with (- (y ^ 2 * (r - y - r * y ^ 2))) by ring.
  assert (0 < y ^ 2 * (r - y - r * y ^ 2)); [|lra]. apply Rmult_lt_0_compat; [apply pow_lt; exact Y0|].
  assert (r * y ^ 2 <= r * y) by (apply Rmult_le_compat_l; [lra|nra]). lra.
Qed.

(** ** C65: conformal time *)
(** scipy's quad is taken to be exact on continuous integrands *)
Definition exact_quad (q : quadrature) : Prop :=
  forall f g a b, (forall x, Rmin a b <= x <= Rmax a b -> f x = Fin (g x) /\ continuous g x) -> fst (q f a b) = RInt g a b.
(** the value returned for a scalar N *)
Definition eta_of (r : res ctime) : res R := match r with Ok (CPair e _) => Ok e | Ok (CArray _) => Raise TypeError | Raise e => Raise e end.

Section Fixed.
Variables m k h a0 : R.
Hypothesis Hh : 0 < h.
Hypothesis EA : get_a0 F h k "planck" = Ok a0.
(** the cosmology is accepted *)
Hypothesis ACC : exists N w v, Hubble_parameter F N m k h "planck" = Ok (w, v).
(** conformal Hubble integrand 1/(aH) *)
Definition inv_aH (n : R) : R :=
  match Hubble_parameter F n m k h "planck" with Ok (_, Fin H) => exp (- n) / H | _ => 0 end.
Lemma acc_form : exists H0 r, 0 < H0 /\ 0 < r /\ (forall n, exists w, Hubble_parameter F n m k h "planck" = Ok (w, fmul (Fin H0) (fsqrt (Fin (E2 r m k (1 - r - m - k) (exp (ln a0 - n)))))))
   /\ forall x, 1 <= x -> 0 < E2 r m k (1 - r - m - k) x.
Proof.
  destruct ACC as (N & w & v & E). destruct (hubble_val F OK N m k h "planck" w v Hh E) as (H0 & r & a1 & nbb & rec & E1 & E2' & E3 & E4 & E5 & P1 & P2 & P3 & L & Pm & _ & _).
  rewrite EA in E3. injection E3 as <-. exists H0, r. split; [exact P1|]. split; [exact P2|]. split.
  - intros n. unfold Hubble_parameter. rewrite E1, E2', E4, E5, EA. cbn [bind]. destruct (Rlt_dec nbb _); [lra|]. eexists. reflexivity.
  - intros x Hx. eapply E2_rad_pos; eauto.
Qed.
Lemma inv_aH_form : exists H0 r, 0 < H0 /\ 0 < r /\ (forall x, 1 <= x -> 0 < E2 r m k (1 - r - m - k) x) /\
  (forall n, 0 <= E2 r m k (1 - r - m - k) (exp (ln a0 - n)) -> inv_aH n = exp (- n) / (H0 * sqrt (E2 r m k (1 - r - m - k) (exp (ln a0 - n))))) /\
  forall n w v, Hubble_parameter F n m k h "planck" = Ok (w, v) -> 0 <= E2 r m k (1 - r - m - k) (exp (ln a0 - n)) -> v = Fin (H0 * sqrt (E2 r m k (1 - r - m - k) (exp (ln a0 - n)))).
Proof.
  destruct acc_form as (H0 & r & P1 & P2 & V & P). exists H0, r. split; [exact P1|]. split; [exact P2|]. split; [exact P|]. split.
  - intros n Hn. unfold inv_aH. destruct (V n) as (w & ->). cbn [fsqrt]. destruct (Rlt_dec _ 0); [lra|]. reflexivity.
  - intros n w v E Hn. destruct (V n) as (w' & E'). rewrite E in E'. injection E' as -> ->. cbn [fsqrt]. destruct (Rlt_dec _ 0); [lra|]. reflexivity.
Qed.
Lemma x_past n : n <= ln a0 -> 1 <= exp (ln a0 - n).
Proof.
  intros [L| ->]; [rewrite <- exp_0; apply Rlt_le, exp_increasing; lra|]. rewrite Rminus_diag_eq by reflexivity. rewrite exp_0. lra.
Qed.
Lemma inv_aH_pos n : n <= ln a0 -> 0 < inv_aH n.
Proof.
  intros Hn. destruct inv_aH_form as (H0 & r & P1 & P2 & P & V & _). pose proof (P _ (x_past n Hn)) as PP. rewrite V by lra.
  apply Rdiv_lt_0_compat; [apply exp_pos|]. apply Rmult_lt_0_compat; [exact P1|apply sqrt_lt_R0; exact PP].
Qed.
Lemma inv_aH_cont n : n <= ln a0 -> continuous inv_aH n.
Proof.
  intros Hn. destruct inv_aH_form as (H0 & r & P1 & P2 & P & V & _). pose proof (P _ (x_past n Hn)) as PP.
  set (e := fun n => E2 r m k (1 - r - m - k) (exp (ln a0 - n))) in *.
  assert (CE : continuous e n).
  { apply (ex_derive_continuous e). unfold e, E2. auto_derive. exact I. }
  assert (EV : locally n (fun y => 0 < e y)) by (apply (CE (fun z => 0 < z)); apply open_gt; exact PP).
  apply (continuous_ext_loc (U := R_UniformSpace) _ (fun n => exp (- n) / (H0 * sqrt (e n)))).
  - destruct EV as [eps EV]. exists eps. intros y Hy. symmetry. apply V. apply Rlt_le. apply EV. exact Hy.
  - apply (ex_derive_continuous (fun n => exp (- n) / (H0 * sqrt (e n)))). unfold e, E2 in *. auto_derive.
    repeat split; try exact PP. apply Rgt_not_eq. apply Rmult_lt_0_compat; [exact P1|]. apply sqrt_lt_R0. exact PP.
Qed.
Lemma inv_aH_int a b : a <= ln a0 -> b <= ln a0 -> ex_RInt inv_aH a b.
Proof.
  intros Ha Hb. apply (ex_RInt_continuous (V := R_CompleteNormedModule)). intros z [_ Hz]. apply inv_aH_cont. apply Rle_trans with (1 := Hz). apply Rmax_lub; assumption.
Qed.
Lemma eta_val quad a b : exact_quad quad -> a <= ln a0 -> b <= ln a0 ->
  eta_of (conformal_time F quad a (NScalar b) m k h) = Ok (RInt inv_aH a b).
Proof.
  intros EQ Ha Hb. unfold conformal_time, ct_scalar, integrand. destruct acc_form as (H0 & r & P1 & P2 & V & P). destruct (V a) as (w & ->). cbn [bind eta_of]. refine (f_equal (@Ok R) _).
  apply EQ. intros x Hx. assert (Lx : x <= ln a0) by (apply Rle_trans with (1 := proj2 Hx); apply Rmax_lub; assumption).
  split; [|apply inv_aH_cont; exact Lx]. pose proof (P _ (x_past x Lx)) as PP. unfold inv_aH. destruct (V x) as (w' & ->). cbn [bind snd fsqrt].
  destruct (Rlt_dec _ 0); [lra|]. cbn [fmul fdiv]. destruct (Req_EM_T _ 0) as [Z|_]; [|reflexivity].
  exfalso. apply Rmult_integral in Z. pose proof (sqrt_lt_R0 _ PP). destruct Z; lra.
Qed.
End Fixed.

Theorem C65_conformal_time :
  forall quad m k h a0, exact_quad quad -> 0 < h -> get_a0 F h k "planck" = Ok a0 ->
  (exists N w v, Hubble_parameter F N m k h "planck" = Ok (w, v)) ->
  exists eta : R -> R -> R,
  (forall N1 N2, N1 <= ln a0 -> N2 <= ln a0 -> eta_of (conformal_time F quad N1 (NScalar N2) m k h) = Ok (eta N1 N2)) /\
  (forall N, N <= ln a0 -> eta N N = 0) /\
  (forall N1 N2 N3, N1 <= ln a0 -> N2 <= ln a0 -> N3 <= ln a0 -> eta N1 N3 = eta N1 N2 + eta N2 N3) /\
  (forall N1 N2, N1 < N2 <= ln a0 -> 0 < eta N1 N2) /\
  (forall N1 N w H, N1 <= ln a0 -> N < ln a0 -> Hubble_parameter F N m k h "planck" = Ok (w, Fin H) ->
     is_derive (eta N1) N (exp (- N) / H)).
Proof.
  intros quad m k h a0 EQ Hh EA ACC. exists (fun a b => RInt (inv_aH m k h) a b).
  split; [intros N1 N2 H1 H2; apply (eta_val m k h a0); assumption|].
  split; [intros N HN; exact (RInt_point N (inv_aH m k h))|].
  split.
  { intros N1 N2 N3 H1 H2 H3. symmetry. change (plus (RInt (inv_aH m k h) N1 N2) (RInt (inv_aH m k h) N2 N3) = RInt (inv_aH m k h) N1 N3).
    apply RInt_Chasles; apply (inv_aH_int m k h a0); assumption. }
  split.
  { intros N1 N2 [H1 H2]. apply RInt_gt_0; [exact H1| |]; intros x Hx; [apply (inv_aH_pos m k h a0)|apply (inv_aH_cont m k h a0)]; try assumption; lra. }
  intros N1 N w H H1 H2 EH.
  replace (exp (- N) / H) with (inv_aH m k h N) by (unfold inv_aH; rewrite EH; reflexivity).
  apply is_derive_RInt with (a := N1).
  - assert (P : 0 < ln a0 - N) by lra. exists (mkposreal _ P). intros y Hy. apply (RInt_correct (V := R_CompleteNormedModule)). apply (inv_aH_int m k h a0); try assumption.
    change (Rabs (y - N) < ln a0 - N) in Hy. apply Rabs_lt_between' in Hy. lra.
  - apply (inv_aH_cont m k h a0); try assumption. lra.
Qed.
(** arrays are filled pointwise with the scalar values (without the error estimates) *)
Theorem C65_array :
  forall quad m k h N1 Ns es, conformal_time F quad N1 (NArray Ns) m k h = Ok (CArray es) ->
  List.length es = List.length Ns /\
  forall i, (i < List.length Ns)%nat -> eta_of (conformal_time F quad N1 (NScalar (nth i Ns 0)) m k h) = Ok (nth i es 0).
Proof.
  intros quad m k h N1 Ns. induction Ns as [|n t IH]; intros es E.
  - injection E as <-. split; [reflexivity|]. intros i Hi. cbn in Hi. lia.
  - cbn in E. destruct (ct_scalar F quad N1 m k h n) as [[e r]|x] eqn:E1; [|discriminate]. cbn [bind fst] in E.
    match type of E with bind ?X _ = _ => change X with (conformal_time F quad N1 (NArray t) m k h) in E end.
    destruct (conformal_time F quad N1 (NArray t) m k h) as [[e' r'|es']|x] eqn:E2; try discriminate. injection E as <-.
    destruct (IH es' eq_refl) as [L P]. split; [cbn; rewrite L; reflexivity|]. intros [|i] Hi.
    + cbn. rewrite E1. reflexivity.
    + cbn in Hi. apply (P i). lia.
Qed.
(** a number gives scipy's pair (value, error estimate) of the integral of 1/(aH) between the two e-folds *)
Theorem C65_error_estimate :
  forall quad m k h N1 N2 v e, conformal_time F quad N1 (NScalar N2) m k h = Ok (CPair v e) ->
  exists f, quad f N1 N2 = (v, e) /\
    forall n w H, Hubble_parameter F n m k h "planck" = Ok (w, H) -> f n = fdiv (Fin (exp (- n))) H.
Proof.
  intros quad m k h N1 N2 v e E. unfold conformal_time, ct_scalar in E. destruct (integrand F m k h N1) as [x|]; [|discriminate]. cbn [bind] in E.
  injection E as <- <-. eexists. split; [apply surjective_pairing|]. intros n w H EH. cbv beta. unfold integrand. rewrite EH. reflexivity.
Qed.
Theorem C65_type_error : forall quad m k h N1, conformal_time F quad N1 NOther m k h = Raise TypeError.
Proof. reflexivity. Qed.
End U.

(** ** C82: the ratio of conformal times *)
Section R.
Variable F : phys.
Hypothesis OK : phys_ok F.
(** curved universes, where N is ln(a) in Planck units: the ratio of the conformal time before the end
    of inflation to the one from there until today *)
Theorem C82_ratio_partial :
  forall quad m k h a0 fw bw beg fin, exact_quad quad -> 0 < h -> get_a0 F h k "planck" = Ok a0 ->
  (exists N w v, Hubble_parameter F N m k h "planck" = Ok (w, v)) ->
  ct_a0 fw = Some a0 -> ct_N_end fw < ln a0 ->
  (exists t, ct_eta fw = (t ++ [fin])%list) ->
  match bw with None => exists t, ct_eta fw = beg :: t | Some b => exists t, ct_eta b = (t ++ [beg])%list end ->
  exists after, 0 < after /\ eta_of (conformal_time F quad (ct_N_end fw) (NScalar (ln a0)) m k h) = Ok after /\
  conformal_time_ratio F quad m k h fw bw = Ok ((fin - beg) / after) /\
  (1 < (fin - beg) / after <-> after < fin - beg).
Proof.
  intros quad m k h a0 fw bw beg fin EQ Hh EA ACC E0 HN (t & Et) Eb.
  destruct (C65_conformal_time F OK quad m k h a0 EQ Hh EA ACC) as (eta & V & _ & _ & P & _).
  exists (eta (ct_N_end fw) (ln a0)). assert (PP : 0 < eta (ct_N_end fw) (ln a0)) by (apply P; lra).
  split; [exact PP|]. split; [apply V; lra|]. split.
  - unfold conformal_time_ratio. 
    replace (match bw with None => first_of (ct_eta fw) | Some b => last_of' (ct_eta b) end) with (@Ok R beg).
    2:{ destruct bw as [b|]; [destruct Eb as [t' ->]; unfold last_of'; rewrite rev_unit; reflexivity|destruct Eb as [t' ->]; reflexivity]. }
    cbn [bind]. rewrite Et. unfold last_of'. rewrite rev_unit. cbn [bind]. rewrite E0. cbn [bind].
    specialize (V (ct_N_end fw) (ln a0) ltac:(lra) ltac:(lra)).
    destruct (conformal_time F quad (ct_N_end fw) (NScalar (ln a0)) m k h) as [[e r|es]|x]; try discriminate. injection V as <-. reflexivity.
  - split; intros X.
    + apply Rmult_lt_compat_r with (r := eta (ct_N_end fw) (ln a0)) in X; [|exact PP]. unfold Rdiv in X. rewrite Rmult_assoc, Rinv_l in X by lra. lra.
    + apply Rmult_lt_reg_r with (eta (ct_N_end fw) (ln a0)); [exact PP|]. unfold Rdiv. rewrite Rmult_assoc, Rinv_l by lra. lra.
Qed.
(** flat universes: the origin of _N is arbitrary (shifting N_i by d rescales a and therefore eta by
    exp(-d)), but the ratio uses the uncalibrated _N_end together with a0 = 1 and changes with d *)
Theorem C82_flat_refuted :
  ~ (forall quad m h etas N_end d, exact_quad quad -> 0 < h ->
     (exists N w v, Hubble_parameter F N m 0 h "planck" = Ok (w, v)) -> N_end < 0 -> N_end + d < 0 ->
     conformal_time_ratio F quad m 0 h (mkctbg etas N_end (Some 1)) None =
     conformal_time_ratio F quad m 0 h (mkctbg (map (fun e => e * exp (- d)) etas) (N_end + d) (Some 1)) None).
Proof.
  intros C.
  set (quad := fun (f : R -> fl) a b => (RInt (fun x => match f x with Fin y => y | _ => 0 end) a b, 0) : R * R).
  assert (EQ : exact_quad quad).
  { intros f g a b Hf. unfold quad. cbn [fst]. apply RInt_ext. intros x Hx. rewrite (proj1 (Hf x ltac:(lra))). reflexivity. }
  assert (ACC : exists N w v, Hubble_parameter F N (1/2) 0 1 "planck" = Ok (w, v)) by (exists 0; apply (hubble_ok F OK); [lra|lra|auto]).
  assert (EA : get_a0 F 1 0 "planck" = Ok 1) by apply C63_flat.
  set (f := inv_aH F (1/2) 0 1).
  (* after(N) *)
  assert (V : forall N, N <= 0 -> eta_of (conformal_time F quad N (NScalar (ln 1)) (1/2) 0 1) = Ok (RInt f N 0)).
  { intros N HN. rewrite ln_1. apply (eta_val F OK (1/2) 0 1 1); try assumption; rewrite ?ln_1; lra. }
  assert (INT : forall a b, a <= 0 -> b <= 0 -> ex_RInt f a b) by (intros; apply (inv_aH_int F OK (1/2) 0 1 1); try assumption; rewrite ?ln_1; lra).
  assert (POS : forall a, a < 0 -> 0 < RInt f a 0).
  { intros a Ha. apply RInt_gt_0; [exact Ha| |]; intros x Hx; [apply (inv_aH_pos F OK (1/2) 0 1 1)|apply (inv_aH_cont F OK (1/2) 0 1 1)]; try assumption; rewrite ?ln_1; lra. }
  assert (RAT : forall N e0 e1, N <= 0 -> conformal_time_ratio F quad (1/2) 0 1 (mkctbg [e0; e1] N (Some 1)) None = Ok ((e1 - e0) / RInt f N 0)).
  { intros N e0 e1 HN. unfold conformal_time_ratio. cbn [ct_eta first_of last_of' rev app ct_a0 ct_N_end bind].
    specialize (V N HN). destruct (conformal_time F quad N (NScalar (ln 1)) (1/2) 0 1) as [[e r|es]|x]; try discriminate. injection V as <-. reflexivity. }
  (* invariance would give after(-2+d) = exp(-d) after(-2) *)
  assert (SC : forall d, 0 < d < 2 -> RInt f (-2 + d) 0 = exp (- d) * RInt f (-2) 0).
  { intros d Hd. pose proof (C quad (1/2) 1 [0; 1] (-2) d EQ ltac:(lra) ACC ltac:(lra) ltac:(lra)) as X. cbn [map] in X.
    rewrite !RAT in X by lra. injection X as X. pose proof (POS (-2) ltac:(lra)) as PA. pose proof (POS (-2 + d) ltac:(lra)) as PB. pose proof (exp_pos (- d)) as PE.
    apply Rmult_eq_reg_l with (/ (RInt f (-2) 0 * RInt f (-2 + d) 0)); [|apply Rinv_neq_0_compat; intros Z; apply Rmult_integral in Z; destruct Z; lra].
    transitivity ((1 - 0) / RInt f (-2) 0); [field; lra|]. rewrite X. field. lra. }
  (* bound: f <= e / H0 on [-1,0] *)
  destruct (inv_aH_form F OK (1/2) 0 1 1 ltac:(lra) EA ACC) as (H0 & r & P1 & P2 & P & Vf & _).
  assert (BD : forall n, -1 <= n <= 0 -> f n <= exp 1 / H0).
  { intros n Hn. rewrite ln_1 in Vf. unfold f. assert (X : 1 <= exp (0 - n)).
    { destruct (Req_dec n 0) as [->|]; [replace (0 - 0) with 0 by ring; rewrite exp_0; lra|]. rewrite <- exp_0. apply Rlt_le, exp_increasing. lra. }
    assert (G : 1 <= E2 r (1/2) 0 (1 - r - 1/2 - 0) (exp (0 - n))).
    { set (x := exp (0 - n)) in *. unfold E2. assert (1 <= x ^ 2) by nra. assert (1 <= x ^ 3) by nra. assert (1 <= x ^ 4) by nra. nra. }
    rewrite Vf by lra. assert (S1 : 1 <= sqrt (E2 r (1/2) 0 (1 - r - 1/2 - 0) (exp (0 - n)))) by (rewrite <- sqrt_1 at 1; apply sqrt_le_1_alt; exact G).
    set (q := sqrt (E2 r (1/2) 0 (1 - r - 1/2 - 0) (exp (0 - n)))) in *.
    assert (Hq : H0 <= H0 * q) by (rewrite <- (Rmult_1_r H0) at 1; apply Rmult_le_compat_l; lra).
    apply Rmult_le_compat; [apply Rlt_le, exp_pos|apply Rlt_le, Rinv_0_lt_compat; lra| |apply Rinv_le_contravar; [exact P1|exact Hq]].
    destruct (Req_dec n (-1)) as [->|]; [replace (- -1) with 1 by ring; lra|]. apply Rlt_le, exp_increasing. lra. }
  assert (UP : forall s, 0 < s <= 1 -> RInt f (- s) 0 <= s * (exp 1 / H0)).
  { intros s Hs. pose proof (RInt_le f (fun _ => exp 1 / H0) (- s) 0 ltac:(lra) (INT (- s) 0 ltac:(lra) ltac:(lra)) (ex_RInt_const _ _ _)) as L.
    rewrite RInt_const in L. replace (s * (exp 1 / H0)) with (scal (0 - - s) (exp 1 / H0)) by (unfold scal; cbn; unfold mult; cbn; ring).
    apply L. intros x Hx. apply BD. lra. }
  pose proof (POS (-2) ltac:(lra)) as PA. set (A := RInt f (-2) 0) in *.
  assert (B0 : 0 < exp 1 / H0) by (apply Rdiv_lt_0_compat; [apply exp_pos|exact P1]). set (B := exp 1 / H0) in *.
  set (e2 := exp (- 2) * A). assert (E0 : 0 < e2) by (apply Rmult_lt_0_compat; [apply exp_pos|exact PA]).
  set (s := Rmin 1 (e2 / (2 * B))). assert (S0 : 0 < s) by (unfold s; apply Rmin_glb_lt; [lra|apply Rdiv_lt_0_compat; lra]).
  assert (S1 : s <= 1) by apply Rmin_l. assert (S2 : s * B <= e2 / 2).
  { pose proof (Rmin_r 1 (e2 / (2 * B))) as X. fold s in X. apply Rmult_le_compat_r with (r := B) in X; [|lra]. replace (e2 / (2 * B) * B) with (e2 / 2) in X by (field; lra). exact X. }
  pose proof (UP s ltac:(lra)) as U. pose proof (SC (2 - s) ltac:(lra)) as Q. replace (-2 + (2 - s)) with (- s) in Q by ring. rewrite Q in U.
  assert (e2 <= exp (- (2 - s)) * A) by (unfold e2; apply Rmult_le_compat_r; [lra|]; apply Rlt_le, exp_increasing; lra). lra.
Qed.
End R.

Example phys_ex : phys_ok (mkphys 1 1 1 1 1 1).
Proof. repeat split; cbn; lra. Qed.
Theorem C65_nonvacuous : exists N w v, Hubble_parameter (mkphys 1 1 1 1 1 1) N (1/2) (-1/10) (7/10) "planck" = Ok (w, v).
Proof. exists 0. apply (hubble_ok _ phys_ex); [lra|lra|auto]. Qed.
