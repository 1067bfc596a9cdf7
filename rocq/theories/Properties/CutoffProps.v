(** C123: the power of a mode never exceeds a fixed multiple of the power of its vacuum at the start of the
    integration; with the default vacuum the largest scales are suppressed like k^2. *)
From Coq Require Import Reals List String Lra Lia Classical.
From Coquelicot Require Import Coquelicot.
From Verif Require Import Base Model.Potentials Model.SlowRoll Model.Equations Model.Background Model.Float Model.Solution Model.InitCond Model.Perturbations Model.Oscode
  Spec.PotentialSpec Spec.SlowRollSpec Spec.BackgroundSpec Spec.PerturbationSpec Spec.OscodeSpec Spec.SpectrumSpec
  Proofs.PhiEnd Proofs.SRN Proofs.Bracket Proofs.BackgroundT Proofs.BackgroundN Proofs.Unique Proofs.SlowRollBound Proofs.Roll Proofs.BackgroundEx
  Properties.InitProps Properties.PertProps Properties.OscodeProps Properties.ModeProps Properties.ModeUniqueProps Properties.FreezeProps Properties.SpectrumProps
  Properties.SlowRollBoundProps Properties.BracketProps Properties.UniqueProps Properties.InflationEndsProps Properties.EndNonvacuity Properties.OpenNonvacuity.
Import ListNotations.
Open Scope R_scope.
Open Scope string_scope.

Lemma sq_cmod z : Cmod z ^ 2 = fst z ^ 2 + snd z ^ 2.
Proof. unfold Cmod. apply pow2_sqrt. apply Rplus_le_le_0_compat; apply pow2_ge_0. Qed.
Lemma start_size v u x : starts_from v u x -> Cmod (u x) ^ 2 = fst (fst v) ^ 2 + snd (fst v) ^ 2 /\ speed2 u x = fst (snd v) ^ 2 + snd (snd v) ^ 2.
Proof. intros (S0 & S1 & S2). split; [rewrite S0; apply sq_cmod|]. 
  assert (D1 : Derive (fun s => fst (u s)) x = fst (snd v)) by (apply is_derive_unique; exact S1). assert (D2 : Derive (fun s => snd (u s)) x = snd (snd v)) by (apply is_derive_unique; exact S2).
  unfold speed2. rewrite D1, D2. reflexivity.
Qed.
Lemma scaled kap k Cm r2 X : 0 < kap -> kap * Cm <= (k^2 + kap) * r2 -> 0 <= X -> Cm * X <= (1 + k^2 / kap) * (r2 * X).
Proof.
  intros K0 H X0. replace ((1 + k^2 / kap) * (r2 * X)) with ((k^2 + kap) * r2 / kap * X) by (field; lra). apply Rmult_le_compat_r; [exact X0|].
  apply Rmult_le_reg_l with kap; [exact K0|]. replace (kap * ((k^2 + kap) * r2 / kap)) with ((k^2 + kap) * r2) by (field; lra). exact H.
Qed.
(** size of a vacuum r, -i (k/A) r *)
Lemma rst_size (r k A : R) : A <> 0 -> let v := (RtoC r, (- Ci * RtoC k / RtoC A * RtoC r)%C) in
  fst (fst v) ^ 2 + snd (fst v) ^ 2 = r^2 /\ A^2 * (fst (snd v) ^ 2 + snd (snd v) ^ 2) = k^2 * r^2.
Proof.
  intros NA. cbv zeta. cbn [fst snd].
  assert (E : (- Ci * RtoC k / RtoC A * RtoC r)%C = (0, - (k / A * r))).
  { unfold Cdiv. rewrite <- RtoC_inv by exact NA. unfold Ci, RtoC, Cmult, Copp. cbn [fst snd]. f_equal; field; exact NA. }
  rewrite E. cbn [fst snd RtoC]. split; [ring|field; exact NA].
Qed.

(** tensor modes, RST vacuum, any curvature with a real frequency *)
Theorem C123_tensor_time : forall osc med K U te y a b ts bg k vs drop fb fe x1 d1 x2 d2 p i j ti tj xs,
  T_background K U te y a b -> a < ti -> ti <= tj -> tj < b -> holds_samples true K U (T_sample K U te y) ts bg ->
  solve_oscode osc med bg (KScalar k) (Some vs) drop fb fe (Some [x1; d1; x2; d2]) false = Ok (RetMode (Some p)) ->
  window (ob_logaH bg) (map s_N (ob_s bg)) k fb fe = Ok (i, j) -> (i <= j)%nat -> nth_error ts i = Some ti -> nth_error ts j = Some tj -> is_range xs ts i j ->
  x1 * d2 - d1 * x2 <> 0 -> median_of_equal med ->
  (forall tensor : bool, integrates_exactly osc (fun t => damp true tensor K k U (T_sample K U te y t)) (fun t => freq2 true tensor K k U (T_sample K U te y t)) a b xs ti tj) ->
  let kap := k^2 + k * K * (K + 1) + 2 * K in 0 < k -> 0 < kap -> In "RST" vs ->
  exists P, dget "RST" (pP_t p) = Ok P /\ P <= (1 + k^2 / kap) * (2 * k^2 / (PI^2 * exp (T_N te y ti) ^ 2)).
Proof.
  intros osc med K U te y a b ts bg k vs drop fb fe x1 d1 x2 d2 p i j ti tj xs B A1 A2 A3 HS R W IJ Xi Xj RX WR M IE kap K0 KP Hin.
  destruct (exact_power true osc med K U (T_sample K U te y) a b ts k vs drop fb fe x1 d1 x2 d2 p i j ti tj xs "RST" bg HS R W IJ Xi Xj RX WR M IE Hin ltac:(simpl; tauto) true (or_introl eq_refl))
    as (u & v & VS & MU & SU & G).
  eexists. split; [exact G|].
  assert (EV : v = Tt_vac_RST k (T_sample K U te y ti)) by (destruct VS as [[E _]|[[E _]|[_ E]]]; [discriminate E|discriminate E|exact E]).
  destruct (C96_tensor_time K U te y a b B k u ti tj 0 ltac:(fold kap; lra) MU A1 A2 A3) as [EN _]. cbv zeta in EN. fold kap in EN.
  destruct (start_size v u ti SU) as [E1 E2]. unfold Tt_vac_RST, T_sample in EV. cbn [s_N] in EV. set (A := exp (T_N te y ti)) in *. assert (AP : 0 < A) by apply exp_pos.
  set (r := 2 / sqrt (2 * k) / A) in *. destruct (rst_size r k A ltac:(lra)) as [Q1 Q2]. rewrite EV in E1, E2. rewrite E1, E2, Q1 in EN. rewrite Q2 in EN.
  assert (S2 : sqrt (2 * k) * sqrt (2 * k) = 2 * k) by (apply sqrt_sqrt; lra). assert (SP : 0 < sqrt (2 * k)) by (apply sqrt_lt_R0; lra).
  assert (RR : r^2 = 2 / (k * A^2)) by (unfold r; replace ((2 / sqrt (2 * k) / A)^2) with (4 / (sqrt (2 * k) * sqrt (2 * k)) / A^2) by (field; lra); rewrite S2; field; lra).
  pose proof PI_RGT_0 as PP.
  replace (2 * k^2 / (PI^2 * A^2)) with (r^2 * (k^3 / (1 * PI^2))) by (rewrite RR; field; lra).
  apply scaled; [exact KP| |left; apply Rdiv_lt_0_compat; [apply pow_lt, K0|apply Rmult_lt_0_compat; [lra|apply pow_lt, PP]]].
  assert (SP2 : 0 <= exp (T_N te y tj) ^ 2 * speed2 u tj).
  { apply Rmult_le_pos; [apply pow2_ge_0|]. unfold speed2. apply Rplus_le_le_0_compat; apply pow2_ge_0. }
  lra.
Qed.
Theorem C123_tensor_efolds : forall osc med K U tt te y a b ns bg k vs drop fb fe x1 d1 x2 d2 p i j ni nj xs,
  N_background K U tt te y a b -> a < ni -> ni <= nj -> nj < b -> holds_samples false K U (N_sample K U tt te y) ns bg ->
  solve_oscode osc med bg (KScalar k) (Some vs) drop fb fe (Some [x1; d1; x2; d2]) false = Ok (RetMode (Some p)) ->
  window (ob_logaH bg) (map s_N (ob_s bg)) k fb fe = Ok (i, j) -> (i <= j)%nat -> nth_error ns i = Some ni -> nth_error ns j = Some nj -> is_range xs ns i j ->
  x1 * d2 - d1 * x2 <> 0 -> median_of_equal med ->
  (forall tensor : bool, integrates_exactly osc (fun n => damp false tensor K k U (N_sample K U tt te y n)) (fun n => freq2 false tensor K k U (N_sample K U tt te y n)) a b xs ni nj) ->
  let kap := k^2 + k * K * (K + 1) + 2 * K in 0 < k -> 0 < kap -> In "RST" vs ->
  exists P, dget "RST" (pP_t p) = Ok P /\ P <= (1 + k^2 / kap) * (2 * k^2 / (PI^2 * exp ni ^ 2)).
Proof.
  intros osc med K U tt te y a b ts bg k vs drop fb fe x1 d1 x2 d2 p i j ti tj xs B A1 A2 A3 HS R W IJ Xi Xj RX WR M IE kap K0 KP Hin.
  destruct (exact_power false osc med K U (N_sample K U tt te y) a b ts k vs drop fb fe x1 d1 x2 d2 p i j ti tj xs "RST" bg HS R W IJ Xi Xj RX WR M IE Hin ltac:(simpl; tauto) true (or_introl eq_refl))
    as (u & v & VS & MU & SU & G).
  eexists. split; [exact G|].
  assert (EV : v = Nt_vac_RST k (N_sample K U tt te y ti)) by (destruct VS as [[E _]|[[E _]|[_ E]]]; [discriminate E|discriminate E|exact E]).
  destruct (C96_tensor_efolds K U tt te y a b B k u ti tj 0 ltac:(fold kap; lra) MU A1 A2 A3) as [EN _]. cbv zeta in EN. fold kap in EN.
  destruct (start_size v u ti SU) as [E1 E2]. unfold Nt_vac_RST, N_sample in EV. cbn [s_N s_H] in EV. destruct (N_pos K U tt te y a b B ti ltac:(lra)) as [HP _].
  set (A := exp ti) in *. assert (AP : 0 < A) by apply exp_pos. set (H := N_Hub K U tt te y ti) in *.
  set (r := 2 / sqrt (2 * k) / A) in *. assert (AH : A * H <> 0) by (apply Rgt_not_eq, Rmult_lt_0_compat; assumption).
  destruct (rst_size r k (A * H) AH) as [Q1 Q2]. rewrite EV in E1, E2. rewrite E1, E2, Q1 in EN. rewrite Q2 in EN.
  assert (S2 : sqrt (2 * k) * sqrt (2 * k) = 2 * k) by (apply sqrt_sqrt; lra). assert (SP : 0 < sqrt (2 * k)) by (apply sqrt_lt_R0; lra).
  assert (RR : r^2 = 2 / (k * A^2)) by (unfold r; replace ((2 / sqrt (2 * k) / A)^2) with (4 / (sqrt (2 * k) * sqrt (2 * k)) / A^2) by (field; lra); rewrite S2; field; lra).
  pose proof PI_RGT_0 as PP.
  replace (2 * k^2 / (PI^2 * A^2)) with (r^2 * (k^3 / (1 * PI^2))) by (rewrite RR; field; lra).
  apply scaled; [exact KP| |left; apply Rdiv_lt_0_compat; [apply pow_lt, K0|apply Rmult_lt_0_compat; [lra|apply pow_lt, PP]]].
  assert (SP2 : 0 <= (exp tj * N_Hub K U tt te y tj) ^ 2 * speed2 u tj).
  { apply Rmult_le_pos; [apply pow2_ge_0|]. unfold speed2. apply Rplus_le_le_0_compat; apply pow2_ge_0. }
  lra.
Qed.

(** scalar modes in a flat universe while z = a phi'/H does not shrink *)
Theorem C123_scalar_time : forall osc med U te y a b ts bg k vs drop fb fe x1 d1 x2 d2 p i j ti tj xs,
  T_background 0 U te y a b -> a < ti -> ti <= tj -> tj < b -> holds_samples true 0 U (T_sample 0 U te y) ts bg ->
  solve_oscode osc med bg (KScalar k) (Some vs) drop fb fe (Some [x1; d1; x2; d2]) false = Ok (RetMode (Some p)) ->
  window (ob_logaH bg) (map s_N (ob_s bg)) k fb fe = Ok (i, j) -> (i <= j)%nat -> nth_error ts i = Some ti -> nth_error ts j = Some tj -> is_range xs ts i j ->
  x1 * d2 - d1 * x2 <> 0 -> median_of_equal med ->
  (forall tensor : bool, integrates_exactly osc (fun t => damp true tensor 0 k U (T_sample 0 U te y t)) (fun t => freq2 true tensor 0 k U (T_sample 0 U te y t)) a b xs ti tj) ->
  (forall t, a < t < b -> T_dphi te y t <> 0 /\ 0 <= zvar 0 U te y t * Derive (zvar 0 U te y) t) ->
  0 < k -> In "RST" vs ->
  exists P, dget "RST" (pP_s p) = Ok P /\ P <= 2 * (k^2 / (4 * PI^2 * zvar 0 U te y ti ^ 2)).
Proof.
  intros osc med U te y a b ts bg k vs drop fb fe x1 d1 x2 d2 p i j ti tj xs B A1 A2 A3 HS R W IJ Xi Xj RX WR M IE ZG K0 Hin.
  destruct (exact_power true osc med 0 U (T_sample 0 U te y) a b ts k vs drop fb fe x1 d1 x2 d2 p i j ti tj xs "RST" bg HS R W IJ Xi Xj RX WR M IE Hin ltac:(simpl; tauto) false ltac:(right; lra))
    as (u & v & VS & MU & SU & G).
  eexists. split; [exact G|].
  assert (EV : v = Ts_vac_RST k (T_sample 0 U te y ti)) by (destruct VS as [[E _]|[[E _]|[_ E]]]; [discriminate E|discriminate E|exact E]).
  destruct (C96_scalar_time k U te y a b u ti tj 0 B ltac:(lra) ZG MU A1 A2 A3) as [EN _]. cbv zeta in EN.
  destruct (start_size v u ti SU) as [E1 E2]. unfold Ts_vac_RST, T_sample in EV. cbn [s_N s_H s_dphidt] in EV. destruct (T_pos 0 U te y a b B ti ltac:(lra)) as [HP _]. destruct (ZG ti ltac:(lra)) as [D0 _].
  unfold zvar at 1. set (A := exp (T_N te y ti)) in *. assert (AP : 0 < A) by apply exp_pos.
  set (z := A * T_dphi te y ti / T_Hub 0 U te y ti) in *.
  assert (Z0 : z <> 0) by (unfold z, Rdiv; repeat apply Rmult_integral_contrapositive_currified; [lra|exact D0|apply Rinv_neq_0_compat; lra]). clearbody z.
  set (r := 1 / sqrt (2 * k) / z) in *. destruct (rst_size r k A ltac:(lra)) as [Q1 Q2]. rewrite EV in E1, E2. rewrite E1, E2, Q1 in EN. rewrite Q2 in EN.
  assert (S2 : sqrt (2 * k) * sqrt (2 * k) = 2 * k) by (apply sqrt_sqrt; lra). assert (SP : 0 < sqrt (2 * k)) by (apply sqrt_lt_R0; lra).
  assert (RR : r^2 = 1 / (2 * k * z^2)) by (unfold r; replace ((1 / sqrt (2 * k) / z)^2) with (1 / (sqrt (2 * k) * sqrt (2 * k)) / z^2) by (field; lra); rewrite S2; field; lra).
  pose proof PI_RGT_0 as PP. assert (K2 : 0 < k^2) by (apply pow_lt, K0).
  replace (2 * (k^2 / (4 * PI^2 * z^2))) with ((1 + k^2 / k^2) * (r^2 * (k^3 / (2 * PI^2)))) by (rewrite RR; field; lra).
  apply scaled; [exact K2| |left; apply Rdiv_lt_0_compat; [apply pow_lt, K0|apply Rmult_lt_0_compat; [lra|apply pow_lt, PP]]].
  assert (SP2 : 0 <= exp (T_N te y tj) ^ 2 * speed2 u tj).
  { apply Rmult_le_pos; [apply pow2_ge_0|]. unfold speed2. apply Rplus_le_le_0_compat; apply pow2_ge_0. }
  lra.
Qed.
Theorem C123_scalar_efolds : forall osc med U tt te y a b ns bg k vs drop fb fe x1 d1 x2 d2 p i j ni nj xs,
  N_background 0 U tt te y a b -> a < ni -> ni <= nj -> nj < b -> holds_samples false 0 U (N_sample 0 U tt te y) ns bg ->
  solve_oscode osc med bg (KScalar k) (Some vs) drop fb fe (Some [x1; d1; x2; d2]) false = Ok (RetMode (Some p)) ->
  window (ob_logaH bg) (map s_N (ob_s bg)) k fb fe = Ok (i, j) -> (i <= j)%nat -> nth_error ns i = Some ni -> nth_error ns j = Some nj -> is_range xs ns i j ->
  x1 * d2 - d1 * x2 <> 0 -> median_of_equal med ->
  (forall tensor : bool, integrates_exactly osc (fun n => damp false tensor 0 k U (N_sample 0 U tt te y n)) (fun n => freq2 false tensor 0 k U (N_sample 0 U tt te y n)) a b xs ni nj) ->
  (forall n, a < n < b -> N_dphi tt te y n <> 0 /\ 0 <= zvarN tt te y n * Derive (zvarN tt te y) n) ->
  0 < k -> In "RST" vs ->
  exists P, dget "RST" (pP_s p) = Ok P /\ P <= 2 * (k^2 / (4 * PI^2 * zvarN tt te y ni ^ 2)).
Proof.
  intros osc med U tt te y a b ts bg k vs drop fb fe x1 d1 x2 d2 p i j ti tj xs B A1 A2 A3 HS R W IJ Xi Xj RX WR M IE ZG K0 Hin.
  destruct (exact_power false osc med 0 U (N_sample 0 U tt te y) a b ts k vs drop fb fe x1 d1 x2 d2 p i j ti tj xs "RST" bg HS R W IJ Xi Xj RX WR M IE Hin ltac:(simpl; tauto) false ltac:(right; lra))
    as (u & v & VS & MU & SU & G).
  eexists. split; [exact G|].
  assert (EV : v = Ns_vac_RST k (N_sample 0 U tt te y ti)) by (destruct VS as [[E _]|[[E _]|[_ E]]]; [discriminate E|discriminate E|exact E]).
  destruct (C96_scalar_efolds k U tt te y a b u ti tj 0 B ltac:(lra) ZG MU A1 A2 A3) as [EN _]. cbv zeta in EN.
  destruct (start_size v u ti SU) as [E1 E2]. unfold Ns_vac_RST, N_sample in EV. cbn [s_N s_H s_dphidN] in EV. destruct (N_pos 0 U tt te y a b B ti ltac:(lra)) as [HP _]. destruct (ZG ti ltac:(lra)) as [D0 _].
  unfold zvarN at 1. set (A := exp ti) in *. assert (AP : 0 < A) by apply exp_pos. set (H := N_Hub 0 U tt te y ti) in *.
  set (z := A * N_dphi tt te y ti) in *. assert (Z0 : z <> 0) by (unfold z; apply Rmult_integral_contrapositive_currified; [lra|exact D0]). clearbody z.
  assert (AH : A * H <> 0) by (apply Rgt_not_eq, Rmult_lt_0_compat; assumption).
  set (r := 1 / sqrt (2 * k) / z) in *. destruct (rst_size r k (A * H) AH) as [Q1 Q2]. rewrite EV in E1, E2. rewrite E1, E2, Q1 in EN. rewrite Q2 in EN.
  assert (S2 : sqrt (2 * k) * sqrt (2 * k) = 2 * k) by (apply sqrt_sqrt; lra). assert (SP : 0 < sqrt (2 * k)) by (apply sqrt_lt_R0; lra).
  assert (RR : r^2 = 1 / (2 * k * z^2)) by (unfold r; replace ((1 / sqrt (2 * k) / z)^2) with (1 / (sqrt (2 * k) * sqrt (2 * k)) / z^2) by (field; lra); rewrite S2; field; lra).
  pose proof PI_RGT_0 as PP. assert (K2 : 0 < k^2) by (apply pow_lt, K0).
  replace (2 * (k^2 / (4 * PI^2 * z^2))) with ((1 + k^2 / k^2) * (r^2 * (k^3 / (2 * PI^2)))) by (rewrite RR; field; lra).
  apply scaled; [exact K2| |left; apply Rdiv_lt_0_compat; [apply pow_lt, K0|apply Rmult_lt_0_compat; [lra|apply pow_lt, PP]]].
  assert (SP2 : 0 <= (exp tj * N_Hub 0 U tt te y tj) ^ 2 * speed2 u tj).
  { apply Rmult_le_pos; [apply pow2_ge_0|]. unfold speed2. apply Rplus_le_le_0_compat; apply pow2_ge_0. }
  lra.
Qed.

(** ** starts written by SlowRollIC: the pump field grows until inflation ends *)
Lemma spread (f : R -> R) a b p r c : a < p -> p < r -> r < b -> 0 < c -> (forall s, a < s < b -> continuous f s) -> (forall s, p <= s < r -> c <= f s) ->
  exists a' b', a <= a' < p /\ r < b' <= b /\ forall s, a' < s < b' -> 0 < f s.
Proof.
  intros A1 A2 A3 C0 CO LB.
  assert (NEAR : forall m, a < m < b -> c / 2 < f m -> exists d, 0 < d /\ forall n, Rabs (n - m) < d -> 0 < f n).
  { intros m Hm Hv. pose proof (CO m Hm) as C. apply continuity_pt_filterlim in C. destruct (C (c / 4) ltac:(lra)) as (d & Hd & X). exists d. split; [exact Hd|]. intros n Hn.
    destruct (Req_dec n m) as [->|NE]; [lra|]. assert (Q : Rabs (f n - f m) < c / 4) by (apply X; split; [split; [exact Coq.Init.Logic.I|congruence]|exact Hn]).
    apply Rabs_def2 in Q. lra. }
  assert (RE : c / 2 < f r).
  { pose proof (CO r ltac:(lra)) as C. apply continuity_pt_filterlim in C. destruct (C (c / 4) ltac:(lra)) as (d & Hd & X).
    set (n := r - Rmin d (r - p) / 2). assert (RM : 0 < Rmin d (r - p) <= d) by (split; [apply Rmin_glb_lt; lra|apply Rmin_l]). pose proof (Rmin_r d (r - p)) as RM2.
    assert (Hn : p <= n < r) by (unfold n; lra). pose proof (LB n Hn) as Y.
    assert (Q : Rabs (f n - f r) < c / 4).
    { apply X. split; [split; [exact Coq.Init.Logic.I|unfold n; lra]|]. simpl. unfold R_dist. unfold n. apply Rabs_def1; lra. }
    apply Rabs_def2 in Q. lra. }
  pose proof (LB p ltac:(lra)) as RP.
  destruct (NEAR p ltac:(lra) ltac:(lra)) as (d1 & H1 & X1). destruct (NEAR r ltac:(lra) RE) as (d2 & H2 & X2).
  exists (Rmax a (p - d1)), (Rmin b (r + d2)).
  split; [split; [apply Rmax_l|apply Rmax_lub_lt; lra]|]. split; [split; [apply Rmin_glb_lt; lra|apply Rmin_l]|].
  intros s [S1 S2]. pose proof (Rmax_r a (p - d1)). pose proof (Rmin_r b (r + d2)).
  destruct (Rlt_dec s p) as [X|X]; [apply X1; apply Rabs_def1; lra|]. destruct (Rlt_dec s r) as [Y|Y]; [pose proof (LB s ltac:(lra)); lra|].
  apply X2; apply Rabs_def1; lra.
Qed.

Theorem C123_slow_roll : forall root P L tm te phi_i t_i eta_i x_end N_i e ic y0 y1,
  let U := potfun_of P L in
  root_spec root -> featureless P -> valid P -> (forall p phi0, P = DoubleWell p phi0 -> 1 <= p) -> P <> DoubleWell 1 (sqrt 2) ->
  L <> 0 -> branch P phi_i -> phi_end root P L = Ok e -> e < phi_i ->
  sr_init (IN 0 U tm te) phi_i t_i eta_i x_end (kw_of (InN N_i)) = Ok ic ->
  List.length y0 = List.length (N_idx tm te) -> sr_call ic y0 = Ok (map Fin y1) ->
  exists y a b N_end, a < N_i < N_end /\ N_end < b /\ N_background 0 U tm te y a b /\ y N_i = y1 /\
    (forall n, N_i <= n < N_end -> 0 < N_inflating 0 U tm te n (y n)) /\ N_inflating 0 U tm te N_end (y N_end) = 0 /\
    (forall n, a < n < b -> N_dphi tm te y n <> 0 /\ 0 <= zvarN tm te y n * Derive (zvarN tm te y) n) /\
    forall k n1 n2, 0 < k -> N_i <= n1 -> n1 <= n2 -> n2 <= N_end ->
      (forall u, N_mode false 0 k U tm te y u a b -> starts_from (Ns_vac_RST k (N_sample 0 U tm te y n1)) u n1 ->
         Cmod (u n2) ^ 2 * (k^3 / (2 * PI^2)) <= 2 * (k^2 / (4 * PI^2 * zvarN tm te y n1 ^ 2))) /\
      (forall u, N_mode true 0 k U tm te y u a b -> starts_from (Nt_vac_RST k (N_sample 0 U tm te y n1)) u n1 ->
         Cmod (u n2) ^ 2 * (k^3 / PI^2) <= 2 * (2 * k^2 / (PI^2 * exp n1 ^ 2))).
Proof.
  intros root P L tm te phi_i t_i eta_i x_end N_i e ic y0 y1 U HR HF HV HD HN HL HB HE LE SI LY SC.
  destruct (C120_efolds root P L tm te phi_i t_i eta_i x_end N_i e ic y0 y1 HR HF HV HD HN HL HB HE LE SI LY SC) as (y & a & b & N_end & N_sr & A1 & A2 & B & Ey & I & Z & _).
  destruct (branch_pos P L phi_i HF HV HL HB) as [V0 V1].
  destruct (sr_start_N U tm te phi_i t_i eta_i x_end N_i ic y0 y1 V0 SI LY SC) as [E1 E2].
  unfold U, potfun_of in E2. cbn [pV pdV] in E2. pose proof (Rdiv_lt_0_compat _ _ V1 V0) as LP.
  set (v_i := - dV P L phi_i / V P L phi_i) in *. set (lm := dV P L phi_i / V P L phi_i) in *. assert (VL : v_i = - lm) by (unfold v_i, lm; field; lra).
  assert (VI : - lm <= v_i < 0) by lra.
  pose proof (run_start P L tm te HF HV HL phi_i v_i N_i y1 HB E1 E2 VI y a b B ltac:(lra) Ey) as (B0 & ST & Q0).
  pose proof (run_infl P L tm te y a b B) as RI. cbv beta in RI.
  assert (FL : forall s, N_i <= s < b -> _) by (intros s Hs; exact (N_flow P L tm te y a b B s ltac:(lra))).
  assert (F2 : N_dphi tm te y N_i = v_i) by (unfold N_dphi; rewrite Ey; exact E2).
  assert (PH : forall s, a < s < b -> 0 < N_Hub 0 U tm te y s) by (intros s Hs; apply (N_pos 0 U tm te y a b B s Hs)).
  fold U in B0, ST, Q0, RI, FL. cbv beta in *.
  set (v := N_dphi tm te y) in *. set (Hf := N_Hub 0 U tm te y) in *. set (q := fun s => Hf s * v s).
  assert (DYN : forall n, N_i <= n < N_end -> v n <= v_i /\ N_d2phi 0 U tm te y n <= 0).
  { intros n Hn.
    assert (INF : forall s, N_i <= s <= n -> 0 < V P L (N_phi tm te y s) - (q s)^2) by (intros s Hs; unfold q; rewrite <- RI by lra; apply I; lra).
    pose proof (roll_pos P L HF HV HD (N_phi tm te y) q (fun x => x) Hf (fun s => / Hf s) N_i b FL B0 n ltac:(lra) INF) as POS.
    pose proof (roll_branch P L HF HV HL HD (N_phi tm te y) q (fun x => x) Hf (fun s => / Hf s) N_i b FL B0 ST n ltac:(lra) POS) as BR.
    assert (FL1 : forall s, N_i <= s <= n -> _) by (intros s Hs; exact (FL s ltac:(lra))).
    assert (DV : forall s, N_i <= s <= n -> is_derive (V P L) (N_phi tm te y s) (dV P L (N_phi tm te y s)) /\ is_derive (dV P L) (N_phi tm te y s) (d2V P L (N_phi tm te y s))).
    { intros s Hs. apply branch_derivs; try assumption. apply BR, Hs. }
    assert (UP : forall s, N_i <= s <= n -> 0 < V P L (N_phi tm te y s) /\ 0 < dV P L (N_phi tm te y s)) by (intros s Hs; apply branch_pos; try assumption; apply BR, Hs).
    assert (LC : forall s, N_i <= s <= n -> d2V P L (N_phi tm te y s) * V P L (N_phi tm te y s) <= (dV P L (N_phi tm te y s))^2) by (intros s Hs; apply branch_lc; try assumption; apply BR, Hs).
    pose proof (flow_rate (N_phi tm te y) q (fun x => x) Hf (fun s => / Hf s) (V P L) (dV P L) (d2V P L) N_i n FL1 DV UP LC ST n ltac:(lra)) as RT.
    pose proof (flow_lag (N_phi tm te y) q (fun x => x) Hf (fun s => / Hf s) (V P L) (dV P L) (d2V P L) N_i n FL1 DV UP LC ST n ltac:(lra)) as LG.
    pose proof (PH n ltac:(lra)) as HP. pose proof (PH N_i ltac:(lra)) as HPi. destruct (UP n ltac:(lra)) as [U1 U2].
    split.
    - replace (q n / Hf n) with (v n) in RT by (unfold q; field; lra). replace (q N_i / Hf N_i) with (v N_i) in RT by (unfold q; field; lra). rewrite F2 in RT. exact RT.
    - pose proof (N_d2phi_eq 0 U tm te y a b B n ltac:(lra)) as E. pose proof (N_V 0 U tm te y a b B n ltac:(lra)) as HVn. fold Hf v in E, HVn.
      assert (DH : N_dH 0 U tm te y n = - Hf n * (v n)^2 / 2) by (unfold N_dH, N_get_dH; fold Hf v; field; lra).
      destruct (FL n ltac:(lra)) as (_ & _ & _ & _ & FR & _). rewrite E, DH. unfold q in FR, LG. change (pdV U (N_phi tm te y n)) with (dV P L (N_phi tm te y n)).
      set (W := V P L (N_phi tm te y n)) in *. set (W1 := dV P L (N_phi tm te y n)) in *. set (h := Hf n) in *. set (w := v n) in *. clearbody W W1 h w.
      assert (WE : W = 3 * h^2 - (h * w)^2 / 2) by lra.
      replace (- (- h * w ^ 2 / 2 / h + 3) * w - W1 / h ^ 2) with (- (W / h^3 * (h * w + h * (W1 / W)))).
      + assert (0 <= W / h^3) by (left; apply Rdiv_lt_0_compat; [exact U1|apply pow_lt, HP]). pose proof (Rmult_le_pos _ _ H LG). lra.
      + replace (W / h ^ 3 * (h * w + h * (W1 / W))) with ((W * w + W1) / h^2) by (field; lra). rewrite WE. field. lra. }
  assert (CD : forall n, a < n < b -> continuous v n /\ continuous (N_d2phi 0 U tm te y) n).
  { intros n Hn. destruct (N_comps 0 U tm te y a b B n Hn) as (_ & D & _). pose proof (N_d2phi_derive 0 U tm te y a b B n Hn) as D'.
    split; [apply (ex_derive_continuous v)|apply (ex_derive_continuous (N_d2phi 0 U tm te y))]; eexists; eassumption. }
  destruct (spread (fun n => - v n) a b N_i N_end (- v_i) ltac:(lra) ltac:(lra) ltac:(lra) ltac:(lra)) as (a1 & b1 & Ha1 & Hb1 & S1).
  { intros n Hn. apply (continuous_opp (V := R_NormedModule) v). exact (proj1 (CD n Hn)). }
  { intros n Hn. pose proof (proj1 (DYN n Hn)). lra. }
  destruct (spread (fun n => v n * v n + v n * N_d2phi 0 U tm te y n) a1 b1 N_i N_end (v_i^2) ltac:(lra) ltac:(lra) ltac:(lra) ltac:(apply pow2_gt_0; lra)) as (a2 & b2 & Ha2 & Hb2 & S2).
  { intros n Hn. destruct (CD n ltac:(lra)) as [C1 C2].
    apply (continuous_plus (fun n => v n * v n) (fun n => v n * N_d2phi 0 U tm te y n)); [apply (continuous_mult v v); assumption|apply (continuous_mult v (N_d2phi 0 U tm te y)); assumption]. }
  { intros n Hn. destruct (DYN n Hn) as [X Y]. set (w := v n) in *. set (w' := N_d2phi 0 U tm te y n) in *. clearbody w w'. nra. }
  cbv beta in S1, S2.
  pose proof (N_restrict 0 U tm te y a b a2 b2 B ltac:(lra) ltac:(lra)) as B2.
  assert (ZG : forall n, a2 < n < b2 -> N_dphi tm te y n <> 0 /\ 0 <= zvarN tm te y n * Derive (zvarN tm te y) n).
  { intros n Hn. split; [pose proof (S1 n ltac:(lra)) as X; fold v; lra|].
    destruct (N_comps 0 U tm te y a b B n ltac:(lra)) as (_ & D & _). fold v in D.
    assert (DZ : is_derive (zvarN tm te y) n (exp n * (v n + N_d2phi 0 U tm te y n))).
    { unfold zvarN. fold v. evar_last; [auto_derive; [repeat split; exd|reflexivity]|]. undd. toR. ring. }
    assert (E : Derive (zvarN tm te y) n = exp n * (v n + N_d2phi 0 U tm te y n)) by (apply is_derive_unique; exact DZ). rewrite E. unfold zvarN. fold v.
    replace (exp n * v n * (exp n * (v n + N_d2phi 0 U tm te y n))) with (exp n * exp n * (v n * v n + v n * N_d2phi 0 U tm te y n)) by ring.
    pose proof (S2 n ltac:(lra)). pose proof (exp_pos n). apply Rmult_le_pos; [apply Rmult_le_pos; lra|lra]. }
  exists y, a2, b2, N_end. split; [lra|]. split; [lra|]. split; [exact B2|]. split; [exact Ey|]. split; [exact I|]. split; [exact Z|]. split; [exact ZG|].
  intros k n1 n2 K0 G1 G2 G3. pose proof PI_RGT_0 as PP. assert (K2 : 0 < k^2) by (apply pow_lt, K0).
  assert (SQ : sqrt (2 * k) * sqrt (2 * k) = 2 * k) by (apply sqrt_sqrt; lra). assert (SP : 0 < sqrt (2 * k)) by (apply sqrt_lt_R0; lra).
  assert (AH : exp n1 * Hf n1 <> 0) by (apply Rgt_not_eq, Rmult_lt_0_compat; [apply exp_pos|apply PH; lra]).
  assert (SPD : forall u : R -> C, 0 <= (exp n2 * Hf n2) ^ 2 * speed2 u n2).
  { intros u. apply Rmult_le_pos; [apply pow2_ge_0|]. unfold speed2. apply Rplus_le_le_0_compat; apply pow2_ge_0. }
  split; intros u MU SU; destruct (start_size _ u n1 SU) as [X1 X2]; specialize (SPD u).
  - destruct (C96_scalar_efolds k U tm te y a2 b2 u n1 n2 0 B2 ltac:(lra) ZG MU ltac:(lra) G2 ltac:(lra)) as [EN _]. cbv zeta in EN. fold Hf in EN.
    unfold Ns_vac_RST, N_sample in X1, X2. cbn [s_N s_H s_dphidN] in X1, X2. fold Hf v in X1, X2. unfold zvarN. fold v.
    set (A := exp n1) in *. assert (AP : 0 < A) by apply exp_pos. pose proof (S1 n1 ltac:(lra)) as VN.
    set (z := A * v n1) in *. assert (Z0 : z <> 0) by (unfold z; apply Rmult_integral_contrapositive_currified; lra). clearbody z.
    set (r := 1 / sqrt (2 * k) / z) in *. destruct (rst_size r k (A * Hf n1) AH) as [Q1 Q2]. rewrite X1, X2, Q1 in EN. rewrite Q2 in EN.
    assert (RR : r^2 = 1 / (2 * k * z^2)) by (unfold r; replace ((1 / sqrt (2 * k) / z)^2) with (1 / (sqrt (2 * k) * sqrt (2 * k)) / z^2) by (field; lra); rewrite SQ; field; lra).
    replace (2 * (k^2 / (4 * PI^2 * z^2))) with ((1 + k^2 / k^2) * (r^2 * (k^3 / (2 * PI^2)))) by (rewrite RR; field; lra).
    apply scaled; [exact K2| |left; apply Rdiv_lt_0_compat; [apply pow_lt, K0|apply Rmult_lt_0_compat; [lra|apply pow_lt, PP]]]. lra.
  - destruct (C96_tensor_efolds 0 U tm te y a2 b2 B2 k u n1 n2 0 ltac:(nra) MU ltac:(lra) G2 ltac:(lra)) as [EN _]. cbv zeta in EN. fold Hf in EN.
    unfold Nt_vac_RST, N_sample in X1, X2. cbn [s_N s_H s_dphidN] in X1, X2. fold Hf in X1, X2.
    set (A := exp n1) in *. assert (AP : 0 < A) by apply exp_pos.
    set (r := 2 / sqrt (2 * k) / A) in *. destruct (rst_size r k (A * Hf n1) AH) as [Q1 Q2]. rewrite X1, X2, Q1 in EN. rewrite Q2 in EN.
    assert (RR : r^2 = 2 / (k * A^2)) by (unfold r; replace ((2 / sqrt (2 * k) / A)^2) with (4 / (sqrt (2 * k) * sqrt (2 * k)) / A^2) by (field; lra); rewrite SQ; field; lra).
    replace (2 * (2 * k^2 / (PI^2 * A^2))) with ((1 + k^2 / k^2) * (r^2 * (k^3 / PI^2))) by (rewrite RR; field; lra).
    apply scaled; [exact K2| |left; apply Rdiv_lt_0_compat; apply pow_lt; assumption]. lra.
Qed.

(** ** concrete cases: the closed background of C115 (tensor modes, k = 2), the flat background of C96 (growing pump
    field) and quadratic inflation from phi = 10 *)
Theorem C123_nonvacuous :
  (exists P, (exists pT, solve_oscode osc_T med_hd ex_bT (KScalar 2) (Some ["k"; "RST"]) true 0 (1/4) (Some [1; 0; 0; 1]) false = Ok (RetMode (Some pT)) /\ dget "RST" (pP_t pT) = Ok P) /\
     P <= (1 + 2^2 / 10) * (2 * 2^2 / (PI^2 * exp (T_N true y_closed (exp 1)) ^ 2))) /\
  (T_background 0 (Vexp 10) true y_flat 1 3 /\ forall t, 1 < t < 3 -> T_dphi true y_flat t <> 0 /\ 0 <= zvar 0 (Vexp 10) true y_flat t * Derive (zvar 0 (Vexp 10) true y_flat) t) /\
  (exists root, root_spec root /\ phi_end root Quadratic 1 = Ok (sqrt 2) /\
   exists ic y1 y a b N_end, sr_init (IN 0 (potfun_of Quadratic 1) true true) 10 (Some 1) (Some 0) 0 (kw_of (InN 0)) = Ok ic /\
     sr_call ic [Fin 0; Fin 0; Fin 0; Fin 0] = Ok (map Fin y1) /\ a < 0 < N_end /\ N_end < b /\
     N_background 0 (potfun_of Quadratic 1) true true y a b /\ y 0 = y1 /\
     forall n, a < n < b -> N_dphi true true y n <> 0 /\ 0 <= zvarN true true y n * Derive (zvarN true true y) n).
Proof.
  destruct C115_nonvacuous as (pT & pN & C). cbv zeta in C.
  destruct C as (C1 & C2 & C3 & C4 & C5 & C6 & C7 & C8 & HT & HN & ST & SN & W & RG & MD & IT & IN' & _).
  assert (E12 : exp 1 < exp 12 < exp 13) by (split; apply exp_increasing; lra).
  split; [|split].
  - destruct (C123_tensor_time osc_T med_hd 1 (Vexp 4) true y_closed 1 (exp 13) ex_ts ex_bT 2 ["k"; "RST"] true 0 (1/4) 1 0 0 1 pT 0%nat 1%nat (exp 1) (exp 12) ex_ts
      C1 ltac:(lra) ltac:(lra) ltac:(lra) HT ST W ltac:(lia) eq_refl eq_refl RG ltac:(lra) MD IT ltac:(lra) ltac:(lra) ltac:(simpl; tauto)) as (P & G & LE).
    exists P. split; [exists pT; split; assumption|]. replace (2^2 / 10) with (2 ^ 2 / (2 ^ 2 + 2 * 1 * (1 + 1) + 2 * 1)) by field. exact LE.
  - split; [apply C96_nonvacuous|]. apply C96_nonvacuous.
  - destruct C87_root_finder_exists as (root & HR & _). exists root. split; [exact HR|].
    assert (S2 : sqrt 2 * sqrt 2 = 2) by (apply sqrt_sqrt; lra). pose proof (sqrt_pos 2) as SP.
    assert (PE : phi_end root Quadratic 1 = Ok (sqrt 2)) by (cbn; unfold mono_phi_end; do 2 f_equal; lra). split; [exact PE|].
    assert (HB : branch Quadratic 10) by (cbn; lra).
    destruct (starts_N (potfun_of Quadratic 1) 10 1 0 0 0 quad_V10) as (ic & y1 & SI & SC).
    destruct (C123_slow_roll root Quadratic 1 true true 10 (Some 1) (Some 0) 0 0 (sqrt 2) ic [Fin 0; Fin 0; Fin 0; Fin 0] y1 HR I I ltac:(intros; discriminate) ltac:(discriminate) ltac:(lra) HB PE ltac:(nra) SI eq_refl SC)
      as (y & a & b & N_end & A1 & A2 & B & Ey & IN & Z & ZG & _).
    exists ic, y1, y, a, b, N_end. split; [exact SI|]. split; [exact SC|]. split; [exact A1|]. split; [exact A2|]. split; [exact B|]. split; [exact Ey|exact ZG].
Qed.
