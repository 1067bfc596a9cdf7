(** C118 in open universes (K <= 0). *)
From Coq Require Import Reals List String Lra Lia.
From Coquelicot Require Import Coquelicot.
From Verif Require Import Base Model.Potentials Model.SlowRoll Model.Equations Model.Background Model.Float Model.Solution Model.InitCond
  Spec.PotentialSpec Spec.SlowRollSpec Spec.BackgroundSpec Proofs.PhiEnd Proofs.SRN Proofs.BackgroundT Proofs.BackgroundN Proofs.FloatLemmas Proofs.Unique Proofs.SlowRollBound Proofs.Roll Proofs.OpenFlow
  Properties.InitProps Properties.SlowRollBoundProps.
Import ListNotations.
Open Scope R_scope.

Lemma sr_aHK v n K : 0 < v / 3 * exp (2 * n) - K -> sqrt (v / 3 * exp (2 * n) - K) * exp (- n) = sqrt (v / 3 - K * exp (-2 * n)).
Proof.
  intros HP. assert (E : exp (2 * n) * exp (-2 * n) = 1) by (rewrite <- exp_plus; replace (2 * n + -2 * n) with 0 by ring; apply exp_0).
  assert (EQ : v / 3 - K * exp (-2 * n) = (v / 3 * exp (2 * n) - K) * exp (-2 * n)) by (rewrite Rmult_minus_distr_r, Rmult_assoc, E; ring).
  rewrite EQ, sqrt_mult by (try lra; left; apply exp_pos). f_equal. replace (-2 * n) with (- n + - n) by ring. rewrite exp_plus. rewrite sqrt_square; [reflexivity|left; apply exp_pos].
Qed.
Lemma srK_pos v n K : 0 < v -> K <= 0 -> 0 < v / 3 * exp (2 * n) - K /\ v / 3 <= v / 3 - K * exp (-2 * n).
Proof.
  intros HV HK. pose proof (exp_pos (2 * n)) as E1. pose proof (exp_pos (-2 * n)) as E2.
  assert (0 < v / 3 * exp (2 * n)) by (apply Rmult_lt_0_compat; lra). assert (0 <= - K * exp (-2 * n)) by (apply Rmult_le_pos; lra). lra.
Qed.
Lemma srK_start_T K U te phi t eta xe n ic y0 y : 0 < pV U phi -> K <= 0 -> sr_init (IT K U te) phi t eta xe (kw_of (InN n)) = Ok ic ->
  List.length y0 = List.length (T_idx te) -> sr_call ic y0 = Ok (map Fin y) ->
  var (T_idx te) "phi" y = phi /\ var (T_idx te) "dphidt" y = - pdV U phi / (3 * sqrt (pV U phi / 3 - K * exp (-2 * n))) /\ var (T_idx te) "_N" y = n /\
  List.length y = List.length (T_idx te).
Proof.
  intros HV HK E L C. destruct (srK_pos _ n K HV HK) as [HP HQ].
  rewrite (sr_from_N (IT K U te) phi t eta xe n HP) in E. injection E as <-. cbn [ie_U ie_K] in C.
  assert (S0 : 0 < sqrt (pV U phi / 3 - K * exp (-2 * n))) by (apply sqrt_lt_R0; lra).
  assert (D : fdiv (Fin (- pdV U phi)) (fmul (Fin 3) (fmul (Fin (sqrt (pV U phi / 3 * exp (2 * n) - K))) (fexp (fneg (Fin n))))) = Fin (- pdV U phi / (3 * sqrt (pV U phi / 3 - K * exp (-2 * n))))).
  { cbn [fmul fexp fneg]. rewrite (sr_aHK _ _ _ HP). apply fdiv_fin. lra. }
  unfold sr_call, sr_obj in C. cbn [ic_eqs ic_dphi ic_N ic_phi ic_eta ie_te ie_idx ie_U ie_K attr_of bind] in C.
  rewrite D in C. set (d := - pdV U phi / _) in *. clearbody d. clear D. rewrite <- (map_length Fin y).
  destruct te; cbn in L; lenn L; [destruct eta|]; cbn in C; try discriminate; injection C as C;
  (destruct y as [|a1 [|a2 [|a3 rs] ] ]; try discriminate; rewrite <- C; injection C as C1 C2 C3; subst; repeat split; reflexivity).
Qed.
Lemma srK_start_N K U tm te phi t eta xe n ic y0 y : 0 < pV U phi -> K <= 0 -> sr_init (IN K U tm te) phi t eta xe (kw_of (InN n)) = Ok ic ->
  List.length y0 = List.length (N_idx tm te) -> sr_call ic y0 = Ok (map Fin y) ->
  var (N_idx tm te) "phi" y = phi /\ var (N_idx tm te) "dphidN" y = - pdV U phi / (3 * (pV U phi / 3 - K * exp (-2 * n))) /\
  List.length y = List.length (N_idx tm te).
Proof.
  intros HV HK E L C. destruct (srK_pos _ n K HV HK) as [HP HQ].
  rewrite (sr_from_N (IN K U tm te) phi t eta xe n HP) in E. injection E as <-. cbn [ie_U ie_K] in C.
  assert (D : let h := fmul (Fin (sqrt (pV U phi / 3 * exp (2 * n) - K))) (fexp (fneg (Fin n))) in fdiv (Fin (- pdV U phi)) (fmul (Fin 3) (fmul h h)) = Fin (- pdV U phi / (3 * (pV U phi / 3 - K * exp (-2 * n))))).
  { cbn [fmul fexp fneg]. rewrite (sr_aHK _ _ _ HP). rewrite sqrt_sqrt by lra. apply fdiv_fin. lra. }
  cbv zeta in D. unfold sr_call, sr_obj in C. cbn [ic_eqs ic_dphi ic_N ic_phi ic_eta ic_t ie_te ie_idx ie_U ie_K attr_of bind] in C.
  rewrite D in C. set (d := - pdV U phi / _) in *. clearbody d. clear D. rewrite <- (map_length Fin y).
  destruct tm, te; cbn in L; lenn L; try destruct t; try destruct eta; cbn in C; try discriminate; injection C as C;
  (destruct y as [|a1 [|a2 rs] ]; try discriminate; rewrite <- C; injection C as C1 C2; subst; repeat split; reflexivity).
Qed.
(** the starts are no faster than slow roll *)
Lemma open_start_T v v1 k d r : 0 < v -> 0 < v1 -> 0 <= k -> r = sqrt (v / 3 + k) -> d = - v1 / (3 * r) ->
  - sqrt ((d^2 / 2 + v) / 3) * (v1 / v) <= d <= 0 /\ d < 0.
Proof.
  intros Hv Hv1 Hk -> ->. set (r := sqrt (v / 3 + k)). assert (R0 : 0 < r) by (apply sqrt_lt_R0; lra). assert (R2 : r * r = v / 3 + k) by (apply sqrt_sqrt; lra).
  set (d := - v1 / (3 * r)). assert (D0 : d < 0). { unfold d. assert (0 < v1 / (3 * r)) by (apply Rdiv_lt_0_compat; lra). unfold Rdiv in *. rewrite Ropp_mult_distr_l_reverse. lra. }
  split; [|exact D0]. split; [|lra].
  set (s := sqrt (v / 3)). assert (S0 : 0 < s) by (apply sqrt_lt_R0; lra). assert (S2 : s * s = v / 3) by (apply sqrt_sqrt; lra).
  assert (SR : s <= r) by (apply sqrt_le_1; lra).
  assert (SH : s <= sqrt ((d^2 / 2 + v) / 3)) by (apply sqrt_le_1; pose proof (pow2_ge_0 d); lra).
  assert (X : - d <= s * (v1 / v)).
  { unfold d. replace (- (- v1 / (3 * r))) with (v1 / (3 * r)) by (field; lra). replace v with (3 * (s * s)) by lra. replace (s * (v1 / (3 * (s * s)))) with (v1 / (3 * s)) by (field; lra).
    apply Rmult_le_compat_l; [lra|]. apply Rinv_le_contravar; lra. }
  assert (Y : s * (v1 / v) <= sqrt ((d^2 / 2 + v) / 3) * (v1 / v)) by (apply Rmult_le_compat_r; [left; apply Rdiv_lt_0_compat; lra|exact SH]). lra.
Qed.
Lemma open_start_N v v1 k d h2 : 0 < v -> 0 < v1 -> 0 <= k -> d = - v1 / (3 * (v / 3 + k)) -> 0 < h2 -> (6 - d^2) * h2 = 2 * v + 6 * k ->
  - sqrt (((sqrt h2 * d)^2 / 2 + v) / 3) * (v1 / v) <= sqrt h2 * d <= 0 /\ sqrt h2 * d < 0 /\ d < 0.
Proof.
  intros Hv Hv1 Hk Hd H0 F. set (w := v / 3 + k) in *. assert (W0 : 0 < w) by (unfold w; lra).
  assert (D0 : d < 0). { rewrite Hd. assert (0 < v1 / (3 * w)) by (apply Rdiv_lt_0_compat; lra). unfold Rdiv in *. rewrite Ropp_mult_distr_l_reverse. lra. }
  set (h := sqrt h2). assert (HP : 0 < h) by (apply sqrt_lt_R0; exact H0). assert (H2 : h * h = h2) by (apply sqrt_sqrt; lra).
  assert (Q : h * d < 0) by nra. split; [|split; assumption]. split; [|lra].
  set (rho := v / 3 / w). assert (RH : 0 < rho <= 1). { unfold rho. split; [apply Rdiv_lt_0_compat; lra|]. apply Rmult_le_reg_r with w; [exact W0|]. replace (v / 3 / w * w) with (v / 3) by (field; lra). unfold w. lra. }
  assert (DR : d = - (rho * (v1 / v))) by (rewrite Hd; unfold rho; field; lra).
  assert (LP : 0 < v1 / v) by (apply Rdiv_lt_0_compat; lra).
  assert (E3 : (h * d)^2 / 2 + v = 3 * (h2 - k)) by (replace ((h * d)^2) with (h * h * d^2) by ring; rewrite H2; lra).
  assert (HW : w <= h2). { pose proof (pow2_ge_0 d). assert (6 * w <= 6 * h2) by (replace (6 * w) with ((6 - d^2) * h2) by (rewrite F; unfold w; field); nra). lra. }
  assert (KW : k = w * (1 - rho)) by (unfold rho, w; field; unfold w in W0; lra).
  assert (KH : k <= h2 * (1 - rho * rho)). { rewrite KW. assert (w * (1 - rho) <= h2 * (1 - rho)) by (apply Rmult_le_compat_r; lra). assert (0 <= h2 * (1 - rho) * rho) by (apply Rmult_le_pos; [apply Rmult_le_pos; lra|lra]). nra. }
  assert (SQ : h * rho <= sqrt (((h * d)^2 / 2 + v) / 3)).
  { rewrite E3. replace (3 * (h2 - k) / 3) with (h2 - k) by field. rewrite <- (sqrt_square (h * rho)) by (apply Rmult_le_pos; lra).
    apply sqrt_le_1; [apply Rmult_le_pos; apply Rmult_le_pos; lra| |]; replace (h * rho * (h * rho)) with (h2 * (rho * rho)) by (rewrite <- H2; ring) || idtac; nra. }
  rewrite DR at 2. replace (h * - (rho * (v1 / v))) with (- (h * rho) * (v1 / v)) by ring. apply Rmult_le_compat_r; lra.
Qed.

Section Time.
Variables (P : pot) (L K : R) (te : bool) (y : R -> list R) (a b : R).
Let U := potfun_of P L.
Hypothesis HK : K <= 0.
Hypothesis B : T_background K U te y a b.
Lemma TK_flow s : a < s < b ->
  is_derive (T_phi te y) s (1 * T_dphi te y s) /\ is_derive (T_dphi te y) s (1 * (-3 * T_Hub K U te y s * T_dphi te y s - dV P L (T_phi te y s))) /\
  is_derive (T_N te y) s (1 * T_Hub K U te y s) /\ (T_dphi te y s)^2 / 2 + V P L (T_phi te y s) <= 3 * (T_Hub K U te y s)^2 /\ 0 < T_Hub K U te y s /\ 0 < 1 /\
  continuous (fun _ : R => 1) s /\ continuous (T_Hub K U te y) s.
Proof.
  intros Hs. destruct (T_comps K U te y a b B s Hs) as (D1 & D2 & D3 & _). pose proof (T_H_derive K U te y a b B s Hs) as D4.
  destruct (T_pos K U te y a b B s Hs) as [HP HE].
  rewrite !Rmult_1_l. split; [exact D1|]. split; [rewrite T_d2phi_eq in D2; exact D2|]. split; [exact D3|].
  split; [|split; [exact HP|split; [lra|split; [apply continuous_const|apply (ex_derive_continuous (T_Hub K U te y)); eexists; exact D4]]]].
  replace ((T_Hub K U te y s)^2) with (T_Hub K U te y s * T_Hub K U te y s) by ring. rewrite HE. unfold T_get_H2, U, potfun_of. cbn [pV].
  pose proof (exp_pos (-2 * T_N te y s)) as E. assert (0 <= - K * exp (-2 * T_N te y s)) by (apply Rmult_le_pos; lra). lra.
Qed.
End Time.
Section Efolds.
Variables (P : pot) (L K : R) (tm te : bool) (y : R -> list R) (a b : R).
Let U := potfun_of P L.
Hypothesis HK : K <= 0.
Hypothesis B : N_background K U tm te y a b.
Let H := N_Hub K U tm te y.
Let q (s : R) := H s * N_dphi tm te y s.
Lemma NK_flow s : a < s < b ->
  is_derive (N_phi tm te y) s (/ H s * q s) /\ is_derive q s (/ H s * (-3 * H s * q s - dV P L (N_phi tm te y s))) /\
  is_derive (fun x => x) s (/ H s * H s) /\ (q s)^2 / 2 + V P L (N_phi tm te y s) <= 3 * (H s)^2 /\ 0 < H s /\ 0 < / H s /\
  continuous (fun u => / H u) s /\ continuous H s.
Proof.
  intros Hs. destruct (N_comps K U tm te y a b B s Hs) as (D1 & D2 & _). pose proof (N_H_derive K U tm te y a b B s Hs) as D4.
  destruct (N_pos K U tm te y a b B s Hs) as (HP & HE & _). pose proof (N_V K U tm te y a b B s Hs) as HV. pose proof (N_d2phi_eq K U tm te y a b B s Hs) as E2.
  fold H in D4, HP, HE, HV, E2. unfold q.
  assert (DH : N_dH K U tm te y s = - H s * (N_dphi tm te y s)^2 / 2 + K * exp (-2 * s) / H s) by (unfold N_dH, N_get_dH; fold H; field; lra).
  split; [eapply is_derive_eq; [exact D1|toR; field; lra]|].
  split.
  - eapply is_derive_eq; [apply (is_derive_mult H (N_dphi tm te y) s _ _ D4 D2); intros; apply Rmult_comm|].
    unfold plus, mult; simpl. rewrite E2, DH. unfold U, potfun_of. cbn [pdV]. toR. field. lra.
  - split; [eapply is_derive_eq; [apply is_derive_id|unfold one; simpl; toR; field; lra]|].
    split.
    + unfold U, potfun_of in HV. cbn [pV] in HV. rewrite HV. pose proof (exp_pos (-2 * s)) as E. assert (0 <= - K * exp (-2 * s)) by (apply Rmult_le_pos; lra). nra.
    + assert (CH : continuous H s) by (apply (ex_derive_continuous H); eexists; exact D4).
      split; [exact HP|]. split; [apply Rinv_0_lt_compat; exact HP|]. split; [|exact CH].
      apply (continuous_comp H Rinv); [exact CH|]. apply continuity_pt_filterlim. apply continuity_pt_inv; [apply continuity_pt_id|lra].
Qed.
End Efolds.

(** C118 in flat and open universes: the slow-roll count is a lower bound in cosmic time *)
Theorem C118_open_time : forall root P L K te phi_i t_i eta_i x_end N_i e ic y0 y a b,
  let U := potfun_of P L in
  root_spec root -> featureless P -> valid P -> (forall p phi0, P = DoubleWell p phi0 -> 1 <= p) -> P <> DoubleWell 1 (sqrt 2) ->
  L <> 0 -> K <= 0 -> branch P phi_i -> phi_end root P L = Ok e -> e <= phi_i ->
  sr_init (IT K U te) phi_i (Some t_i) eta_i x_end (kw_of (InN N_i)) = Ok ic ->
  List.length y0 = List.length (T_idx te) -> sr_call ic y0 = Ok (map Fin (y t_i)) ->
  T_background K U te y a b -> a < t_i < b ->
  exists N_sr, sr_phi2N root P L phi_i = Ok N_sr /\
    (forall t, t_i <= t < b -> T_inflating U te t (y t) <= 0 -> N_sr <= T_N te y t - T_N te y t_i) /\
    (forall t, t_i <= t < b -> (forall s, t_i <= s <= t -> e < T_phi te y s) ->
       0 < T_inflating U te t (y t) /\ T_phi te y t <= phi_i).
Proof.
  intros root P L K te phi_i t_i eta_i x_end N_i e ic y0 y a b U HR HF HV HD HN HL HK HB HE LE SI LY SC BG HT.
  destruct (branch_pos P L phi_i HF HV HL HB) as [V0 V1].
  destruct (srK_start_T K U te phi_i (Some t_i) eta_i x_end N_i ic y0 (y t_i) V0 HK SI LY SC) as (E1 & E2 & E3 & _).
  change (var (T_idx te) "phi" (y t_i)) with (T_phi te y t_i) in E1. change (var (T_idx te) "dphidt" (y t_i)) with (T_dphi te y t_i) in E2.
  unfold U, potfun_of in E2. cbn [pV pdV] in E2.
  pose proof (phi_end_branch root P L e HR HF HV HL HN HE) as Be. destruct (phi_end_spec root P L e HR HF HV HL HE) as [_ Ee].
  pose proof (Nfun_end root P L e HF HV HE) as Ne.
  assert (FL : forall s, t_i <= s < b -> _) by (intros s Hs; exact (TK_flow P L K te y a b HK BG s ltac:(lra))).
  assert (B0 : branch P (T_phi te y t_i)) by (rewrite E1; exact HB).
  destruct (open_start_T (V P L phi_i) (dV P L phi_i) (- K * exp (-2 * N_i)) (T_dphi te y t_i) _ V0 V1 ltac:(pose proof (exp_pos (-2 * N_i)); apply Rmult_le_pos; lra) eq_refl) as [[ST Q0] _].
  { rewrite E2. do 3 f_equal. ring. }
  rewrite <- E1 in ST at 1 2 3.
  exists (Nfun P e phi_i). split; [apply Nfun_ok with (1 := HE)|]. split.
  - intros t Ht END. rewrite <- E1.
    apply (oroll_lower P L HF HV HL HD (T_phi te y) (T_dphi te y) (T_N te y) (T_Hub K (potfun_of P L) te y) (fun _ => 1) t_i b FL B0 Q0 ST t e); try assumption. rewrite E1. exact LE.
  - intros t Ht AB. pose proof (branch_gt0 P e Be) as E0.
    assert (AB' : forall s, t_i <= s <= t -> e <= T_phi te y s) by (intros s Hs; left; apply AB, Hs).
    split.
    + apply (oroll_accel P L HF HV HL HD (T_phi te y) (T_dphi te y) (T_N te y) (T_Hub K (potfun_of P L) te y) (fun _ => 1) t_i b FL B0 Q0 ST t e Ht Be Ee AB' (AB t ltac:(lra))).
    + rewrite <- E1. apply (oroll_branch P L HF HV HL HD (T_phi te y) (T_dphi te y) (T_N te y) (T_Hub K (potfun_of P L) te y) (fun _ => 1) t_i b FL B0 Q0 t Ht); [|lra].
      intros s Hs. pose proof (AB s Hs). lra.
Qed.
Lemma NK_state_start P L K tm te y a b N_i phi_i : let U := potfun_of P L in K <= 0 -> 0 < V P L phi_i -> 0 < dV P L phi_i ->
  N_background K U tm te y a b -> a < N_i < b -> N_phi tm te y N_i = phi_i -> N_dphi tm te y N_i = - dV P L phi_i / (3 * (V P L phi_i / 3 - K * exp (-2 * N_i))) ->
  let q := N_Hub K U tm te y N_i * N_dphi tm te y N_i in
  - sqrt ((q^2 / 2 + V P L (N_phi tm te y N_i)) / 3) * (dV P L (N_phi tm te y N_i) / V P L (N_phi tm te y N_i)) <= q /\ q < 0.
Proof.
  intros U HK V0 V1 B HT E1 E2 q.
  pose proof (N_V K U tm te y a b B N_i HT) as HVV. destruct (N_pos K U tm te y a b B N_i HT) as (HP & HE & _).
  destruct B as [_ Q]. destruct (Q N_i HT) as (H2 & _).
  destruct (open_start_N (V P L phi_i) (dV P L phi_i) (- K * exp (-2 * N_i)) (N_dphi tm te y N_i) (N_H2 K U tm te N_i (y N_i)) V0 V1) as [[ST _] [Q0 _]].
  - pose proof (exp_pos (-2 * N_i)). apply Rmult_le_pos; lra.
  - rewrite E2. do 2 f_equal. ring.
  - exact H2.
  - rewrite E1 in HVV. change (pV U phi_i) with (V P L phi_i) in HVV. rewrite HVV.
    assert (X : N_Hub K U tm te y N_i ^ 2 = N_H2 K U tm te N_i (y N_i)) by (unfold N_Hub; apply pow2_sqrt; lra). rewrite <- X. field.
  - rewrite E1. unfold q, N_Hub. split; [exact ST|exact Q0].
Qed.
Theorem C118_open_efolds : forall root P L K tm te phi_i t_i eta_i x_end N_i e ic y0 y a b,
  let U := potfun_of P L in
  root_spec root -> featureless P -> valid P -> (forall p phi0, P = DoubleWell p phi0 -> 1 <= p) -> P <> DoubleWell 1 (sqrt 2) ->
  L <> 0 -> K <= 0 -> branch P phi_i -> phi_end root P L = Ok e -> e <= phi_i ->
  sr_init (IN K U tm te) phi_i t_i eta_i x_end (kw_of (InN N_i)) = Ok ic ->
  List.length y0 = List.length (N_idx tm te) -> sr_call ic y0 = Ok (map Fin (y N_i)) ->
  N_background K U tm te y a b -> a < N_i < b ->
  exists N_sr, sr_phi2N root P L phi_i = Ok N_sr /\
    (forall n, N_i <= n < b -> N_inflating K U tm te n (y n) <= 0 -> N_sr <= n - N_i) /\
    (forall n, N_i <= n < b -> (forall s, N_i <= s <= n -> e < N_phi tm te y s) ->
       0 < N_inflating K U tm te n (y n) /\ N_phi tm te y n <= phi_i).
Proof.
  intros root P L K tm te phi_i t_i eta_i x_end N_i e ic y0 y a b U HR HF HV HD HN HL HK HB HE LE SI LY SC BG HT.
  destruct (branch_pos P L phi_i HF HV HL HB) as [V0 V1].
  destruct (srK_start_N K U tm te phi_i t_i eta_i x_end N_i ic y0 (y N_i) V0 HK SI LY SC) as (E1 & E2 & _).
  change (var (N_idx tm te) "phi" (y N_i)) with (N_phi tm te y N_i) in E1. change (var (N_idx tm te) "dphidN" (y N_i)) with (N_dphi tm te y N_i) in E2.
  unfold U, potfun_of in E2. cbn [pV pdV] in E2.
  pose proof (phi_end_branch root P L e HR HF HV HL HN HE) as Be. destruct (phi_end_spec root P L e HR HF HV HL HE) as [_ Ee].
  pose proof (Nfun_end root P L e HF HV HE) as Ne.
  assert (FL : forall s, N_i <= s < b -> _) by (intros s Hs; exact (NK_flow P L K tm te y a b HK BG s ltac:(lra))).
  assert (B0 : branch P (N_phi tm te y N_i)) by (rewrite E1; exact HB).
  pose proof (NK_state_start P L K tm te y a b N_i phi_i HK V0 V1 BG HT E1 E2) as [ST Q0]. cbv zeta in ST, Q0.
  set (Hf := N_Hub K (potfun_of P L) tm te y) in *. set (q := fun s => Hf s * N_dphi tm te y s) in *.
  change (Hf N_i * N_dphi tm te y N_i) with (q N_i) in *.
  assert (INFL : forall s, a < s < b -> N_inflating K U tm te s (y s) = V P L (N_phi tm te y s) - (q s)^2).
  { intros s Hs. unfold N_inflating, q. rewrite Rpow_mult_distr. unfold Hf, N_Hub. rewrite pow2_sqrt; [reflexivity|].
    destruct BG as [_ Q]. left. apply (Q s Hs). }
  exists (Nfun P e phi_i). split; [apply Nfun_ok with (1 := HE)|]. split.
  - intros n Hn END. rewrite INFL in END by lra. rewrite <- E1.
    apply (oroll_lower P L HF HV HL HD (N_phi tm te y) q (fun x => x) Hf (fun s => / Hf s) N_i b FL B0 (Rlt_le _ _ Q0) ST n e); try assumption. rewrite E1. exact LE.
  - intros n Hn AB. pose proof (branch_gt0 P e Be) as E0. rewrite INFL by lra.
    assert (AB' : forall s, N_i <= s <= n -> e <= N_phi tm te y s) by (intros s Hs; left; apply AB, Hs).
    split.
    + apply (oroll_accel P L HF HV HL HD (N_phi tm te y) q (fun x => x) Hf (fun s => / Hf s) N_i b FL B0 (Rlt_le _ _ Q0) ST n e Hn Be Ee AB' (AB n ltac:(lra))).
    + rewrite <- E1. apply (oroll_branch P L HF HV HL HD (N_phi tm te y) q (fun x => x) Hf (fun s => / Hf s) N_i b FL B0 (Rlt_le _ _ Q0) n Hn); [|lra].
      intros s Hs. pose proof (AB s Hs). lra.
Qed.
