(** C100: the energy scale Lambda is only a unit. *)
From Coq Require Import Reals List String ZArith Lra Lia.
From Coquelicot Require Import Coquelicot.
From Verif Require Import Base Model.Potentials Model.SlowRoll Model.Equations Model.Background
  Model.Float Model.Solution Model.State Model.ApproxPower Spec.BackgroundSpec Spec.ScalingSpec Proofs.BaseLemmas Proofs.BackgroundT Proofs.BackgroundN.
Import ListNotations.
Open Scope R_scope.

(** every potential is Lambda^4 times a function of the field alone *)
Theorem C100_potential : forall P L phi,
  V P L phi = L ^ 4 * V P 1 phi /\ dV P L phi = L ^ 4 * dV P 1 phi /\ d2V P L phi = L ^ 4 * d2V P 1 phi /\
  d3V P L phi = L ^ 4 * d3V P 1 phi /\ d4V P L phi = L ^ 4 * d4V P 1 phi.
Proof.
  intros P L phi.
  repeat split.
  all: destruct P; cbn [V dV d2V d3V d4V];
    unfold feat_V, feat_dV, feat_d2V, feat_d3V, mono_V, mono_dV, mono_d2V, mono_d3V, mono_d4V, quad_V, quad_dV, quad_d2V, quad_d3V, quad_d4V,
      star_V, star_dV, star_d2V, star_d3V, star_d4V, nat_V, nat_dV, nat_d2V, nat_d3V, nat_d4V, dw_V, dw_dV, dw_d2V, dw_d3V, dw_d4V,
      tm_V, tm_dV, tm_d2V, tm_d3V, tm_d4V, rg_V, rg_dV, rg_d2V, rg_d3V, rg_d4V; cbv zeta;
    replace (1 ^ 4) with 1 by ring; generalize (L ^ 4); intros l; unfold Rdiv; ring.
Qed.

(** so all slow-roll quantities forget it *)
Lemma rg_bracket p al L e : L <> 0 -> 0 < e < 1 -> rg_inv_V p al L (L ^ 4 * (1 - e)) = rg_inv_V p al 1 (1 ^ 4 * (1 - e)).
Proof.
  intros HL He. unfold rg_inv_V. f_equal. f_equal. f_equal. field. split; [lra|exact HL].
Qed.
Lemma inv_small x : 1 < x -> / x < 1.
Proof. intros H. apply Rmult_lt_reg_r with x; [lra|]. rewrite Rinv_l by lra. lra. Qed.
Lemma EPS_small : 0 < EPS < 1.
Proof.
  unfold EPS. split; [apply Rinv_0_lt_compat, pow_lt; lra|].
  apply inv_small. apply Rlt_pow_R1; [lra|lia].
Qed.
Lemma e15_small : 0 < / 10 ^ 15 < 1.
Proof.
  split; [apply Rinv_0_lt_compat, pow_lt; lra|].
  apply inv_small. apply Rlt_pow_R1; [lra|lia].
Qed.
Theorem C100_slow_roll : forall root W P L, L <> 0 ->
  phi_end root P L = phi_end root P 1 /\
  (forall phi, sr_phi2N root P L phi = sr_phi2N root P 1 phi) /\
  (forall N, sr_N2phi root W P L N = sr_N2phi root W P 1 N).
Proof.
  intros root W P L HL.
  assert (E : phi_end root P L = phi_end root P 1).
  { destruct P; try reflexivity. cbn [phi_end]. rewrite rg_bracket by (try exact HL; exact EPS_small). reflexivity. }
  split; [exact E|]. split; intros x.
  - destruct P; try reflexivity; cbn [sr_phi2N]; rewrite E; reflexivity.
  - destruct P; cbn [sr_N2phi]; rewrite ?E; try (rewrite rg_bracket by (try exact HL; exact e15_small)); reflexivity.
Qed.
Lemma root4 L x : 0 < L -> 0 < x -> L * pypow (x / L ^ 4) (1 / 4) = pypow x (1 / 4).
Proof.
  intros HL Hx. assert (P4 : 0 < L ^ 4) by (apply pow_lt; exact HL).
  rewrite !pypow_pos by (try apply Rdiv_lt_0_compat; assumption).
  unfold Rpower, Rdiv. rewrite ln_mult by (try apply Rinv_0_lt_compat; assumption). rewrite ln_Rinv by exact P4.
  replace (ln (L ^ 4)) with (4 * ln L).
  - replace (1 * / 4 * (ln x + - (4 * ln L))) with (1 * / 4 * ln x + - ln L) by field. rewrite exp_plus, exp_Ropp, exp_ln by exact HL.
    field. lra.
  - replace (L ^ 4) with ((L * L) * (L * L)) by ring. rewrite !ln_mult by nra. ring.
Qed.
(** and the amplitude found for a requested A_s does not depend on the one the object had before: *)
Theorem C100_amplitude : forall root W P L A phi_star N_star Lambda phi N, 0 < L -> 0 < A ->
  sr_As2Lambda root W P 1 A phi_star N_star = Ok (Lambda, phi, N) -> 0 < V P 1 phi -> 0 < eps1V P phi ->
  sr_As2Lambda root W P L A phi_star N_star = Ok (Lambda, phi, N).
Proof.
  intros root W P L A ps Ns Lam phi N HL HA E HV He. unfold sr_As2Lambda in *.
  destruct (C100_slow_roll root W P L ltac:(lra)) as (_ & E1 & E2).
  assert (Q : match Ns, ps with
              | None, Some phi => do N <- sr_phi2N root P L phi; Ok (phi, N)
              | None, None => Raise TypeError
              | Some N, None => do phi <- sr_N2phi root W P L N; Ok (phi, N)
              | Some _, Some _ => Raise GenericException
              end = match Ns, ps with
              | None, Some phi => do N <- sr_phi2N root P 1 phi; Ok (phi, N)
              | None, None => Raise TypeError
              | Some N, None => do phi <- sr_N2phi root W P 1 N; Ok (phi, N)
              | Some _, Some _ => Raise GenericException
              end).
  { destruct Ns, ps; rewrite ?E1, ?E2; reflexivity. }
  rewrite Q. clear Q. destruct (match Ns, ps with
              | None, Some phi => do N <- sr_phi2N root P 1 phi; Ok (phi, N)
              | None, None => Raise TypeError
              | Some N, None => do phi <- sr_N2phi root W P 1 N; Ok (phi, N)
              | Some _, Some _ => Raise GenericException
              end) as [[f n]|e]; [|discriminate]. cbn [bind] in *. injection E as E -> ->. f_equal. f_equal. f_equal.
  rewrite <- E. destruct (C100_potential P L phi) as (-> & _). rewrite Rmult_1_l.
  assert (P0 : 0 < PI ^ 2) by (apply pow_lt, PI_RGT_0).
  set (a := V P 1 phi) in *. set (e := eps1V P phi) in *.
  replace (A / (L ^ 4 * a / 3 / (8 * PI ^ 2 * e))) with (A / (a / 3 / (8 * PI ^ 2 * e)) / L ^ 4).
  - apply root4; [exact HL|]. apply Rdiv_lt_0_compat; [exact HA|]. apply Rdiv_lt_0_compat; [lra|]. apply Rmult_lt_0_compat; [lra|exact He].
  - field. repeat split; try lra. apply Rgt_not_eq, PI_RGT_0.
Qed.

(** ** Backgrounds *)
Section Bg.
Variables (c s : R).
Hypothesis HC : 0 < c.
Lemma sq_pos : 0 < sqrt c. Proof. apply sqrt_lt_R0. exact HC. Qed.
Lemma sq_sq : sqrt c * sqrt c = c. Proof. apply sqrt_sqrt. lra. Qed.
Lemma sq2 p : (sqrt c * p) ^ 2 = c * p ^ 2. Proof. replace ((sqrt c * p) ^ 2) with (sqrt c * sqrt c * p ^ 2) by ring. rewrite sq_sq. reflexivity. Qed.
Lemma smooth_times U x : smooth_pot U x -> smooth_pot (pot_times c U) x.
Proof.
  intros (D1 & D2 & D3). unfold pot_times, smooth_pot. cbn [pV pdV pd2V pd3V].
  split; [|split]; apply is_derive_scal; assumption.
Qed.
Lemma exp_shift N : exp (-2 * (N + s)) * exp (2 * s) = exp (-2 * N).
Proof. rewrite <- exp_plus. f_equal. ring. Qed.

(** cosmic time: t -> t / sqrt c *)
Definition T_rescaled te (y : R -> list R) : R -> list R := fun t =>
  let z := y (sqrt c * t) in
  ([var (T_idx te) "phi" z; sqrt c * var (T_idx te) "dphidt" z; var (T_idx te) "_N" z + s]
   ++ if te then [exp (- s) / sqrt c * var (T_idx te) "eta" z] else [])%list.
Lemma T_vars te y t : 
  T_phi te (T_rescaled te y) t = T_phi te y (sqrt c * t) /\ T_dphi te (T_rescaled te y) t = sqrt c * T_dphi te y (sqrt c * t) /\
  T_N te (T_rescaled te y) t = T_N te y (sqrt c * t) + s /\ (te = true -> T_eta te (T_rescaled te y) t = exp (- s) / sqrt c * T_eta te y (sqrt c * t)).
Proof. destruct te; repeat split; intros; try discriminate; reflexivity. Qed.
Lemma T_H2_scaled K U te y t : T_H2 (K_times c s K) (pot_times c U) te t (T_rescaled te y t) = c * T_H2 K U te (sqrt c * t) (y (sqrt c * t)).
Proof.
  destruct (T_vars te y t) as (E1 & E2 & E3 & _). unfold T_phi, T_dphi, T_N in *. unfold T_H2, T_get_H2. rewrite E1, E2, E3.
  unfold pot_times, K_times. cbn [pV]. set (p := var _ "dphidt" _). set (n := var _ "_N" _).
  replace (c * exp (2 * s) * K * exp (-2 * (n + s))) with (c * (K * exp (-2 * n))) by (rewrite <- (exp_shift n); ring).
  rewrite sq2. field.
Qed.
End Bg.
Lemma comp_lin (f : R -> R) q t l : is_derive f (q * t) l -> is_derive (fun u => f (q * u)) t (q * l).
Proof.
  intros D. apply (@is_derive_comp R_AbsRing R_NormedModule f (fun u => q * u) t l q D). auto_derive; [exact I|ring].
Qed.
Lemma comp_shift (f : R -> R) s t l : is_derive f (t - s) l -> is_derive (fun u => f (u - s)) t l.
Proof.
  intros D. rewrite <- (Rmult_1_l l). apply (@is_derive_comp R_AbsRing R_NormedModule f (fun u => u - s) t l 1 D). auto_derive; [exact I|ring].
Qed.

(** A solution for (V, K) is, in other units of time and with the origin of e-folds moved by s, a solution for
    (c V, c e^(2s) K). *)
Theorem C100_time : forall c s K U te y a b, 0 < c -> T_background K U te y a b ->
  exists y', T_background (K_times c s K) (pot_times c U) te y' (a / sqrt c) (b / sqrt c) /\
  forall t, a / sqrt c < t < b / sqrt c ->
    let t0 := sqrt c * t in
    a < t0 < b /\
    T_phi te y' t = T_phi te y t0 /\ T_N te y' t = T_N te y t0 + s /\
    T_dphi te y' t = sqrt c * T_dphi te y t0 /\
    (te = true -> T_eta te y' t = exp (- s) / sqrt c * T_eta te y t0) /\
    T_Hub (K_times c s K) (pot_times c U) te y' t = sqrt c * T_Hub K U te y t0 /\
    T_inflating (pot_times c U) te t (y' t) = c * T_inflating U te t0 (y t0) /\
    T_w (pot_times c U) te t (y' t) = T_w U te t0 (y t0) /\
    (** the curvature density parameter K/(aH)^2 *)
    K_times c s K / (exp (T_N te y' t) * T_Hub (K_times c s K) (pot_times c U) te y' t) ^ 2 = K / (exp (T_N te y t0) * T_Hub K U te y t0) ^ 2.
Proof.
  intros c s K U te y a b HC B. pose proof (sq_pos c HC) as Q. pose proof (sq_sq c HC) as QQ. exists (T_rescaled c s te y).
  assert (IN : forall t, a / sqrt c < t < b / sqrt c -> a < sqrt c * t < b).
  { intros t [H1 H2]. split.
    - apply Rmult_lt_compat_l with (r := sqrt c) in H1; [|exact Q]. replace (sqrt c * (a / sqrt c)) with a in H1 by (field; lra). exact H1.
    - apply Rmult_lt_compat_l with (r := sqrt c) in H2; [|exact Q]. replace (sqrt c * (b / sqrt c)) with b in H2 by (field; lra). exact H2. }
  assert (HH : forall t, T_Hub (K_times c s K) (pot_times c U) te (T_rescaled c s te y) t = sqrt c * T_Hub K U te y (sqrt c * t)).
  { intros t. unfold T_Hub. rewrite (T_H2_scaled c s HC). apply sqrt_mult_alt. lra. }
  split.
  - split.
    + intros t Ht. specialize (IN t Ht). split; [destruct te; reflexivity|].
      destruct (T_comps K U te y a b B _ IN) as (D1 & D2 & D3 & D4). destruct (T_vars c s te y t) as (V1 & V2 & V3 & V4).
      assert (A1 : is_derive (T_phi te (T_rescaled c s te y)) t (T_dphi te (T_rescaled c s te y) t)).
      { rewrite V2. apply (is_derive_ext (fun u => T_phi te y (sqrt c * u))); [intros u; symmetry; apply T_vars|]. apply comp_lin. exact D1. }
      assert (A2 : is_derive (T_dphi te (T_rescaled c s te y)) t (T_get_d2phi (T_H2 (K_times c s K) (pot_times c U) te t (T_rescaled c s te y t)) (T_dphi te (T_rescaled c s te y) t) (pdV (pot_times c U) (T_phi te (T_rescaled c s te y) t)))).
      { apply (is_derive_ext (fun u => sqrt c * T_dphi te y (sqrt c * u))); [intros u; symmetry; apply T_vars|].
        apply (is_derive_eq _ _ _ (sqrt c * (sqrt c * T_d2phi K U te y (sqrt c * t)))).
        - apply is_derive_scal. apply comp_lin. exact D2.
        - unfold T_d2phi, T_get_d2phi. rewrite V1, V2. fold (T_Hub (K_times c s K) (pot_times c U) te (T_rescaled c s te y) t). rewrite HH. fold (T_Hub K U te y (sqrt c * t)).
          cbn [pdV pot_times]. toR. match goal with |- _ = ?r => replace (c * pdV U (T_phi te y (sqrt c * t))) with (sqrt c * sqrt c * pdV U (T_phi te y (sqrt c * t))) by (rewrite QQ; reflexivity) end. ring. }
      assert (A3 : is_derive (T_N te (T_rescaled c s te y)) t (T_Hub (K_times c s K) (pot_times c U) te (T_rescaled c s te y) t)).
      { rewrite HH. apply (is_derive_ext (fun u => T_N te y (sqrt c * u) + s)); [intros u; symmetry; apply T_vars|].
        apply (is_derive_eq _ _ _ (sqrt c * T_Hub K U te y (sqrt c * t) + 0)); [|toR; ring].
        apply (@is_derive_plus R_AbsRing R_NormedModule); [apply comp_lin; exact D3|apply (@is_derive_const R_AbsRing R_NormedModule)]. }
      assert (A4 : te = true -> is_derive (T_eta te (T_rescaled c s te y)) t (exp (- T_N te (T_rescaled c s te y) t))).
      { intros TE. rewrite V3. apply (is_derive_ext (fun u => exp (- s) / sqrt c * T_eta te y (sqrt c * u))); [intros u; symmetry; apply T_vars; exact TE|].
        apply (is_derive_eq _ _ _ (exp (- s) / sqrt c * (sqrt c * exp (- T_N te y (sqrt c * t))))).
        - apply is_derive_scal. apply comp_lin. exact (D4 TE).
        - toR. rewrite Ropp_plus_distr, exp_plus. field. lra. }
      intros i Hi. destruct te.
      * destruct i as [|[|[|[|i] ] ] ]; [exact A1|exact A2|exact A3|exact (A4 eq_refl)|cbn in Hi; lia].
      * destruct i as [|[|[|i] ] ]; [exact A1|exact A2|exact A3|cbn in Hi; lia].
    + intros t Ht. specialize (IN t Ht). rewrite (T_H2_scaled c s HC). destruct (proj2 B _ IN) as (P & SM). split; [apply Rmult_lt_0_compat; assumption|].
      destruct (T_vars c s te y t) as (-> & _). apply smooth_times. exact SM.
  - intros t Ht t0. specialize (IN t Ht). destruct (T_vars c s te y t) as (V1 & V2 & V3 & V4). fold t0 in V1, V2, V3, V4, IN.
    split; [exact IN|]. split; [exact V1|]. split; [exact V3|]. split; [exact V2|]. split; [exact V4|].
    assert (PH : 0 < T_Hub K U te y t0) by (apply sqrt_lt_R0; apply (proj2 B _ IN)).
    unfold T_phi, T_dphi in V1, V2. split; [apply HH|]. split.
    + unfold T_inflating. rewrite V1, V2. cbn [pV pot_times]. rewrite (sq2 c HC). ring.
    + split.
      * unfold T_w. cbv zeta. rewrite V1, V2. cbn [pV pot_times].
        set (v := pV U _). set (p := var _ "dphidt" _). rewrite (sq2 c HC).
        replace (c * p ^ 2 / 2 - c * v) with (c * (p ^ 2 / 2 - v)) by field. replace (c * p ^ 2 / 2 + c * v) with (c * (p ^ 2 / 2 + v)) by field.
        unfold Rdiv. rewrite Rinv_mult. replace (c * (p ^ 2 * / 2 - v) * (/ c * / (p ^ 2 * / 2 + v))) with ((c * / c) * ((p ^ 2 * / 2 - v) * / (p ^ 2 * / 2 + v))) by ring.
        rewrite Rinv_r by lra. ring.
      * rewrite HH, V3. fold t0. unfold K_times. rewrite exp_plus. pose proof (exp_pos (T_N te y t0)) as PE. pose proof (exp_pos s) as PS.
        replace (exp (2 * s)) with (exp s * exp s) by (rewrite <- exp_plus; f_equal; ring). replace (c * (exp s * exp s) * K) with (sqrt c * sqrt c * (exp s * exp s) * K) by (rewrite QQ; reflexivity). field. repeat split; lra.
Qed.

(** e-folds: the independent variable is shifted by s *)
Definition N_rescaled c s tt te (y : R -> list R) : R -> list R := fun n =>
  let z := y (n - s) in
  ([var (N_idx tt te) "phi" z; var (N_idx tt te) "dphidN" z]
   ++ (if tt then [var (N_idx tt te) "t" z / sqrt c] else [])
   ++ if te then [exp (- s) / sqrt c * var (N_idx tt te) "eta" z] else [])%list.
Lemma N_vars c s tt te y n :
  N_phi tt te (N_rescaled c s tt te y) n = N_phi tt te y (n - s) /\ N_dphi tt te (N_rescaled c s tt te y) n = N_dphi tt te y (n - s) /\
  (tt = true -> N_t tt te (N_rescaled c s tt te y) n = N_t tt te y (n - s) / sqrt c) /\
  (te = true -> N_eta tt te (N_rescaled c s tt te y) n = exp (- s) / sqrt c * N_eta tt te y (n - s)).
Proof. destruct tt, te; repeat split; intros; try discriminate; reflexivity. Qed.
Lemma K_E c s K n : K_times c s K * exp (-2 * n) = c * (K * exp (-2 * (n - s))).
Proof.
  unfold K_times. replace (-2 * (n - s)) with (2 * s + -2 * n) by ring. rewrite exp_plus. ring.
Qed.
Lemma N_H2_scaled c s K U tt te y n : N_H2 (K_times c s K) (pot_times c U) tt te n (N_rescaled c s tt te y n) = c * N_H2 K U tt te (n - s) (y (n - s)).
Proof.
  destruct (N_vars c s tt te y n) as (E1 & E2 & _). unfold N_phi, N_dphi in *. unfold N_H2, N_get_H2. rewrite E1, E2. cbn [pV pot_times].
  replace (6 * K_times c s K * exp (-2 * n)) with (c * (6 * K * exp (-2 * (n - s)))) by (pose proof (K_E c s K n); lra).
  unfold Rdiv. ring.
Qed.
Theorem C100_efolds : forall c s K U tt te y a b, 0 < c -> N_background K U tt te y a b ->
  exists y', N_background (K_times c s K) (pot_times c U) tt te y' (a + s) (b + s) /\
  forall n, a + s < n < b + s ->
    let n0 := n - s in
    a < n0 < b /\
    N_phi tt te y' n = N_phi tt te y n0 /\ N_dphi tt te y' n = N_dphi tt te y n0 /\
    (tt = true -> N_t tt te y' n = N_t tt te y n0 / sqrt c) /\
    (te = true -> N_eta tt te y' n = exp (- s) / sqrt c * N_eta tt te y n0) /\
    N_Hub (K_times c s K) (pot_times c U) tt te y' n = sqrt c * N_Hub K U tt te y n0 /\
    N_inflating (K_times c s K) (pot_times c U) tt te n (y' n) = c * N_inflating K U tt te n0 (y n0) /\
    N_w (K_times c s K) (pot_times c U) tt te n (y' n) = N_w K U tt te n0 (y n0) /\
    K_times c s K / (exp n * N_Hub (K_times c s K) (pot_times c U) tt te y' n) ^ 2 = K / (exp n0 * N_Hub K U tt te y n0) ^ 2.
Proof.
  intros c s K U tt te y a b HC B. pose proof (sq_pos c HC) as Q. pose proof (sq_sq c HC) as QQ. exists (N_rescaled c s tt te y).
  assert (HH : forall n, N_Hub (K_times c s K) (pot_times c U) tt te (N_rescaled c s tt te y) n = sqrt c * N_Hub K U tt te y (n - s)).
  { intros n. unfold N_Hub. rewrite N_H2_scaled. apply sqrt_mult_alt. lra. }
  assert (PP : forall n, a < n < b -> 0 < N_Hub K U tt te y n) by (intros n I; apply sqrt_lt_R0; apply (proj2 B _ I)).
  split.
  - split.
    + intros n Hn. assert (IN : a < n - s < b) by lra. split; [destruct tt, te; reflexivity|].
      destruct (N_comps K U tt te y a b B _ IN) as (D1 & D2 & D3 & D4). destruct (N_vars c s tt te y n) as (V1 & V2 & V3 & V4). specialize (PP _ IN).
      assert (A1 : is_derive (N_phi tt te (N_rescaled c s tt te y)) n (N_dphi tt te (N_rescaled c s tt te y) n)).
      { rewrite V2. apply (is_derive_ext (fun u => N_phi tt te y (u - s))); [intros u; symmetry; apply N_vars|]. apply comp_shift. exact D1. }
      assert (A2 : is_derive (N_dphi tt te (N_rescaled c s tt te y)) n (N_d2phi (K_times c s K) (pot_times c U) tt te (N_rescaled c s tt te y) n)).
      { apply (is_derive_ext (fun u => N_dphi tt te y (u - s))); [intros u; symmetry; apply N_vars|].
        apply (is_derive_eq _ _ _ (N_d2phi K U tt te y (n - s))); [apply comp_shift; exact D2|].
        unfold N_d2phi. cbv zeta. rewrite N_H2_scaled, V1, V2. cbn [pdV pot_times]. unfold N_get_d2phi, N_get_dH_H. rewrite K_E.
        pose proof (proj1 (proj2 B _ IN)) as PH. toR. field. split; lra. }
      assert (A3 : tt = true -> is_derive (N_t tt te (N_rescaled c s tt te y)) n (1 / sqrt (N_H2 (K_times c s K) (pot_times c U) tt te n (N_rescaled c s tt te y n)))).
      { intros TT. fold (N_Hub (K_times c s K) (pot_times c U) tt te (N_rescaled c s tt te y) n). rewrite HH.
        apply (is_derive_ext (fun u => / sqrt c * N_t tt te y (u - s))); [intros u; symmetry; rewrite (proj1 (proj2 (proj2 (N_vars c s tt te y u)))) by exact TT; unfold Rdiv; toR; ring|].
        apply (is_derive_eq _ _ _ (/ sqrt c * (1 / N_Hub K U tt te y (n - s)))).
        - apply is_derive_scal. apply comp_shift. exact (D3 TT).
        - toR. field. split; lra. }
      assert (A4 : te = true -> is_derive (N_eta tt te (N_rescaled c s tt te y)) n (exp (- n) / sqrt (N_H2 (K_times c s K) (pot_times c U) tt te n (N_rescaled c s tt te y n)))).
      { intros TE. fold (N_Hub (K_times c s K) (pot_times c U) tt te (N_rescaled c s tt te y) n). rewrite HH.
        apply (is_derive_ext (fun u => exp (- s) / sqrt c * N_eta tt te y (u - s))); [intros u; symmetry; apply N_vars; exact TE|].
        apply (is_derive_eq _ _ _ (exp (- s) / sqrt c * (exp (- (n - s)) / N_Hub K U tt te y (n - s)))).
        - apply is_derive_scal. apply comp_shift. exact (D4 TE).
        - toR. replace (- (n - s)) with (- n + s) by ring. rewrite exp_plus, (exp_Ropp s). pose proof (exp_pos s). field. repeat split; lra. }
      intros i Hi. destruct tt, te.
      * destruct i as [|[|[|[|i] ] ] ]; [exact A1|exact A2|exact (A3 eq_refl)|exact (A4 eq_refl)|cbn in Hi; lia].
      * destruct i as [|[|[|i] ] ]; [exact A1|exact A2|exact (A3 eq_refl)|cbn in Hi; lia].
      * destruct i as [|[|[|i] ] ]; [exact A1|exact A2|exact (A4 eq_refl)|cbn in Hi; lia].
      * destruct i as [|[|i] ]; [exact A1|exact A2|cbn in Hi; lia].
    + intros n Hn. assert (IN : a < n - s < b) by lra. rewrite N_H2_scaled. destruct (proj2 B _ IN) as (P & P6 & SM). split; [apply Rmult_lt_0_compat; assumption|].
      destruct (N_vars c s tt te y n) as (V1 & V2 & _). rewrite V1, V2. split; [exact P6|]. apply (smooth_times c). exact SM.
  - intros n Hn n0. assert (IN : a < n0 < b) by (unfold n0; lra). destruct (N_vars c s tt te y n) as (V1 & V2 & V3 & V4). fold n0 in V1, V2, V3, V4.
    split; [exact IN|]. split; [exact V1|]. split; [exact V2|]. split; [exact V3|]. split; [exact V4|]. specialize (PP _ IN).
    split; [apply HH|]. unfold N_phi, N_dphi in V1, V2. split.
    + unfold N_inflating. rewrite N_H2_scaled, V1, V2. cbn [pV pot_times]. fold n0. ring.
    + split.
      * unfold N_w. cbv zeta. rewrite N_H2_scaled, V1, V2. cbn [pV pot_times]. fold n0.
        set (v := pV U _). set (p := var _ "dphidN" _). set (h := N_H2 K U tt te n0 (y n0)).
        replace (c * h * p ^ 2 / 2 - c * v) with (c * (h * p ^ 2 / 2 - v)) by field. replace (c * h * p ^ 2 / 2 + c * v) with (c * (h * p ^ 2 / 2 + v)) by field.
        unfold Rdiv. rewrite Rinv_mult. replace (c * (h * p ^ 2 * / 2 - v) * (/ c * / (h * p ^ 2 * / 2 + v))) with ((c * / c) * ((h * p ^ 2 * / 2 - v) * / (h * p ^ 2 * / 2 + v))) by ring.
        rewrite Rinv_r by lra. ring.
      * rewrite HH. fold n0. unfold K_times. replace n with (n0 + s) by (unfold n0; ring). rewrite exp_plus. pose proof (exp_pos n0) as PE. pose proof (exp_pos s) as PS.
        replace (exp (2 * s)) with (exp s * exp s) by (rewrite <- exp_plus; f_equal; ring).
        replace (c * (exp s * exp s) * K) with (sqrt c * sqrt c * (exp s * exp s) * K) by (rewrite QQ; reflexivity). field. repeat split; lra.
Qed.

(** ** Hubble-flow numbers and amplitudes *)
Lemma quot k a b : k <> 0 -> (k * a) / (k * b) = a / b.
Proof. intros Hk. unfold Rdiv. rewrite Rinv_mult. replace (k * a * (/ k * / b)) with (k * / k * (a * / b)) by ring. rewrite Rinv_r by exact Hk. ring. Qed.
Lemma quot' k x y a b : k <> 0 -> x = k * a -> y = k * b -> x / y = a / b.
Proof. intros Hk -> ->. apply quot. exact Hk. Qed.
(** The Hubble-flow numbers that the approximate spectra are made of do not change ... *)
Theorem C100_flow_efolds : forall c s K U N H phi p, 0 < c -> H <> 0 ->
  flow_of (mkaeqs AN (K_times c s K) (pot_times c U)) (K_times c s K) (N + s) (sqrt c * H) phi p = flow_of (mkaeqs AN K U) K N H phi p.
Proof.
  intros c s K U N H phi p HC HH. pose proof (sq_pos c HC) as Q. pose proof (sq_sq c HC) as QQ.
  unfold flow_of. cbn [a_kind a_U pot_times pdV pd2V pd3V]. cbv zeta.
  set (q := sqrt c) in *. rewrite <- QQ. clearbody q.
  assert (EK : K_times (q * q) s K * exp (-2 * (N + s)) = q * q * (K * exp (-2 * N))).
  { rewrite K_E. replace (N + s - s) with N by ring. reflexivity. }
  set (dH := N_get_dH N H p K). set (dHH := N_get_dH_H N (H ^ 2) p K). set (d2p := N_get_d2phi (H ^ 2) dHH p (pdV U phi)).
  set (d2H := N_get_d2H N H dH p d2p K). set (d3p := N_get_d3phi H dH d2H p d2p (pdV U phi) (pd2V U phi)). set (d3H := N_get_d3H N H dH d2H p d2p d3p K).
  set (d4p := N_get_d4phi H dH d2H d3H p d2p d3p (pdV U phi) (pd2V U phi) (pd3V U phi)).
  assert (E1 : N_get_dH (N + s) (q * H) p (K_times (q * q) s K) = q * dH).
  { unfold dH, N_get_dH. rewrite EK. field. split; lra. }
  assert (E2 : N_get_dH_H (N + s) ((q * H) ^ 2) p (K_times (q * q) s K) = dHH).
  { unfold dHH, N_get_dH_H. rewrite EK. field. split; lra. }
  rewrite E1, E2.
  assert (E3 : N_get_d2phi ((q * H) ^ 2) dHH p (q * q * pdV U phi) = d2p).
  { unfold d2p, N_get_d2phi. field. split; lra. }
  rewrite E3.
  assert (E4 : N_get_d2H (N + s) (q * H) (q * dH) p d2p (K_times (q * q) s K) = q * d2H).
  { unfold d2H, N_get_d2H. rewrite EK. field. split; lra. }
  rewrite E4.
  assert (E5 : N_get_d3phi (q * H) (q * dH) (q * d2H) p d2p (q * q * pdV U phi) (q * q * pd2V U phi) = d3p).
  { unfold d3p, N_get_d3phi. field. split; lra. }
  rewrite E5.
  assert (E6 : N_get_d3H (N + s) (q * H) (q * dH) (q * d2H) p d2p d3p (K_times (q * q) s K) = q * d3H).
  { unfold d3H, N_get_d3H. rewrite EK. field. split; lra. }
  rewrite E6.
  assert (E7 : N_get_d4phi (q * H) (q * dH) (q * d2H) (q * d3H) p d2p d3p (q * q * pdV U phi) (q * q * pd2V U phi) (q * q * pd3V U phi) = d4p).
  { unfold d4p, N_get_d4phi. field. split; lra. }
  rewrite E7. clearbody d4p d3H d3p d2H d2p dH.
  assert (Q0 : q <> 0) by lra.
  assert (RH : forall x, q * x / (q * H) = x / H) by (intros x; apply quot; exact Q0).
  f_equal.
  - unfold N_get_epsilon_1H. replace (- (q * dH)) with (q * - dH) by ring. apply RH.
  - unfold N_get_epsilon_2H. rewrite quot by exact Q0. rewrite RH. reflexivity.
  - unfold N_get_epsilon_3H. apply (quot' (q ^ 6)); [apply pow_nonzero; exact Q0|ring|].
    replace ((q * H) ^ 2 * (q * d2H) ^ 2 - 2 * (q * H) * (q * dH) ^ 2 * (q * d2H) + (q * dH) ^ 4) with (q ^ 4 * (H ^ 2 * d2H ^ 2 - 2 * H * dH ^ 2 * d2H + dH ^ 4)) by ring.
    rewrite Rabs_mult, (Rabs_right (q ^ 4)) by (apply Rle_ge, pow_le; lra). ring.
  - unfold N_get_delta_1. rewrite RH. reflexivity.
  - unfold N_get_delta_2. rewrite !RH. f_equal. field. split; lra.
  - unfold N_get_delta_3. unfold Rdiv. rewrite ?Rinv_mult. 
    replace (6 * (q * dH) * (/ q * / H) * d3p * / p) with ((q * / q) * (6 * dH * / H * d3p * / p)) by ring.
    rewrite Rinv_r by exact Q0. rewrite Rmult_1_l. 
    replace (4 * (q * d2H) * (/ q * / H) + 7 * (q * dH) ^ 2 * / (q * H) ^ 2) with (4 * d2H * / H + 7 * dH ^ 2 * / H ^ 2) by (field; split; lra).
    replace (q * d3H * (/ q * / H)) with (d3H * / H) by (field; split; lra).
    replace (4 * (q * dH) * (q * d2H) * / (q * H) ^ 2) with (4 * dH * d2H * / H ^ 2) by (field; split; lra).
    replace ((q * dH) ^ 3 * / (q * H) ^ 3) with (dH ^ 3 * / H ^ 3) by (field; split; lra). reflexivity.
  - unfold N_get_epsilon_2H. field. split; lra.
  - unfold N_get_epsilon_3H. field. split; lra.
Qed.
Theorem C100_flow_time : forall c s K U N H phi p, 0 < c -> 0 < H ->
  flow_of (mkaeqs AT (K_times c s K) (pot_times c U)) (K_times c s K) (N + s) (sqrt c * H) phi (sqrt c * p) = flow_of (mkaeqs AT K U) K N H phi p.
Proof.
  intros c s K U N H phi p HC HP. assert (HH : H <> 0) by lra. pose proof (sq_pos c HC) as Q. pose proof (sq_sq c HC) as QQ.
  unfold flow_of. cbn [a_kind a_U pot_times pdV pd2V pd3V]. cbv zeta.
  set (q := sqrt c) in *. rewrite <- QQ. clearbody q.
  assert (EK : K_times (q * q) s K * exp (-2 * (N + s)) = q * q * (K * exp (-2 * N))).
  { rewrite K_E. replace (N + s - s) with N by ring. reflexivity. }
  set (dH := T_get_dH N H p K). set (d2p := T_get_d2phi (H ^ 2) p (pdV U phi)).
  set (d2H := T_get_d2H N H dH p d2p K). set (d3p := T_get_d3phi H dH d2H p d2p (pdV U phi) (pd2V U phi)). set (d3H := T_get_d3H N H dH d2H p d2p d3p K).
  set (d4p := T_get_d4phi H dH d2H d3H p d2p d3p (pdV U phi) (pd2V U phi) (pd3V U phi)).
  assert (E1 : T_get_dH (N + s) (q * H) (q * p) (K_times (q * q) s K) = q ^ 2 * dH).
  { unfold dH, T_get_dH. rewrite EK. field. }
  rewrite E1.
  assert (E3 : T_get_d2phi ((q * H) ^ 2) (q * p) (q * q * pdV U phi) = q ^ 2 * d2p).
  { unfold d2p, T_get_d2phi. rewrite !sqrt_pow2 by nra. ring. }
  rewrite E3.
  assert (E4 : T_get_d2H (N + s) (q * H) (q ^ 2 * dH) (q * p) (q ^ 2 * d2p) (K_times (q * q) s K) = q ^ 3 * d2H).
  { unfold d2H, T_get_d2H. replace (2 * K_times (q * q) s K * (q * H) * exp (-2 * (N + s))) with (2 * (K_times (q * q) s K * exp (-2 * (N + s))) * (q * H)) by ring. rewrite EK. ring. }
  rewrite E4.
  assert (E5 : T_get_d3phi (q * H) (q ^ 2 * dH) (q ^ 3 * d2H) (q * p) (q ^ 2 * d2p) (q * q * pdV U phi) (q * q * pd2V U phi) = q ^ 3 * d3p).
  { unfold d3p, T_get_d3phi. field. }
  rewrite E5.
  assert (E6 : T_get_d3H (N + s) (q * H) (q ^ 2 * dH) (q ^ 3 * d2H) (q * p) (q ^ 2 * d2p) (q ^ 3 * d3p) (K_times (q * q) s K) = q ^ 4 * d3H).
  { unfold d3H, T_get_d3H. match goal with |- ?a + 2 * ?k * ?b * ?e = _ => replace (2 * k * b * e) with (2 * (k * e) * b) by ring end. rewrite EK. ring. }
  rewrite E6.
  assert (E7 : T_get_d4phi (q * H) (q ^ 2 * dH) (q ^ 3 * d2H) (q ^ 4 * d3H) (q * p) (q ^ 2 * d2p) (q ^ 3 * d3p) (q * q * pdV U phi) (q * q * pd2V U phi) (q * q * pd3V U phi) = q ^ 4 * d4p).
  { unfold d4p, T_get_d4phi. ring. }
  rewrite E7. clearbody d4p d3H d3p d2H d2p dH.
  assert (Q0 : q <> 0) by lra.
  f_equal.
  - unfold T_get_epsilon_1H. field. split; lra.
  - unfold T_get_epsilon_2H. f_equal; [|field; split; lra]. apply (quot' (q ^ 3)); [apply pow_nonzero; exact Q0|ring|ring].
  - unfold T_get_epsilon_3H. apply (quot' (q ^ 12)); [apply pow_nonzero; exact Q0|ring|ring].
  - unfold T_get_delta_1. apply (quot' (q ^ 2)); [apply pow_nonzero; exact Q0|ring|ring].
  - unfold T_get_delta_2. apply (quot' (q ^ 3)); [apply pow_nonzero; exact Q0|ring|ring].
  - unfold T_get_delta_3. apply (quot' (q ^ 4)); [apply pow_nonzero; exact Q0|ring|ring].
  - unfold T_get_epsilon_2H. field. split; lra.
  - unfold T_get_epsilon_3H. field. split; lra.
Qed.
(** ... and every approximate spectrum is multiplied by c, whatever the method and the order *)
Theorem C100_spectra : forall Co c H f L, 0 < c ->
  let H' := sqrt c * H in
  Ps0 H' (fe1 f) = c * Ps0 H (fe1 f) /\ Pt0 H' = c * Pt0 H /\
  (forall n, Ps0 H' (fe1 f) * cgs_s Co f n = c * (Ps0 H (fe1 f) * cgs_s Co f n) /\ Pt0 H' * cgs_t Co f n = c * (Pt0 H * cgs_t Co f n)) /\
  (forall n e4, Ps0 H' (fe1 f) * arbds_s (arbds_alpha Co) (arbds_Z Co) (fe1 f) (fe2 f) (fe3 f) e4 n L = c * (Ps0 H (fe1 f) * arbds_s (arbds_alpha Co) (arbds_Z Co) (fe1 f) (fe2 f) (fe3 f) e4 n L)) /\
  (0 < fe1 f -> H <> 0 ->
     exp (llms_logP_s (llms_C Co) (fe1 f) (fe2 f) (fe3 f) H' L) = c * exp (llms_logP_s (llms_C Co) (fe1 f) (fe2 f) (fe3 f) H L) /\
     exp (llms_logP_t (llms_C Co) (fe1 f) (fe2 f) H' L) = c * exp (llms_logP_t (llms_C Co) (fe1 f) (fe2 f) H L)).
Proof.
  intros Co c H f L HC H'.
  assert (A : Ps0 H' (fe1 f) = c * Ps0 H (fe1 f)) by (unfold Ps0, H'; rewrite (sq2 c HC); unfold Rdiv; ring).
  assert (B : Pt0 H' = c * Pt0 H).
  { unfold Pt0, H', Rdiv. replace (sqrt c * H * / PI) with (sqrt c * (H * / PI)) by ring. rewrite (sq2 c HC). ring. }
  split; [exact A|]. split; [exact B|]. rewrite A, B. split; [intros n; split; ring|]. split; [intros; ring|].
  intros He Hn. assert (PI0 : 0 < PI) by apply PI_RGT_0.
  assert (H2 : 0 < H ^ 2) by (rewrite <- Rsqr_pow2; apply Rsqr_pos_lt; exact Hn).
  assert (S : 0 < Ps0 H (fe1 f)) by (unfold Ps0; apply Rdiv_lt_0_compat; [exact H2|]; apply Rmult_lt_0_compat; [|exact He]; apply Rmult_lt_0_compat; [lra|apply pow_lt; exact PI0]).
  assert (T : 0 < Pt0 H).
  { unfold Pt0. apply Rmult_lt_0_compat; [lra|]. unfold Rdiv. rewrite Rpow_mult_distr. apply Rmult_lt_0_compat; [exact H2|]. apply pow_lt. apply Rinv_0_lt_compat. exact PI0. }
  unfold llms_logP_s, llms_logP_t. rewrite A, B, !ln_mult by assumption.
  split.
  - match goal with |- exp (ln c + ?a + ?b + ?d + ?e) = _ => replace (ln c + a + b + d + e) with (ln c + (a + b + d + e)) by ring end. rewrite exp_plus, exp_ln by exact HC. reflexivity.
  - match goal with |- exp (ln c + ?a + ?b + ?d + ?e) = _ => replace (ln c + a + b + d + e) with (ln c + (a + b + d + e)) by ring end. rewrite exp_plus, exp_ln by exact HC. reflexivity.
Qed.
