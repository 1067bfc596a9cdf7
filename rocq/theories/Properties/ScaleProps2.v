(** C100, exact spectra: rescaling V by c multiplies every exact primordial power by c. *)
From Coq Require Import Reals List String Bool Lra Lia.
From Coquelicot Require Import Coquelicot Complex.
From Verif Require Import Base Model.Potentials Model.Equations Model.Background Model.Float Model.Perturbations Model.Oscode
  Spec.BackgroundSpec Spec.ScalingSpec Proofs.BaseLemmas Proofs.BackgroundEx Proofs.OscodeWin Properties.BackgroundProps Properties.OscodeProps Properties.ScaleProps.
Import ListNotations.
Open Scope R_scope.
Open Scope string_scope.

Section One.
Variables (c s : R).
Hypothesis HC : 0 < c.
Let q := sqrt c.
Let m := k_unit c s.
Let Q : 0 < q := sq_pos c HC.
Let QQ : q * q = c := sq_sq c HC.
Lemma m_pos : 0 < m. Proof. unfold m, k_unit. apply Rmult_lt_0_compat; [exact Q|apply exp_pos]. Qed.
Lemma m_sq : m * m = c * exp (2 * s).
Proof. unfold m, k_unit. fold q. replace (exp (2 * s)) with (exp s * exp s) by (rewrite <- exp_plus; f_equal; ring). rewrite <- QQ. ring. Qed.

(** the curvature Hypothesis: flat, or units in which K does not change *)
Variables (K k : R).
Hypothesis HK : K = 0 \/ c * exp (2 * s) = 1.
Lemma KK : K_times c s K = K.
Proof. unfold K_times. destruct HK as [-> | ->]; ring. Qed.
Lemma kap : kappa2 K (m * k) = m * m * kappa2 K k /\ (m * k) ^ 2 + m * k * K * (K + 1) + 2 * K = m * m * (k ^ 2 + k * K * (K + 1) + 2 * K).
Proof.
  unfold kappa2. destruct HK as [-> | E]; [split; ring|].
  assert (M1 : m = 1). { pose proof m_sq as X. rewrite E in X. pose proof m_pos. nra. }
  rewrite M1. split; ring.
Qed.
Lemma E1 N : m * m * exp (-2 * (s + N)) = c * exp (-2 * N).
Proof. rewrite m_sq. replace (c * exp (2 * s) * exp (-2 * (s + N))) with (c * (exp (2 * s) * exp (-2 * (s + N)))) by ring. rewrite <- exp_plus. f_equal. f_equal. ring. Qed.
Lemma EK N : K * exp (-2 * (s + N)) = c * (K * exp (-2 * N)).
Proof. destruct HK as [-> | E]; [ring|]. pose proof (E1 N) as X. rewrite m_sq, E in X. rewrite Rmult_1_l in X. rewrite X. ring. Qed.

(** coefficients of the mode equations in e-folds: unchanged *)
Section Coef.
Variables (U : potfun) (x : sample).
Hypothesis HH : 0 < s_H x.
Lemma c_xi : Ns_xi (sample_times c s x) = Ns_xi x.
Proof. reflexivity. Qed.
Lemma kfrac k2 d : m * m * k2 / (m * m * k2 + K * d) = k2 / (k2 + K * d).
Proof.
  pose proof m_pos as MP. destruct HK as [-> | E].
  - apply (quot' (m * m)); [nra|reflexivity|ring].
  - pose proof m_sq as X. rewrite E in X. rewrite X, Rmult_1_l. reflexivity.
Qed.
Lemma c_Nsd2 : Ns_damping2 K (m * k) (pot_times c U) (sample_times c s x) = Ns_damping2 K k U x.
Proof.
  unfold Ns_damping2. rewrite c_xi. destruct kap as [-> _]. cbn [sample_times s_phi s_H s_dphidN pot_times pdV]. f_equal. f_equal.
  - pose proof (kfrac (kappa2 K k) (s_dphidN x ^ 2 / 2)) as X. unfold Rdiv in *. replace (2 * (m * m * kappa2 K k)) with (2 * (m * m * kappa2 K k)) by ring. rewrite !Rmult_assoc. f_equal. rewrite <- !Rmult_assoc. rewrite !Rmult_assoc in *. exact X.
  - f_equal. apply (quot' c); [lra|reflexivity|]. rewrite (sq2 c HC). ring.
Qed.
Lemma c_Nsf : Ns_frequency2 K (m * k) (pot_times c U) (sample_times c s x) = Ns_frequency2 K k U x.
Proof.
  unfold Ns_frequency2. rewrite c_Nsd2, c_xi. destruct kap as [-> _]. cbn [sample_times s_N s_H s_OmK]. f_equal.
  pose proof m_pos as MP. apply (quot' (m * m)); [nra|reflexivity|]. rewrite (sq2 c HC), m_sq.
  replace (2 * (s + s_N x)) with (2 * s + 2 * s_N x) by ring. rewrite exp_plus. ring.
Qed.
Lemma c_Ntf : Nt_frequency2 K (m * k) (sample_times c s x) = Nt_frequency2 K k x.
Proof.
  unfold Nt_frequency2. destruct kap as [_ ->]. cbn [sample_times s_N s_H]. 
  apply (quot' c); [lra| |rewrite (sq2 c HC); ring]. set (z := k ^ 2 + _ + _). replace (m * m * z * exp (-2 * (s + s_N x))) with (z * (m * m * exp (-2 * (s + s_N x)))) by ring.
  rewrite E1. ring.
Qed.
Lemma c_Ntd : Nt_damping K (sample_times c s x) = Nt_damping K x.
Proof.
  unfold Nt_damping. cbn [sample_times s_N s_H s_dphidN]. rewrite EK. f_equal. f_equal. apply (quot' c); [lra|reflexivity|]. apply sq2. exact HC.
Qed.
Lemma c_coeffs (tensor : bool) : 
  (if tensor then Nt_frequency2 K (m * k) else Ns_frequency2 K (m * k) (pot_times c U)) (sample_times c s x) = (if tensor then Nt_frequency2 K k else Ns_frequency2 K k U) x /\
  (if tensor then Nt_damping K else Ns_damping K (m * k) (pot_times c U)) (sample_times c s x) = (if tensor then Nt_damping K else Ns_damping K k U) x.
Proof. destruct tensor; [split; [apply c_Ntf|apply c_Ntd]|]. split; [apply c_Nsf|]. unfold Ns_damping. rewrite c_Nsd2. reflexivity. Qed.

(** vacuum data: both components are multiplied by the same real number *)
Let rho := exp (- s) / sqrt m.
Lemma rho_m : rho * rho * (m * m * m) = c.
Proof.
  unfold rho. pose proof m_pos as MP. pose proof (sqrt_lt_R0 m MP) as SP.
  replace (exp (- s) / sqrt m * (exp (- s) / sqrt m) * (m * m * m)) with (exp (- s) * exp (- s) * (m * m) * (m / (sqrt m * sqrt m))) by (field; lra).
  rewrite sqrt_sqrt by lra. replace (m / m) with 1 by (field; lra). rewrite m_sq, <- exp_plus.
  replace (exp (- s + - s) * (c * exp (2 * s)) * 1) with (c * (exp (- s + - s) * exp (2 * s))) by ring. rewrite <- exp_plus. replace (- s + - s + 2 * s) with 0 by ring. rewrite exp_0. ring.
Qed.
Lemma rt w : sqrt (2 * (m * w)) = sqrt m * sqrt (2 * w).
Proof. replace (2 * (m * w)) with (m * (2 * w)) by ring. apply sqrt_mult_alt. apply Rlt_le, m_pos. Qed.
Lemma r_scaled n w z : n / sqrt (2 * (m * w)) / (exp s * z) = rho * (n / sqrt (2 * w) / z).
Proof. rewrite rt. unfold rho, Rdiv. rewrite !Rinv_mult, exp_Ropp. ring. Qed.
Lemma cd w a H d r : cderiv (m * w) (exp s * a * (q * H)) d (rho * r) = (RtoC rho * cderiv w (a * H) d r)%C.
Proof.
  unfold cderiv. assert (X : (RtoC (m * w) / RtoC (exp s * a * (q * H)))%C = (RtoC w / RtoC (a * H))%C).
  { destruct (Req_dec (a * H) 0) as [Z|NZ].
    - replace (exp s * a * (q * H)) with 0 by (replace (exp s * a * (q * H)) with (exp s * q * (a * H)) by ring; rewrite Z; ring). rewrite Z.
      unfold Cdiv, Cinv, RtoC, Cmult. cbn [fst snd]. unfold Rdiv. rewrite !Rmult_0_l, ?Rplus_0_r, ?Rmult_0_r. f_equal; ring_simplify; ring.
    - rewrite <- !RtoC_div; [|exact NZ|]. 
      + f_equal. unfold m, k_unit. fold q. field. pose proof (exp_pos s). repeat split; try lra; intros A; apply NZ; rewrite A; ring.
      + replace (exp s * a * (q * H)) with (exp s * q * (a * H)) by ring. apply Rmult_integral_contrapositive_currified; [|exact NZ]. pose proof (exp_pos s). nra. }
  generalize dependent (exp s * a * (q * H)). intros D X. generalize dependent (a * H). intros D0 X.
  unfold Cdiv in *. replace (- Ci * RtoC (m * w) * / RtoC D)%C with (- Ci * (RtoC (m * w) * / RtoC D))%C by ring. rewrite X.
  rewrite (RtoC_mult rho r). ring.
Qed.

Lemma cR w a H r : (- Ci * RtoC (m * w) / RtoC (exp s * a * (q * H)) * RtoC (rho * r))%C = (RtoC rho * (- Ci * RtoC w / RtoC (a * H) * RtoC r))%C.
Proof.
  pose proof (cd w a H 0 r) as X. unfold cderiv in X.
  replace (RtoC 0) with (0 : C) in X by reflexivity.
  replace (- Ci * RtoC (m * w) / RtoC (exp s * a * (q * H)) * RtoC (rho * r))%C with ((- Ci * RtoC (m * w) / RtoC (exp s * a * (q * H)) - 0) * RtoC (rho * r))%C by ring.
  rewrite X. ring.
Qed.
(** the derivatives of the background *)
Lemma bgd :
  let N := s_N x in let H := s_H x in let p := s_dphidN x in let phi := s_phi x in let U' := pot_times c U in
  N_get_dH (s + N) (q * H) p K = q * N_get_dH N H p K /\
  N_get_dH_H (s + N) ((q * H) ^ 2) p K = N_get_dH_H N (H ^ 2) p K /\
  (forall h, N_get_d2phi ((q * H) ^ 2) h p (pdV U' phi) = N_get_d2phi (H ^ 2) h p (pdV U phi)) /\
  (forall d d2, N_get_d2H (s + N) (q * H) (q * d) p d2 K = q * N_get_d2H N H d p d2 K) /\
  (forall d d2 d2p, N_get_d3phi (q * H) (q * d) (q * d2) p d2p (pdV U' phi) (pd2V U' phi) = N_get_d3phi H d d2 p d2p (pdV U phi) (pd2V U phi)).
Proof.
  cbv zeta. unfold N_get_dH, N_get_dH_H, N_get_d2phi, N_get_d2H, N_get_d3phi. rewrite EK. cbn [pot_times pdV pd2V]. rewrite <- QQ. pose proof HH.
  repeat split; intros; field; split; lra.
Qed.
Lemma wk_s : Ns_HD_wk K (m * k) (pot_times c U) (sample_times c s x) = m * Ns_HD_wk K k U x.
Proof.
  unfold Ns_HD_wk. cbv zeta. cbn [sample_times s_N s_H s_phi s_dphidN]. fold q. destruct bgd as (B1 & B2 & B3 & B4 & B5). rewrite B1, B2, B3, B4, B5.
  rewrite exp_plus. pose proof HH as HP. rewrite quot by lra.
  replace ((m * k) ^ 2 / (exp s * exp (s_N x) * (q * s_H x)) ^ 2) with (k ^ 2 / (exp (s_N x) * s_H x) ^ 2).
  - unfold m, k_unit. fold q. ring.
  - symmetry. apply (quot' (m * m)); [pose proof m_pos; nra|ring|]. unfold m, k_unit. fold q. ring.
Qed.
Lemma wk_t : Nt_HD_wk K (m * k) (sample_times c s x) = m * Nt_HD_wk K k x.
Proof.
  unfold Nt_HD_wk. cbv zeta. cbn [sample_times s_N s_H s_phi s_dphidN]. fold q. destruct bgd as (B1 & _). rewrite B1.
  rewrite exp_plus. pose proof HH as HP. rewrite quot by lra.
  replace ((m * k) ^ 2 / (exp s * exp (s_N x) * (q * s_H x)) ^ 2) with (k ^ 2 / (exp (s_N x) * s_H x) ^ 2).
  - unfold m, k_unit. fold q. ring.
  - symmetry. apply (quot' (m * m)); [pose proof m_pos; nra|ring|]. unfold m, k_unit. fold q. ring.
Qed.
Definition cpair_times (z : C * C) : C * C := ((RtoC rho * fst z)%C, (RtoC rho * snd z)%C).
Lemma vac_scaled tensor vac : vacuum_ic false tensor K (m * k) (pot_times c U) vac (sample_times c s x) = res_map cpair_times (vacuum_ic false tensor K k U vac x).
Proof.
  destruct bgd as (B1 & B2 & B3 & _). pose proof (exp_plus s (s_N x)) as EX.
  unfold vacuum_ic. destruct (String.eqb vac "k"); [|destruct (String.eqb vac "HD"); [|destruct (String.eqb vac "RST"); [|reflexivity] ] ];
    (destruct tensor; cbn [res_map]; f_equal; unfold cpair_times;
     unfold Ns_vac_k, Nt_vac_k, Ns_vac_HD, Nt_vac_HD, Ns_vac_RST, Nt_vac_RST; cbv zeta; rewrite ?wk_s, ?wk_t; cbn [sample_times s_N s_H s_phi s_dphidN fst snd]; fold q;
     rewrite ?B2, ?B3, EX; rewrite ?(Rmult_assoc (exp s) (exp (s_N x)) (s_dphidN x)); rewrite r_scaled; rewrite ?cd, ?cR; rewrite ?RtoC_mult; reflexivity).
Qed.
End Coef.
End One.

(** ** list plumbing *)
Lemma at_index_map {A B} (f : A -> B) l i : at_index (map f l) i = res_map f (at_index l i).
Proof. unfold at_index. rewrite nth_error_map. destruct (nth_error l i); reflexivity. Qed.
Lemma slice_map {A B} (f : A -> B) i j l : slice i j (map f l) = map f (slice i j l).
Proof. unfold slice. rewrite skipn_map, firstn_map. reflexivity. Qed.
Lemma at_index_in {A} (l : list A) i a : at_index l i = Ok a -> In a l.
Proof. unfold at_index. destruct (nth_error l i) eqn:E; [|discriminate]. intros X. injection X as <-. exact (nth_error_In _ _ E). Qed.
Lemma slice_in {A} i j (l : list A) a : In a (slice i j l) -> In a l.
Proof.
  unfold slice. intros H. assert (X : In a (skipn i l)). { rewrite <- (firstn_skipn (S j - i) (skipn i l)). apply in_or_app. left. exact H. }
  rewrite <- (firstn_skipn i l). apply in_or_app. right. exact X.
Qed.
Section Dict.
Context {A : Type} (g : A -> A).
Let gm := map (fun p : string * A => (fst p, g (snd p))).
Lemma dset_map k v d : dset k (g v) (gm d) = gm (dset k v d).
Proof. induction d as [|[k' v'] d IH]; [reflexivity|]. unfold gm in *. cbn. destruct (String.eqb k k'); cbn; [reflexivity|]. rewrite IH. reflexivity. Qed.
Lemma dget_map k d : dget k (gm d) = res_map g (dget k d).
Proof.
  unfold dget, gm. induction d as [|[k' v'] d IH]; [reflexivity|]. cbn. destruct (String.eqb k k'); [reflexivity|]. exact IH.
Qed.
End Dict.
Lemma set_nth_map {A B} (f : A -> B) i v l : set_nth i (f v) (map f l) = map f (set_nth i v l).
Proof. revert i. induction l as [|h l IH]; intros [|i]; cbn; [reflexivity|reflexivity|reflexivity|]. rewrite IH. reflexivity. Qed.

Lemma window_shift c s logaH Ns k fb fe : 0 < c -> 0 < k ->
  window (map (Rplus (ln (k_unit c s))) logaH) (map (Rplus s) Ns) (k_unit c s * k) fb fe = window logaH Ns k fb fe.
Proof.
  intros HC Hk. unfold window.
  assert (L : ln (k_unit c s * k) = ln (k_unit c s) + ln k) by (apply ln_mult; [apply m_pos; exact HC|exact Hk]). rewrite L. set (u := ln (k_unit c s)).
  rewrite !map_map.
  assert (A1 : map (fun h => rltb (ln fb) (u + ln k - (u + h))) logaH = map (fun h => rltb (ln fb) (ln k - h)) logaH).
  { apply map_ext. intros h. f_equal. ring. }
  assert (A2 : map (fun h => rltb (ln fe) (u + h - (u + ln k))) logaH = map (fun h => rltb (ln fe) (h - ln k)) logaH).
  { apply map_ext. intros h. f_equal. ring. }
  rewrite A1, A2.
  set (ib := if Req_EM_T fb 0 then _ else _).
  destruct (at_index (argwhere (map (fun h => rltb (ln fe) (h - ln k)) logaH)) 0) as [ie|e]; [|reflexivity]. cbn [bind].
  rewrite !at_index_map.
  destruct (at_index Ns ie) as [Ne|e]; [|reflexivity]. destruct (at_index Ns ib) as [Nb|e]; [|reflexivity]. cbn [bind res_map].
  replace (s + Ne - (s + Nb)) with (Ne - Nb) by ring. destruct (rltb (Ne - Nb) 10); [|reflexivity].
  assert (A3 : map (fun n => rltb 10 (s + n - (s + Nb))) Ns = map (fun n => rltb 10 (n - Nb)) Ns).
  { apply map_ext. intros h. f_equal. ring. }
  rewrite map_map, A3. reflexivity.
Qed.

Section Solve.
Variable oscode : list R -> R -> R -> list C -> list R -> R -> R -> list C * list C.
Variable nanmedian : list C -> C.
Variables (c s : R).
Hypothesis HC : 0 < c.
(** the solver does not care about the origin of e-folds (nothing to assume when s = 0) *)
Definition shift_invariant : Prop := forall ts ti tf ws gs x0 dx0, oscode (map (Rplus s) ts) (s + ti) (s + tf) ws gs x0 dx0 = oscode ts ti tf ws gs x0 dx0.
Hypothesis HO : shift_invariant.
Let m := k_unit c s.
Let rho := exp (- s) / sqrt m.

Lemma combine_scaled norm vac y1 dy1 y2 dy2 :
  combine_solutions nanmedian (m * m * m * norm) (cpair_times c s vac) y1 dy1 y2 dy2 = res_map (Rmult c) (combine_solutions nanmedian norm vac y1 dy1 y2 dy2).
Proof.
  destruct y1 as [|a1 l1]; [reflexivity|]. destruct dy1 as [|b1 l2]; [reflexivity|]. destruct y2 as [|a2 l3]; [reflexivity|]. destruct dy2 as [|b2 l4]; [reflexivity|].
  unfold combine_solutions. cbn [res_map]. cbv zeta. f_equal.
  unfold cpair_times, coefficients_a_b. cbn [fst snd]. fold m. fold rho.
  set (A := nanmedian (last_five (a1 :: l1))). set (B := nanmedian (last_five (a2 :: l3))). destruct vac as [u du]. cbn [fst snd].
  unfold Cdiv.
  replace ((RtoC rho * u * b2 - RtoC rho * du * a2) * / (a1 * b2 - b1 * a2) * A + (RtoC rho * u * b1 - RtoC rho * du * a1) * / (a2 * b1 - b2 * a1) * B)%C
    with (RtoC rho * ((u * b2 - du * a2) * / (a1 * b2 - b1 * a2) * A + (u * b1 - du * a1) * / (a2 * b1 - b2 * a1) * B))%C by ring.
  rewrite Cmod_mult, Cmod_R. set (z := Cmod _).
  replace ((Rabs rho * z) ^ 2 * (m * m * m * norm)) with (Rabs rho * Rabs rho * (m * m * m) * (z ^ 2 * norm)) by ring.
  rewrite <- Rabs_mult, (Rabs_right (rho * rho)) by nra. unfold rho, m. rewrite (rho_m c s HC). ring.
Qed.
Lemma powers_scaled norm ic ic' r1 r2 vacuum : (forall v, ic' v = res_map (cpair_times c s) (ic v)) ->
  mode_powers nanmedian (m * m * m * norm) ic' r1 r2 vacuum = res_map (map (fun p : string * R => (fst p, c * snd p))) (mode_powers nanmedian norm ic r1 r2 vacuum).
Proof.
  intros HI. unfold mode_powers.
  assert (G : forall d d', d' = res_map (map (fun p : string * R => (fst p, c * snd p))) d ->
    fold_left (fun acc vac => do d <- acc; do v <- ic' vac; do P <- combine_solutions nanmedian (m * m * m * norm) v (fst r1) (snd r1) (fst r2) (snd r2); Ok (dset vac P d)) vacuum d' =
    res_map (map (fun p : string * R => (fst p, c * snd p))) (fold_left (fun acc vac => do d <- acc; do v <- ic vac; do P <- combine_solutions nanmedian norm v (fst r1) (snd r1) (fst r2) (snd r2); Ok (dset vac P d)) vacuum d)).
  { induction vacuum as [|v vac IH]; intros d d' E; [exact E|]. cbn [fold_left]. apply IH. subst d'.
    destruct d as [d|e]; [|reflexivity]. cbn [res_map bind]. rewrite HI. destruct (ic v) as [w|e]; [|reflexivity]. cbn [res_map bind].
    rewrite combine_scaled. destruct (combine_solutions nanmedian norm w (fst r1) (snd r1) (fst r2) (snd r2)) as [P|e]; [|reflexivity]. cbn [res_map bind].
    f_equal. apply (dset_map (Rmult c)). }
  apply G. reflexivity.
Qed.

Variable b : obg.
Hypothesis HI : ob_indep b = "_N".
Hypothesis HK : ob_K b = 0 \/ c * exp (2 * s) = 1.
Hypothesis HH : List.Forall (fun x => 0 < s_H x) (ob_s b).

Lemma coeffs_scaled tensor k ss : List.Forall (fun x => 0 < s_H x) ss ->
  mode_coeffs false tensor (ob_K b) (m * k) (pot_times c (ob_U b)) (map (sample_times c s) ss) = mode_coeffs false tensor (ob_K b) k (ob_U b) ss.
Proof.
  intros F. unfold mode_coeffs. rewrite !map_map. f_equal; [f_equal|]; apply map_ext_in; intros x Hx; rewrite Forall_forall in F; specialize (F x Hx);
    apply (c_coeffs c s HC (ob_K b) k HK (ob_U b) x tensor).
Qed.
Theorem C100_mode : forall vacuum drop fb fe y0 k, 0 < k -> ob_K b <> 1 \/ drop = false ->
  solve_mode oscode nanmedian (bg_times c s b) vacuum drop fb fe y0 (k_unit c s * k) = res_map (pert_times c s) (solve_mode oscode nanmedian b vacuum drop fb fe y0 k).
Proof.
  intros vacuum drop fb fe y0 k Hk HD. unfold solve_mode. fold m. cbn [ob_logaH ob_s ob_indep ob_x ob_K ob_U bg_times]. rewrite HI.
  assert (W : map s_N (map (sample_times c s) (ob_s b)) = map (Rplus s) (map s_N (ob_s b))) by (rewrite !map_map; apply map_ext; reflexivity).
  rewrite W. unfold m. rewrite window_shift by assumption. fold m.
  destruct (window (ob_logaH b) (map s_N (ob_s b)) k fb fe) as [[i j]|e]; [|reflexivity]. cbn [bind fst snd].
  change (if String.eqb "_N" "t" then Ok true else if String.eqb "_N" "_N" then Ok false else Raise NotImplementedError) with (Ok false : res bool). cbn [bind].
  rewrite !at_index_map. destruct (at_index (ob_x b) i) as [ti|e]; [|reflexivity]. destruct (at_index (ob_x b) j) as [tf|e]; [|reflexivity]. cbn [bind res_map].
  destruct (at_index (ob_s b) i) as [s0|e] eqn:ES; [|reflexivity]. cbn [bind res_map].
  assert (H0 : 0 < s_H s0) by (rewrite Forall_forall in HH; apply HH; exact (at_index_in _ _ _ ES)).
  assert (HS : List.Forall (fun x => 0 < s_H x) (slice i j (ob_s b))).
  { apply Forall_forall. intros x Hx. rewrite Forall_forall in HH. apply HH. exact (slice_in _ _ _ _ Hx). }
  rewrite (KK c s (ob_K b) HK). rewrite !slice_map. cbv zeta. rewrite !coeffs_scaled by exact HS.
  change (2 * 0)%nat with 0%nat. change (2 * 1)%nat with 2%nat. cbn [Nat.add].
  destruct (at_index y0 0) as [x0|e]; [|reflexivity]. cbn [bind]. destruct (at_index y0 1) as [x1|e]; [|reflexivity]. cbn [bind].
  destruct (at_index y0 2) as [x2|e]; [|reflexivity]. cbn [bind]. destruct (at_index y0 3) as [x3|e]; [|reflexivity]. cbn [bind].
  rewrite !HO.
  assert (V : forall tensor v, vacuum_ic false tensor (ob_K b) (m * k) (pot_times c (ob_U b)) v (sample_times c s s0) = res_map (cpair_times c s) (vacuum_ic false tensor (ob_K b) k (ob_U b) v s0)).
  { intros tensor v. apply (vac_scaled c s HC (ob_K b) k HK (ob_U b) s0 H0). }
  assert (N1 : scalar_pps_norm (m * k) = m * m * m * scalar_pps_norm k) by (unfold scalar_pps_norm, Rdiv; ring).
  assert (N2 : tensor_pps_norm (m * k) = m * m * m * tensor_pps_norm k) by (unfold tensor_pps_norm, Rdiv; ring).
  rewrite N1, N2. rewrite (powers_scaled _ _ _ _ _ vacuum (V false)). set (MP := mode_powers nanmedian (scalar_pps_norm k) _ _ _ _). destruct MP as [Ps|e]; [|reflexivity]. cbn [bind res_map].
  rewrite (powers_scaled _ _ _ _ _ vacuum (V true)). set (MT := mode_powers nanmedian (tensor_pps_norm k) _ _ _ _). destruct MT as [Pt|e]; [|reflexivity]. cbn [bind res_map].
  assert (ND : forall k0, (rltb k0 1 && (if Req_EM_T (ob_K b) 1 then true else false) && drop)%bool = false).
  { intros k0. destruct HD as [HD | ->]; [|apply andb_false_r]. destruct (Req_EM_T (ob_K b) 1) as [X|X]; [contradiction|]. rewrite andb_false_r. reflexivity. }
  rewrite !ND. reflexivity.
Qed.

Lemma store_scaled i p S vacuum : store i (pert_times c s p) (pps_times c s S) vacuum = res_map (pps_times c s) (store i p S vacuum).
Proof.
  unfold store.
  assert (G : forall d d', d' = res_map (pps_times c s) d ->
    fold_left (fun acc vac => do S <- acc; do arr <- dget vac (ps_s S); do v <- dget vac (pP_s (pert_times c s p));
      let S := mkpps (ps_k S) (ps_k_iMpc S) (dset vac (set_nth i (Fin v) arr) (ps_s S)) (ps_t S) in
      do arr <- dget vac (ps_t S); do v <- dget vac (pP_t (pert_times c s p));
      Ok (mkpps (ps_k S) (ps_k_iMpc S) (ps_s S) (dset vac (set_nth i (Fin v) arr) (ps_t S)))) vacuum d' =
    res_map (pps_times c s) (fold_left (fun acc vac => do S <- acc; do arr <- dget vac (ps_s S); do v <- dget vac (pP_s p);
      let S := mkpps (ps_k S) (ps_k_iMpc S) (dset vac (set_nth i (Fin v) arr) (ps_s S)) (ps_t S) in
      do arr <- dget vac (ps_t S); do v <- dget vac (pP_t p);
      Ok (mkpps (ps_k S) (ps_k_iMpc S) (ps_s S) (dset vac (set_nth i (Fin v) arr) (ps_t S)))) vacuum d)).
  { induction vacuum as [|w vac IH]; intros d d' E; [exact E|]. cbn [fold_left]. apply IH. subst d'.
    destruct d as [d|e]; [|reflexivity]. cbn [res_map bind pps_times pert_times ps_s ps_t ps_k ps_k_iMpc pP_s pP_t].
    rewrite (dget_map (map (fmul (Fin c)))). destruct (dget w (ps_s d)) as [a|e]; [|reflexivity]. cbn [res_map bind].
    rewrite (dget_map (Rmult c)). destruct (dget w (pP_s p)) as [v|e]; [|reflexivity]. cbn [res_map bind ps_s ps_t ps_k ps_k_iMpc].
    rewrite (dget_map (map (fmul (Fin c)))). destruct (dget w (ps_t d)) as [a2|e]; [|reflexivity]. cbn [res_map bind].
    rewrite (dget_map (Rmult c)). destruct (dget w (pP_t p)) as [v2|e]; [|reflexivity]. cbn [res_map bind].
    f_equal. unfold pps_times. cbn [ps_s ps_t ps_k ps_k_iMpc].
    change (Fin (c * v)) with (fmul (Fin c) (Fin v)). change (Fin (c * v2)) with (fmul (Fin c) (Fin v2)). rewrite !set_nth_map, !(dset_map (map (fmul (Fin c)))). reflexivity. }
  apply G. reflexivity.
Qed.
Lemma init_scaled ks vacuum : init_pps (bg_times c s b) (map (Rmult m) ks) vacuum = res_map (pps_times c s) (init_pps b ks vacuum).
Proof.
  unfold init_pps. cbn [bg_times ob_logaH_star]. destruct (ob_logaH_star b) as [l|]; [|reflexivity]. cbn [option_map res_map]. f_equal.
  unfold pps_times. cbn [ps_s ps_t ps_k ps_k_iMpc].
  assert (A : forall d, fold_left (fun d v => dset v (map (fun _ => NaN) (map (Rmult m) ks)) d) vacuum (map (fun q => (fst q, map (fmul (Fin c)) (snd q))) d)
     = map (fun q => (fst q, map (fmul (Fin c)) (snd q))) (fold_left (fun d v => dset v (map (fun _ => NaN) ks) d) vacuum d)).
  { induction vacuum as [|v vac IH]; intros d; [reflexivity|]. cbn [fold_left]. rewrite <- IH. f_equal.
    rewrite <- (dset_map (map (fmul (Fin c)))). f_equal. rewrite !map_map. apply map_ext. reflexivity. }
  specialize (A []). cbn [map] in A. rewrite A. f_equal.
  rewrite map_map. apply map_ext. intros k. rewrite exp_plus, exp_ln by (apply m_pos; exact HC). fold m. pose proof (m_pos c s HC) as MP. fold m in MP. pose proof (exp_pos l). field. split; lra.
Qed.
(** solve_oscode on the rescaled background at the rescaled wavenumbers *)
Theorem C100_oscode : forall k vacuum drop fb fe y0 tol,
  List.Forall (fun x => 0 < x) (match k with KScalar x => [x] | KArray l => l end) -> ob_K b <> 1 \/ drop = false ->
  solve_oscode oscode nanmedian (bg_times c s b) (karg_times c s k) vacuum drop fb fe y0 tol
  = res_map (ret_times c s) (solve_oscode oscode nanmedian b k vacuum drop fb fe y0 tol).
Proof.
  intros k vacuum drop fb fe y0 tol HP HD. unfold solve_oscode. destruct tol; [reflexivity|].
  assert (KS : match karg_times c s k with KScalar k => [k] | KArray ks => ks end = map (Rmult m) (match k with KScalar k => [k] | KArray ks => ks end)) by (destruct k; reflexivity).
  rewrite KS. set (vac := match vacuum with None => ["RST"] | Some v => v end). set (ks := match k with KScalar k => [k] | KArray ks => ks end) in *.
  change (match y0 with None => ob_ic (bg_times c s b) | Some y => y end) with (match y0 with None => ob_ic b | Some y => y end). set (y := match y0 with None => ob_ic b | Some y => y end).
  rewrite init_scaled. destruct (init_pps b ks vac) as [S0|e]; [|reflexivity]. cbn [res_map bind].
  assert (G : forall l i S p, List.Forall (fun x => 0 < x) l ->
    k_loop (solve_mode oscode nanmedian (bg_times c s b) vac drop fb fe y) vac i (map (Rmult m) l) (pps_times c s S) (option_map (pert_times c s) p)
    = res_map (fun r => (pps_times c s (fst r), option_map (pert_times c s) (snd r))) (k_loop (solve_mode oscode nanmedian b vac drop fb fe y) vac i l S p)).
  { induction l as [|x l IH]; intros i S p F; [reflexivity|]. cbn [map k_loop]. inversion F as [|? ? F1 F2]; subst.
    unfold m at 1. rewrite C100_mode by assumption. destruct (solve_mode oscode nanmedian b vac drop fb fe y x) as [z|e]; [|reflexivity]. cbn [res_map bind].
    rewrite store_scaled. destruct (store i z S vac) as [S1|e]; [|reflexivity]. cbn [res_map bind]. apply (IH (Datatypes.S i) S1 (Some z) F2). }
  specialize (G ks 0%nat S0 None HP). cbn [option_map] in G. rewrite G. destruct (k_loop _ _ _ ks S0 None) as [[S1 p]|e]; [|reflexivity]. cbn [res_map bind fst snd].
  destruct k; reflexivity.
Qed.
End Solve.
(** with s = 0 nothing is assumed about the solver: *)
Lemma shift_zero oscode : shift_invariant oscode 0.
Proof.
  intros ts ti tf ws gs x0 dx0. replace (map (Rplus 0) ts) with ts; [rewrite !Rplus_0_l; reflexivity|].
  induction ts as [|h ts IH]; [reflexivity|]. cbn. rewrite Rplus_0_l, <- IH. reflexivity.
Qed.
(** flat universes, e-folds: for every c > 0, whatever the ODE solver returns *)
Theorem C100_flat : forall oscode nanmedian c b k vacuum drop fb fe y0 tol, 0 < c -> ob_indep b = "_N" -> ob_K b = 0 -> List.Forall (fun x => 0 < s_H x) (ob_s b) ->
  List.Forall (fun x => 0 < x) (match k with KScalar x => [x] | KArray l => l end) ->
  solve_oscode oscode nanmedian (bg_times c 0 b) (karg_times c 0 k) vacuum drop fb fe y0 tol
  = res_map (ret_times c 0) (solve_oscode oscode nanmedian b k vacuum drop fb fe y0 tol).
Proof.
  intros os nm c b k vacuum drop fb fe y0 tol HC HI HK HH HP. apply C100_oscode; try assumption.
  - apply shift_zero.
  - left. exact HK.
  - left. rewrite HK. lra.
Qed.
(** the Omega_K attribute of the rescaled table is the one the table is given *)
Lemma C100_table_OmegaK : forall c s K N H, 0 < c -> 0 < H -> OmegaK_attr (K_times c s K) (s + N) (sqrt c * H) = OmegaK_attr K N H.
Proof.
  intros c s K N H HC HH. unfold OmegaK_attr. rewrite ln_mult by (try apply sqrt_lt_R0; assumption). unfold K_times.
  replace (-2 * (s + N + (ln (sqrt c) + ln H))) with (- (2 * s) + (- (2 * ln (sqrt c)) + -2 * (N + ln H))) by ring. rewrite !exp_plus, !exp_Ropp.
  replace (exp (2 * ln (sqrt c))) with c.
  - pose proof (exp_pos (2 * s)). field. split; lra.
  - replace (2 * ln (sqrt c)) with (ln (sqrt c) + ln (sqrt c)) by ring. rewrite <- ln_mult by (apply sqrt_lt_R0; exact HC). rewrite sqrt_sqrt by lra. symmetry. apply exp_ln. exact HC.
Qed.

(** a concrete run: V = 4 e^(-phi)-type table, flat, three samples; rescaling by 16 multiplies a positive power by 16 *)
Definition bg_flat_ex : obg := mkobg 0 (Vexp 4) [0; 5; 11]
  [mksample 0 1 0 1 1 0; mksample 5 1 0 1 1 0; mksample 11 1 0 1 1 0] [0; 5; 11] (Some 0) "_N" [1; 0; 0; 1].
Lemma bg_flat_run : exists p, solve_oscode osc_const med_hd bg_flat_ex (KScalar (1/2)) (Some ["k"]) true 0 100 (Some [1; 0; 0; 1]) false = Ok (RetMode (Some p)) /\
  exists P, dget "k" (pP_s p) = Ok P /\ 0 < P.
Proof.
  rewrite scalar_call. cbn [ob_logaH_star bg_flat_ex]. unfold solve_mode. cbn [ob_logaH ob_s bg_flat_ex map s_N]. rewrite bg_ex_window.
  cbn [bind fst snd ob_indep bg_flat_ex String.eqb Ascii.eqb Bool.eqb at_index nth_error ob_x ob_s Nat.mul Nat.add].
  unfold osc_const at 1 2 3 4. unfold mode_powers. cbn [fold_left bind vacuum_ic String.eqb Ascii.eqb Bool.eqb fst snd combine_solutions dset].
  eexists. split; [reflexivity|]. cbn [pP_s].
  assert (R1 : forall (q : bool) (x : R), dget "k" (if q then [("k", x); ("RST", 1 / 10^30)] else [("k", x)]) = Ok x) by (intros [|] x; reflexivity).
  rewrite R1. eexists. split; [reflexivity|].
  assert (EU : forall u d : C, (fst (coefficients_a_b u d (RtoC 1) (RtoC 0) (RtoC 0) (RtoC 1)) * med_hd (last_five [RtoC 1]) +
       snd (coefficients_a_b u d (RtoC 1) (RtoC 0) (RtoC 0) (RtoC 1)) * med_hd (last_five [RtoC 0]))%C = u).
  { intros u d. unfold coefficients_a_b, med_hd, last_five. cbn [fst snd List.length Nat.sub skipn hd].
    field. split; intros X; apply (f_equal fst) in X; cbn in X; lra. }
  rewrite EU. unfold Ns_vac_k. cbv zeta. cbn [fst s_N s_H s_dphidN]. rewrite Cmod_R.
  unfold scalar_pps_norm. rewrite exp_0. replace (2 * (1/2)) with 1 by field. rewrite sqrt_1.
  replace (1 / 1 / (1 * 1)) with 1 by field. rewrite Rabs_R1. pose proof PI_RGT_0 as P0.
  apply Rmult_lt_0_compat; [lra|]. apply Rdiv_lt_0_compat; [lra|]. apply Rmult_lt_0_compat; [lra|apply pow_lt; exact P0].
Qed.
Theorem C100_nonvacuous : (exists p P, solve_oscode osc_const med_hd bg_flat_ex (KScalar (1/2)) (Some ["k"]) true 0 100 (Some [1; 0; 0; 1]) false = Ok (RetMode (Some p)) /\
   dget "k" (pP_s p) = Ok P /\ 0 < P /\
   exists p', solve_oscode osc_const med_hd (bg_times 16 0 bg_flat_ex) (KScalar 2) (Some ["k"]) true 0 100 (Some [1; 0; 0; 1]) false = Ok (RetMode (Some p')) /\ dget "k" (pP_s p') = Ok (16 * P)) /\
  (exists y, T_background 0 (pot_times 16 (Vexp 10)) true y (1 / 4) (3 / 4)) /\
  (exists y n0 n1, n0 < n1 /\ N_background 0 (pot_times 16 (Vexp 10)) true true y n0 n1).
Proof.
  split; [|split].
  - destruct bg_flat_run as (p & E & P & EP & LP). exists p, P. split; [exact E|]. split; [exact EP|]. split; [exact LP|].
    pose proof (C100_flat osc_const med_hd 16 bg_flat_ex (KScalar (1/2)) (Some ["k"]) true 0 100 (Some [1; 0; 0; 1]) false ltac:(lra) eq_refl eq_refl) as X.
    rewrite E in X. cbn [karg_times res_map ret_times option_map] in X. unfold k_unit in X. rewrite exp_0 in X.
    replace (sqrt 16) with 4 in X by (symmetry; replace 16 with (4 * 4) by ring; apply sqrt_square; lra). replace (4 * 1 * (1 / 2)) with 2 in X by field.
    eexists. split; [apply X; cbn [bg_flat_ex ob_s]; repeat constructor; cbn; lra|]. cbn [pert_times pP_s]. rewrite (dget_map (Rmult 16)), EP. reflexivity.
  - destruct (C100_time 16 0 0 (Vexp 10) true y_flat 1 3 ltac:(lra) flat_background) as (y & B & _). exists y.
    replace (sqrt 16) with 4 in B by (symmetry; replace 16 with (4 * 4) by ring; apply sqrt_square; lra). unfold K_times in B. rewrite Rmult_0_r in B. exact B.
  - destruct C16_C17_nonvacuous as (y & n0 & n1 & L & B). destruct (C100_efolds 16 0 0 (Vexp 10) true true y n0 n1 ltac:(lra) B) as (y' & B' & _).
    unfold K_times in B'. rewrite Rmult_0_r in B'. exists y', (n0 + 0), (n1 + 0). split; [lra|exact B'].
Qed.
