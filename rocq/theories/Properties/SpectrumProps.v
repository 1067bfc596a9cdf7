(** C115: solve_oscode reports the same power in cosmic time and in e-folds. *)
From Coq Require Import Reals List String Lra Lia Classical.
From Coquelicot Require Import Coquelicot.
From Verif Require Import Base Model.Potentials Model.Equations Model.Background Model.Perturbations Model.Oscode Spec.BackgroundSpec Spec.PerturbationSpec Spec.OscodeSpec
  Spec.SpectrumSpec Proofs.BackgroundT Proofs.BackgroundTN Proofs.BackgroundN Proofs.PertT Proofs.Unique Proofs.BackgroundEx Properties.BackgroundProps Properties.PertProps Properties.OscodeProps Properties.ModeProps
  Properties.UniqueProps Properties.ModeUniqueProps.
Import ListNotations.
Open Scope R_scope.
Open Scope string_scope.

Lemma range_map {A B} (F : A -> B) xs l i j : is_range xs l i j -> is_range (map F xs) (map F l) i j.
Proof.
  intros [L E]. split; [rewrite map_length; exact L|]. intros m Hm. rewrite !nth_error_map, (E m Hm). reflexivity.
Qed.
(** the superposition of the two basis solutions is a mode with the given initial data *)
Lemma superposition_mode (g w f h : R -> R) a b (vac : C * C) x0 : oscillator g w f a b -> oscillator g w h a b ->
  f x0 = 1 -> is_derive f x0 0 -> h x0 = 0 -> is_derive h x0 1 ->
  let u := fun x => (RtoC (f x) * fst vac + RtoC (h x) * snd vac)%C in complex_mode g w u a b /\ starts_from vac u x0.
Proof.
  intros OF OH F0 F1 H0 H1 u. destruct vac as [[p q] [r s]].
  assert (U1 : forall t, fst (u t) = p * f t + r * h t) by (intros t; unfold u, Cplus, Cmult, RtoC; cbn [fst snd]; ring).
  assert (U2 : forall t, snd (u t) = q * f t + s * h t) by (intros t; unfold u, Cplus, Cmult, RtoC; cbn [fst snd]; ring).
  assert (OX : forall (d d' : R -> R), (forall t, d t = d' t) -> oscillator g w d' a b -> oscillator g w d a b).
  { intros d d' E (f1 & F). exists f1. intros x Hx. destruct (F x Hx) as [A1 A2]. split; [apply (is_derive_ext d'); [intros m; symmetry; apply E|exact A1]|]. rewrite E. exact A2. }
  assert (DL : forall c d, is_derive (fun t => c * f t + d * h t) x0 d).
  { intros c d. eapply is_derive_eq; [apply (@is_derive_plus R_AbsRing R_NormedModule); apply is_derive_scal; eassumption|]. unfold plus; simpl; ring. }
  split; [split; [exact (OX _ _ U1 (osc_lin _ _ _ _ _ _ _ _ OF OH))|exact (OX _ _ U2 (osc_lin _ _ _ _ _ _ _ _ OF OH))]|].
  split; [apply injective_projections; cbn [fst snd]; [rewrite U1, F0, H0; ring|rewrite U2, F0, H0; ring]|].
  split; (eapply is_derive_ext; [intros m; symmetry; first [apply U1|apply U2]|apply DL]).
Qed.
Lemma vacuum_exists time tensor K k U vac s : In vac ["k"; "HD"; "RST"] -> exists u, vacuum_state time tensor K k U vac s u.
Proof.
  intros [<-|[<-|[<-|[]]]]; destruct time, tensor; unfold vacuum_state; eexists;
    first [left; split; reflexivity|right; left; split; reflexivity|right; right; split; reflexivity].
Qed.

(** what C89 says for a run over exact samples *)
Lemma exact_power (time : bool) osc med K U samp a b X k vs drop fb fe x1 d1 x2 d2 p i j xi xj xs vac bg :
  holds_samples time K U samp X bg ->
  solve_oscode osc med bg (KScalar k) (Some vs) drop fb fe (Some [x1; d1; x2; d2]) false = Ok (RetMode (Some p)) ->
  window (ob_logaH bg) (map s_N (ob_s bg)) k fb fe = Ok (i, j) -> (i <= j)%nat -> nth_error X i = Some xi -> nth_error X j = Some xj -> is_range xs X i j ->
  x1 * d2 - d1 * x2 <> 0 -> median_of_equal med ->
  (forall tensor : bool, integrates_exactly osc (fun x => damp time tensor K k U (samp x)) (fun x => freq2 time tensor K k U (samp x)) a b xs xi xj) ->
  In vac vs -> In vac ["k"; "HD"; "RST"] ->
  forall tensor : bool, ((tensor = true \/ ~ (vac = "RST" /\ k < 1 /\ K = 1 /\ drop = true))) ->
  exists u v, vacuum_state time tensor K k U vac (samp xi) v /\
    complex_mode (fun x => damp time tensor K k U (samp x)) (fun x => freq2 time tensor K k U (samp x)) u a b /\ starts_from v u xi /\
    dget vac ((if tensor then pP_t else pP_s) p) = Ok (Cmod (u xj) ^ 2 * (k^3 / ((if tensor then 1 else 2) * PI^2))).
Proof.
  intros (EK & EU & EI & EX & ES & EL) E W IJ Xi Xj RX WR M IE Hin Hv tensor ND.
  destruct (IE false) as (fs & hs & OFs & OHs & F0s & F1s & H0s & H1s & Is). destruct (IE true) as (ft & ht & OFt & OHt & F0t & F1t & H0t & H1t & It).
  destruct (vacuum_exists time false K k U vac (samp xi) Hv) as [us Vs]. destruct (vacuum_exists time true K k U vac (samp xi) Hv) as [ut Vt].
  assert (C := C89_mode_power osc med bg k vs drop fb fe x1 d1 x2 d2 p time i j xi xj (samp xi) xs (map samp xs)
    (RtoC (fs xj)) (RtoC (hs xj)) (RtoC (ft xj)) (RtoC (ht xj)) vac us ut E W IJ EI).
  rewrite EX, ES, EK, EU, !map_map in C. specialize (C Xi Xj). rewrite nth_error_map, Xi in C. specialize (C eq_refl).
  assert (LJ : (j < List.length (map samp X))%nat) by (rewrite map_length; apply nth_error_Some; rewrite Xj; discriminate).
  specialize (C LJ RX (range_map samp xs X i j RX) WR M Is It Hin Vs Vt). destruct C as [CS CT].
  destruct tensor.
  - destruct (superposition_mode _ _ ft ht a b ut xi OFt OHt F0t F1t H0t H1t) as [MU SU].
    eexists. exists ut. split; [exact Vt|]. split; [exact MU|]. split; [exact SU|]. cbv beta. rewrite CT. f_equal. f_equal. field. apply PI_neq0.
  - destruct ND as [ND|ND]; [discriminate ND|].
    destruct (superposition_mode _ _ fs hs a b us xi OFs OHs F0s F1s H0s H1s) as [MU SU].
    eexists. exists us. split; [exact Vs|]. split; [exact MU|]. split; [exact SU|]. cbv beta. exact (CS ND).
Qed.

(** Two runs of solve_oscode for the same wavenumber, one over samples of the background integrated in
    cosmic time, one over samples of a background integrated in e-folds at the same moments, which
    describes the same universe at one moment t0: the same window is integrated, and the reported
    tensor powers agree for every vacuum, the scalar powers for every vacuum but, in curved space,
    the Hamiltonian-diagonalisation one. *)
Theorem C115_same_power : forall oscT oscN medT medN K U k tt te y z a b n0 n1 tau t0 ts bT bN vs drop fb fe x1 d1 x2 d2 x1' d1' x2' d2' pT pN i j ti tj xs vac,
  T_background K U te y a b -> (forall t, a < t < b -> pV U (T_phi te y t) <> 3 * K * exp (-2 * T_N te y t)) -> regular_T false K k U te y a b ->
  clock (T_N te y) a b tau n0 n1 -> N_background K U tt te z n0 n1 -> a < t0 < b -> z (T_N te y t0) = state_T2N K U tt te t0 (y t0) ->
  List.Forall (fun t => a < t < b) ts ->
  holds_samples true K U (T_sample K U te y) ts bT -> holds_samples false K U (N_sample K U tt te z) (map (T_N te y) ts) bN ->
  solve_oscode oscT medT bT (KScalar k) (Some vs) drop fb fe (Some [x1; d1; x2; d2]) false = Ok (RetMode (Some pT)) ->
  solve_oscode oscN medN bN (KScalar k) (Some vs) drop fb fe (Some [x1'; d1'; x2'; d2']) false = Ok (RetMode (Some pN)) ->
  window (ob_logaH bT) (map s_N (ob_s bT)) k fb fe = Ok (i, j) -> (i <= j)%nat ->
  nth_error ts i = Some ti -> nth_error ts j = Some tj -> is_range xs ts i j ->
  x1 * d2 - d1 * x2 <> 0 -> x1' * d2' - d1' * x2' <> 0 -> median_of_equal medT -> median_of_equal medN ->
  (forall tensor : bool, integrates_exactly oscT (fun t => damp true tensor K k U (T_sample K U te y t)) (fun t => freq2 true tensor K k U (T_sample K U te y t)) a b xs ti tj) ->
  (forall tensor : bool, integrates_exactly oscN (fun n => damp false tensor K k U (N_sample K U tt te z n)) (fun n => freq2 false tensor K k U (N_sample K U tt te z n)) n0 n1
     (map (T_N te y) xs) (T_N te y ti) (T_N te y tj)) ->
  In vac vs -> In vac ["k"; "HD"; "RST"] ->
  window (ob_logaH bN) (map s_N (ob_s bN)) k fb fe = Ok (i, j) /\
  (exists P, dget vac (pP_t pT) = Ok P /\ dget vac (pP_t pN) = Ok P) /\
  (common_vacuum false K vac -> exists P, dget vac (pP_s pT) = Ok P /\ dget vac (pP_s pN) = Ok P).
Proof.
  intros oscT oscN medT medN K U k tt te y z a b n0 n1 tau t0 ts bT bN vs drop fb fe x1 d1 x2 d2 x1' d1' x2' d2' pT pN i j ti tj xs vac
    By HV RG CL Bz H0 E0 FA ST SN RT RN W IJ Ti Tj RX WRT WRN MT MN IT IN Hin Hv.
  assert (INT : forall t, In t ts -> a < t < b) by (apply List.Forall_forall; exact FA).
  assert (Hti : a < ti < b) by (apply INT; exact (nth_error_In _ _ Ti)). assert (Htj : a < tj < b) by (apply INT; exact (nth_error_In _ _ Tj)).
  assert (INN : forall t, a < t < b -> n0 < T_N te y t < n1) by (intros s Hs; apply (proj2 CL s Hs)).
  assert (EZ : forall t, a < t < b -> z (T_N te y t) = state_T2N K U tt te t (y t)).
  { intros t Ht. exact (C110_both K U tt te y z a b n0 n1 t0 By HV Bz H0 (INN t0 H0) E0 t Ht (INN t Ht)). }
  assert (MA : forall t, a < t < b -> matching K (T_sample K U te y t) (N_sample K U tt te z (T_N te y t))).
  { intros t Ht. assert (X := T2N_same K U tt te y a b n0 n1 tau By CL HV t Ht).
    assert (EQ : N_sample K U tt te z (T_N te y t) = N_sample K U tt te (fun n => state_T2N K U tt te (tau n) (y (tau n))) (T_N te y t)).
    { unfold N_sample, N_Hub, N_phi, N_dphi. rewrite (EZ t Ht), (proj2 (proj2 CL t Ht)). reflexivity. }
    rewrite EQ. exact X. }
  assert (WE : window (ob_logaH bN) (map s_N (ob_s bN)) k fb fe = Ok (i, j)).
  { rewrite <- W. destruct ST as (_ & _ & _ & _ & ES & EL), SN as (_ & _ & _ & _ & ES' & EL'). rewrite ES, EL, ES', EL', !map_map.
    assert (A : forall (g g' : R -> R), (forall t, a < t < b -> g t = g' t) -> map g ts = map g' ts) by (intros g g' E; apply map_ext_in; intros t Ht; apply E, INT, Ht).
    f_equal; apply A; intros t Ht; destruct (MA t Ht) as (M1 & M2 & _); rewrite M1, M2; reflexivity. }
  split; [exact WE|].
  assert (Ni : nth_error (map (T_N te y) ts) i = Some (T_N te y ti)) by (rewrite nth_error_map, Ti; reflexivity).
  assert (Nj : nth_error (map (T_N te y) ts) j = Some (T_N te y tj)) by (rewrite nth_error_map, Tj; reflexivity).
  assert (P0 : T_dphi te y ti <> 0) by apply (RG eq_refl ti Hti).
  assert (KEY : forall tensor : bool, common_vacuum tensor K vac -> (tensor = true \/ ~ (vac = "RST" /\ k < 1 /\ K = 1 /\ drop = true)) ->
    exists P, dget vac ((if tensor then pP_t else pP_s) pT) = Ok P /\ dget vac ((if tensor then pP_t else pP_s) pN) = Ok P).
  { intros tensor CV ND.
    destruct (exact_power true oscT medT K U (T_sample K U te y) a b ts k vs drop fb fe x1 d1 x2 d2 pT i j ti tj xs vac bT ST RT W IJ Ti Tj RX WRT MT IT Hin Hv tensor ND) as (u & us & VU & MU & SU & GU).
    destruct (exact_power false oscN medN K U (N_sample K U tt te z) n0 n1 (map (T_N te y) ts) k vs drop fb fe x1' d1' x2' d2' pN i j (T_N te y ti) (T_N te y tj) (map (T_N te y) xs) vac bN SN RN WE IJ Ni Nj
      (range_map _ _ _ _ _ RX) WRN MN IN Hin Hv tensor ND) as (w & un & VN & MN' & SN' & GN).
    assert (RG' : regular_T tensor K k U te y a b) by (intros _; exact (RG eq_refl)).
    pose proof (C112_same_mode tensor K k U tt te y z a b n0 n1 tau ti vac us un u w By HV RG' CL Bz Hti (EZ ti Hti) CV P0 VU VN MU SU MN' SN' tj Htj) as EQ.
    rewrite EQ in GN. eexists. split; [exact GU|exact GN]. }
  split; [apply (KEY true); [intros _; left; reflexivity|left; reflexivity]|].
  intros CV.
  destruct (classic (vac = "RST" /\ k < 1 /\ K = 1 /\ drop = true)) as [(-> & K1 & EK & ->)|ND]; [|apply (KEY false); [exact CV|right; exact ND]].
  exists (1 / 10^30). destruct ST as (ET & _), SN as (EN & _). split.
  - apply (C58_closed_large_scales_partial oscT medT bT k vs fb fe [x1; d1; x2; d2] pT); [exact Hin|congruence|exact K1|exact RT].
  - apply (C58_closed_large_scales_partial oscN medN bN k vs fb fe [x1'; d1'; x2'; d2'] pN); [exact Hin|congruence|exact K1|exact RN].
Qed.

(** ** the closed universe a = t, H = 1/t over more than ten e-folds, with scalar and tensor modes in
    closed form: both equations are f'' + (3/t) f' + (c/t^2) f = 0, in e-folds f'' + 2 f' + c f = 0 *)
Section Closed.
Variable B : R.
Hypothesis HB : 1 < B.
Lemma closed_bg_on : T_background 1 (Vexp 4) true y_closed 1 B.
Proof.
  split.
  - intros t Ht. split; [reflexivity|]. intros i Hi.
    assert (SQ : sqrt (T_H2 1 (Vexp 4) true t (y_closed t)) = / t).
    { rewrite closed_H2 by lra. rewrite sqrt_pow2; [reflexivity|]. left. apply Rinv_0_lt_compat. lra. }
    unfold T_call, T_get_d2phi. rewrite SQ.
    cbn in Hi. destruct i as [|[|[|[|i]]]]; try lia; cbn; evar_last; try (auto_derive; [lra|reflexivity]); toR; try (field; lra).
    + rewrite exp_m2ln by lra. field. lra.
    + rewrite exp_Ropp, exp_ln by lra. ring.
  - intros t Ht. split; [rewrite closed_H2 by lra; apply pow_lt, Rinv_0_lt_compat; lra|apply Vexp_smooth].
Qed.
Lemma closed_clock_on : clock (T_N true y_closed) 1 B exp 0 (ln B).
Proof.
  split.
  - intros n [H1 H2]. unfold T_N, y_closed. cbn. split; [|apply ln_exp].
    split; [rewrite <- exp_0; apply exp_increasing, H1|]. rewrite <- (exp_ln B) by lra. apply exp_increasing, H2.
  - intros t [H1 H2]. unfold T_N, y_closed. cbn. split; [|apply exp_ln; lra].
    split; [rewrite <- ln_1; apply ln_increasing; lra|apply ln_increasing; lra].
Qed.
Lemma closed_V_on t : 1 < t < B -> pV (Vexp 4) (T_phi true y_closed t) <> 3 * 1 * exp (-2 * T_N true y_closed t).
Proof.
  intros Ht. unfold T_phi, T_N, y_closed, Vexp. cbn. rewrite exp_m2ln by lra. replace (-2 * ln t) with (- (2 * ln t)) by ring. rewrite exp_m2ln by lra.
  assert (0 < / t^2) by (apply Rinv_0_lt_compat, pow_lt; lra). intros X; lra.
Qed.
Definition z_closed (n : R) := state_T2N 1 (Vexp 4) true true (exp n) (y_closed (exp n)).
Lemma closed_N_on : N_background 1 (Vexp 4) true true z_closed 0 (ln B).
Proof. exact (T2N_solution 1 (Vexp 4) true true y_closed 1 B exp 0 (ln B) closed_bg_on closed_V_on (proj1 closed_clock_on)). Qed.
Lemma closed_match t : 1 < t < B -> matching 1 (T_sample 1 (Vexp 4) true y_closed t) (N_sample 1 (Vexp 4) true true z_closed (T_N true y_closed t)).
Proof. exact (T2N_same 1 (Vexp 4) true true y_closed 1 B 0 (ln B) exp closed_bg_on closed_clock_on closed_V_on t). Qed.
Lemma closed_regular : regular_T false 1 2 (Vexp 4) true y_closed 1 B.
Proof. intros _ t Ht. apply closed_ok; [lra|]. unfold kappa2. intros X; lra. Qed.

Definition cc (tensor : bool) : R := if tensor then 10 else 4.
Lemma coef_T (tensor : bool) t : 1 < t < B -> damp true tensor 1 2 (Vexp 4) (T_sample 1 (Vexp 4) true y_closed t) = 3 / (2 * t) /\
  freq2 true tensor 1 2 (Vexp 4) (T_sample 1 (Vexp 4) true y_closed t) = cc tensor / t^2.
Proof.
  intros Ht. assert (EE : exp (-2 * T_N true y_closed t) = / t^2).
  { change (T_N true y_closed t) with (ln t). replace (-2 * ln t) with (- (2 * ln t)) by ring. apply exp_m2ln. lra. }
  assert (ED : pdV (Vexp 4) (T_phi true y_closed t) = - 4 * / t^2) by (change (T_phi true y_closed t) with (2 * ln t); unfold Vexp; cbn [pdV]; rewrite exp_m2ln by lra; reflexivity).
  destruct tensor; unfold damp, freq2, Tt_damping, Tt_frequency2, Ts_damping, Ts_frequency2, Ts_shared, Ts_terms, kappa2, cc; unfold T_sample; cbn [s_H s_N s_phi s_dphidt];
    rewrite ?EE, ?ED, ?closed_dphi; rewrite ?closed_Hub by lra; split; field; lra.
Qed.
Lemma coef_N (tensor : bool) n : 0 < n < ln B -> damp false tensor 1 2 (Vexp 4) (N_sample 1 (Vexp 4) true true z_closed n) = 1 /\
  freq2 false tensor 1 2 (Vexp 4) (N_sample 1 (Vexp 4) true true z_closed n) = cc tensor.
Proof.
  intros Hn. destruct (proj1 closed_clock_on n Hn) as [T1 T2]. set (t := exp n) in *.
  destruct (closed_match t T1) as (_ & M2 & M3 & M4 & M5). rewrite T2 in *.
  assert (EE : exp (-2 * n) = / t^2).
  { rewrite <- T2. change (T_N true y_closed t) with (ln t). replace (-2 * ln t) with (- (2 * ln t)) by ring. apply exp_m2ln. lra. }
  assert (E2 : exp (2 * n) = t^2) by (unfold t; replace (2 * n) with (n + n) by ring; rewrite exp_plus; ring).
  assert (ED : pdV (Vexp 4) (T_phi true y_closed t) = - 4 * / t^2) by (change (T_phi true y_closed t) with (2 * ln t); unfold Vexp; cbn [pdV]; rewrite exp_m2ln by lra; reflexivity).
  unfold T_sample in M2, M3, M4, M5. cbn [s_H s_N s_phi s_dphidt] in M2, M3, M4, M5. unfold OmegaK_attr in M5. rewrite T2 in M5. rewrite closed_Hub in M2, M4, M5 by lra. rewrite closed_dphi in M4.
  assert (EO : exp (-2 * (n + ln (/ t))) = 1) by (rewrite ln_Rinv by lra; unfold t; rewrite ln_exp; replace (-2 * (n + - n)) with 0 by ring; apply exp_0). rewrite EO in M5.
  assert (EN : s_N (N_sample 1 (Vexp 4) true true z_closed n) = n) by reflexivity. set (s := N_sample 1 (Vexp 4) true true z_closed n) in *. clearbody s.
  destruct tensor; unfold damp, freq2, Nt_damping, Nt_frequency2, Ns_damping, Ns_frequency2, Ns_damping2, Ns_xi, kappa2, cc;
    rewrite ?M5, ?M4, ?M3, ?M2, ?EN, ?EE, ?E2, ?ED; clear M2 M3 M4 M5 EE E2 ED EN EO; split; field; lra.
Qed.

(** exact solutions *)
Definition be (tensor : bool) : R := sqrt (cc tensor - 1).
Lemma be_sq tensor : be tensor * be tensor = cc tensor - 1. Proof. unfold be, cc. destruct tensor; apply sqrt_sqrt; lra. Qed.
Lemma be_pos tensor : 0 < be tensor. Proof. unfold be, cc. destruct tensor; apply sqrt_lt_R0; lra. Qed.
Definition nf (tensor : bool) (p q s n : R) : R := exp (s - n) * (p * cos (be tensor * (n - s)) + q * sin (be tensor * (n - s))).
Lemma nf_derive tensor p q s n : is_derive (nf tensor p q s) n (nf tensor (be tensor * q - p) (- be tensor * p - q) s n).
Proof. unfold nf. evar_last; [auto_derive; [exact I|reflexivity]|]. unfold Rminus. ring. Qed.
Lemma nf_osc tensor p q s a b (g w : R -> R) : (forall n, a < n < b -> g n = 1 /\ w n = cc tensor) -> oscillator g w (nf tensor p q s) a b.
Proof.
  intros CO. exists (nf tensor (be tensor * q - p) (- be tensor * p - q) s). intros n Hn. split; [apply nf_derive|].
  eapply is_derive_eq; [apply nf_derive|]. destruct (CO n Hn) as [-> ->]. pose proof (be_sq tensor) as E. replace (cc tensor) with (be tensor * be tensor + 1) by lra.
  unfold nf. toR. ring.
Qed.
Lemma nf_start tensor p q s : nf tensor p q s s = p.
Proof. unfold nf. rewrite Rminus_diag_eq by reflexivity. rewrite Rmult_0_r, exp_0, cos_0, sin_0. ring. Qed.
Definition tf (tensor : bool) (p q s t : R) : R := nf tensor p q (ln s) (ln t).
Lemma tf_derive tensor p q s t : 0 < t -> is_derive (tf tensor p q s) t (/ t * tf tensor (be tensor * q - p) (- be tensor * p - q) s t).
Proof.
  intros Ht. unfold tf. eapply is_derive_eq; [apply (is_derive_comp (nf tensor p q (ln s)) ln); [apply nf_derive|apply is_derive_ln, Ht]|].
  unfold scal; simpl; unfold mult; simpl. ring.
Qed.
Lemma tf_osc tensor p q s a b (g w : R -> R) : 0 <= a -> (forall t, a < t < b -> g t = 3 / (2 * t) /\ w t = cc tensor / t^2) -> oscillator g w (tf tensor p q s) a b.
Proof.
  intros A0 CO. exists (fun t => / t * tf tensor (be tensor * q - p) (- be tensor * p - q) s t). intros t Ht. split; [apply tf_derive; lra|].
  assert (T0 : t <> 0) by lra.
  eapply is_derive_eq; [apply (@is_derive_mult R_AbsRing); [apply (is_derive_inv (fun x => x) t 1); [apply (@is_derive_id R_AbsRing)|exact T0]|apply tf_derive; lra|intros; apply Rmult_comm]|].
  destruct (CO t Ht) as [-> ->]. pose proof (be_sq tensor) as E. replace (cc tensor) with (be tensor * be tensor + 1) by lra. clear E.
  unfold plus, mult; simpl. unfold tf, nf. set (X := exp _). set (Y := cos _). set (Z := sin _). clearbody X Y Z. field. exact T0.
Qed.
End Closed.

(** integrators that return these solutions: the wavenumber-dependent coefficient is read off the
    first frequency *)
Definition which (c : R) : bool := if Rlt_dec c 7 then false else true.
Definition frozen (f h : R) : list (C * C) * list (C * C) := ((RtoC 1, RtoC 0) :: repeat (RtoC f, RtoC h) 5, [(RtoC 0, RtoC 1)]).
Definition osc_T (xs : list R) (xi xj : R) (ws : list C) (gs : list R) (x0 d0 : R) : list C * list C :=
  let tensor := which (fst (hd (RtoC 0) ws * hd (RtoC 0) ws)%C * xi^2) in
  let P := frozen (tf tensor 1 (1 / be tensor) xi xj) (tf tensor 0 (xi / be tensor) xi xj) in
  (run (RtoC x0) (RtoC d0) (fst P), run (RtoC x0) (RtoC d0) (snd P)).
Definition osc_N (xs : list R) (xi xj : R) (ws : list C) (gs : list R) (x0 d0 : R) : list C * list C :=
  let tensor := which (fst (hd (RtoC 0) ws * hd (RtoC 0) ws)%C) in
  let P := frozen (nf tensor 1 (1 / be tensor) xi xj) (nf tensor 0 (1 / be tensor) xi xj) in
  (run (RtoC x0) (RtoC d0) (fst P), run (RtoC x0) (RtoC d0) (snd P)).
Lemma frozen_ok f h : propagates (fst (frozen f h)) (snd (frozen f h)) (RtoC f) (RtoC h).
Proof.
  split; [do 2 eexists; split; reflexivity|]. unfold frozen, last_five. cbn. intros m Hm. repeat (destruct Hm as [<-|Hm]; [reflexivity|]). destruct Hm.
Qed.
Lemma hd_sq ws (l : list R) d : map (fun w => Cmult w w) ws = map RtoC l -> l <> [] -> fst (hd (RtoC 0) ws * hd (RtoC 0) ws)%C = hd d l.
Proof. intros E NE. destruct l as [|c l]; [congruence|]. destruct ws as [|w ws]; [discriminate|]. cbn [map] in E. assert (E1 := f_equal (fun l => fst (hd (RtoC 0) l)) E). cbn [hd] in *. exact E1. Qed.
Lemma which_cc tensor : which (cc tensor) = tensor.
Proof. unfold which, cc. destruct tensor; destruct (Rlt_dec _ _); try reflexivity; lra. Qed.
Lemma exact_T B (tensor : bool) xs xi xj : 1 < B -> 1 < xi < B -> hd_error xs = Some xi ->
  integrates_exactly osc_T (fun t => damp true tensor 1 2 (Vexp 4) (T_sample 1 (Vexp 4) true y_closed t)) (fun t => freq2 true tensor 1 2 (Vexp 4) (T_sample 1 (Vexp 4) true y_closed t)) 1 B xs xi xj.
Proof.
  intros HB Hi HX. pose proof (be_pos tensor) as BP. exists (tf tensor 1 (1 / be tensor) xi), (tf tensor 0 (xi / be tensor) xi).
  split; [apply tf_osc; [lra|exact (coef_T B tensor)]|]. split; [apply tf_osc; [lra|exact (coef_T B tensor)]|].
  split; [apply nf_start|]. split; [eapply is_derive_eq; [apply tf_derive; lra|]; unfold tf; rewrite nf_start; toR; field; lra|].
  split; [apply nf_start|]. split; [eapply is_derive_eq; [apply tf_derive; lra|]; unfold tf; rewrite nf_start; toR; field; lra|].
  intros ws Hws x0 d0. exists (fst (frozen (tf tensor 1 (1 / be tensor) xi xj) (tf tensor 0 (xi / be tensor) xi xj))), (snd (frozen (tf tensor 1 (1 / be tensor) xi xj) (tf tensor 0 (xi / be tensor) xi xj))).
  split; [apply frozen_ok|]. destruct xs as [|x xs]; [discriminate|]. injection HX as ->.
  unfold osc_T. rewrite (hd_sq ws _ 0 Hws) by discriminate. cbn [map hd]. rewrite (proj2 (coef_T B tensor xi Hi)).
  replace (cc tensor / xi^2 * xi^2) with (cc tensor) by (field; lra). rewrite which_cc. reflexivity.
Qed.
Lemma exact_N B (tensor : bool) xs xi xj : 1 < B -> 0 < xi < ln B -> hd_error xs = Some xi ->
  integrates_exactly osc_N (fun t => damp false tensor 1 2 (Vexp 4) (N_sample 1 (Vexp 4) true true z_closed t)) (fun t => freq2 false tensor 1 2 (Vexp 4) (N_sample 1 (Vexp 4) true true z_closed t)) 0 (ln B) xs xi xj.
Proof.
  intros HB Hi HX. pose proof (be_pos tensor) as BP. exists (nf tensor 1 (1 / be tensor) xi), (nf tensor 0 (1 / be tensor) xi).
  split; [apply nf_osc; exact (coef_N B HB tensor)|]. split; [apply nf_osc; exact (coef_N B HB tensor)|].
  split; [apply nf_start|]. split; [eapply is_derive_eq; [apply nf_derive|]; rewrite nf_start; toR; field; lra|].
  split; [apply nf_start|]. split; [eapply is_derive_eq; [apply nf_derive|]; rewrite nf_start; toR; field; lra|].
  intros ws Hws x0 d0. exists (fst (frozen (nf tensor 1 (1 / be tensor) xi xj) (nf tensor 0 (1 / be tensor) xi xj))), (snd (frozen (nf tensor 1 (1 / be tensor) xi xj) (nf tensor 0 (1 / be tensor) xi xj))).
  split; [apply frozen_ok|]. destruct xs as [|x xs]; [discriminate|]. injection HX as ->.
  unfold osc_N. rewrite (hd_sq ws _ 0 Hws) by discriminate. cbn [map hd]. rewrite (proj2 (coef_N B HB tensor xi Hi)). rewrite which_cc. reflexivity.
Qed.

Definition ex_ts := [exp 1; exp 12].
Definition ex_bT := mkobg 1 (Vexp 4) ex_ts (map (T_sample 1 (Vexp 4) true y_closed) ex_ts)
  (map (fun x => s_N (T_sample 1 (Vexp 4) true y_closed x) + ln (s_H (T_sample 1 (Vexp 4) true y_closed x))) ex_ts) (Some 0) "t" [1; 0; 0; 1].
Definition ex_ns := map (T_N true y_closed) ex_ts.
Definition ex_bN := mkobg 1 (Vexp 4) ex_ns (map (N_sample 1 (Vexp 4) true true z_closed) ex_ns)
  (map (fun x => s_N (N_sample 1 (Vexp 4) true true z_closed x) + ln (s_H (N_sample 1 (Vexp 4) true true z_closed x))) ex_ns) (Some 0) "_N" [1; 0; 0; 1].
Lemma exB : 1 < exp 13. Proof. rewrite <- exp_0. apply exp_increasing. lra. Qed.
Lemma ex_in t : In t ex_ts -> 1 < t < exp 13.
Proof. intros [<-|[<-|[]]]; (split; [rewrite <- exp_0 at 1|]; apply exp_increasing; lra). Qed.
Lemma ex_window : window (ob_logaH ex_bT) (map s_N (ob_s ex_bT)) 2 0 (1/4) = Ok (0, 1)%nat.
Proof.
  assert (HL : forall t, In t ex_ts -> s_N (T_sample 1 (Vexp 4) true y_closed t) + ln (s_H (T_sample 1 (Vexp 4) true y_closed t)) = 0).
  { intros t Ht. pose proof (ex_in t Ht). unfold T_sample. cbn [s_N s_H]. rewrite closed_Hub by lra. rewrite ln_Rinv by lra. change (T_N true y_closed t) with (ln t). ring. }
  unfold ex_bT. cbn [ob_logaH ob_s]. unfold ex_ts in *. cbn [map].
  rewrite (HL (exp 1)) by (simpl; tauto). rewrite (HL (exp 12)) by (simpl; tauto).
  unfold T_sample. cbn [s_N]. change (T_N true y_closed (exp 1)) with (ln (exp 1)). change (T_N true y_closed (exp 12)) with (ln (exp 12)). rewrite !ln_exp.
  unfold window. destruct (Req_EM_T 0 0) as [_|N]; [|congruence]. cbn [map].
  assert (R1 : rltb (ln (1/4)) (0 - ln 2) = true).
  { unfold rltb. destruct (Rlt_dec _ _) as [_|N]; [reflexivity|]. exfalso. apply N. replace (0 - ln 2) with (- ln 2) by ring. rewrite <- ln_Rinv by lra. apply ln_increasing; lra. }
  rewrite R1. cbn [argwhere argwhere_from at_index nth_error bind]. unfold rltb at 1. destruct (Rlt_dec (1 - 1) 10) as [_|N]; [|exfalso; apply N; lra].
  assert (R2 : rltb 10 (1 - 1) = false) by (unfold rltb; destruct (Rlt_dec _ _); [lra|reflexivity]).
  assert (R3 : rltb 10 (12 - 1) = true) by (unfold rltb; destruct (Rlt_dec _ _); [reflexivity|lra]).
  rewrite R2, R3. reflexivity.
Qed.
Lemma run_ok osc b : (forall xs xi xj ws gs x0 d0, exists a r c s, osc xs xi xj ws gs x0 d0 = (a :: r, c :: s)) ->
  ob_logaH_star b = Some 0 -> (exists time : bool, ob_indep b = if time then "t" else "_N") ->
  window (ob_logaH b) (map s_N (ob_s b)) 2 0 (1/4) = Ok (0, 1)%nat -> (exists x0 x1, ob_x b = [x0; x1]) -> (exists s0 s1, ob_s b = [s0; s1]) ->
  exists p, solve_oscode osc med_hd b (KScalar 2) (Some ["k"; "RST"]) true 0 (1/4) (Some [1; 0; 0; 1]) false = Ok (RetMode (Some p)).
Proof.
  intros HO HS (time & HI) HW (x0 & x1 & HX) (s0 & s1 & Hs). rewrite scalar_call, HS. unfold solve_mode. rewrite HW, HX, Hs.
  assert (TI : (if String.eqb (ob_indep b) "t" then Ok true else if String.eqb (ob_indep b) "_N" then Ok false else Raise NotImplementedError) = Ok time) by (rewrite HI; destruct time; reflexivity).
  rewrite TI. cbn [bind fst snd at_index nth_error Nat.mul Nat.add].
  assert (MP : forall norm ic r1 r2, (exists a r c s, r1 = (a :: r, c :: s)) -> (exists a r c s, r2 = (a :: r, c :: s)) -> (exists v, ic "k" = Ok v) -> (exists v, ic "RST" = Ok v) ->
    exists P, mode_powers med_hd norm ic r1 r2 ["k"; "RST"] = Ok P).
  { intros norm ic r1 r2 (a1 & q1 & c1 & e1 & ->) (a2 & q2 & c2 & e2 & ->) [v1 V1] [v2 V2]. unfold mode_powers. cbn [fold_left bind]. rewrite V1, V2. cbn [bind fst snd].
    unfold combine_solutions. destruct v1, v2. cbn. eexists. reflexivity. }
  match goal with |- context [mode_powers med_hd ?n1 ?i1 ?r1 ?r2 _] => destruct (MP n1 i1 r1 r2 ltac:(apply HO) ltac:(apply HO)) as [P1 E1] end;
    [cbv beta; unfold vacuum_ic; cbn; eexists; reflexivity|cbv beta; unfold vacuum_ic; cbn; eexists; reflexivity|]. rewrite E1. cbn [bind].
  match goal with |- context [mode_powers med_hd ?n1 ?i1 ?r1 ?r2 _] => destruct (MP n1 i1 r1 r2 ltac:(apply HO) ltac:(apply HO)) as [P2 E2] end;
    [cbv beta; unfold vacuum_ic; cbn; eexists; reflexivity|cbv beta; unfold vacuum_ic; cbn; eexists; reflexivity|]. rewrite E2. cbn [bind].
  eexists. reflexivity.
Qed.
Theorem C115_nonvacuous : exists pT pN, let B := exp 13 in
  T_background 1 (Vexp 4) true y_closed 1 B /\ (forall t, 1 < t < B -> pV (Vexp 4) (T_phi true y_closed t) <> 3 * 1 * exp (-2 * T_N true y_closed t)) /\
  regular_T false 1 2 (Vexp 4) true y_closed 1 B /\ clock (T_N true y_closed) 1 B exp 0 (ln B) /\ N_background 1 (Vexp 4) true true z_closed 0 (ln B) /\ 1 < exp 1 < B /\
  z_closed (T_N true y_closed (exp 1)) = state_T2N 1 (Vexp 4) true true (exp 1) (y_closed (exp 1)) /\ List.Forall (fun t => 1 < t < B) ex_ts /\
  holds_samples true 1 (Vexp 4) (T_sample 1 (Vexp 4) true y_closed) ex_ts ex_bT /\
  holds_samples false 1 (Vexp 4) (N_sample 1 (Vexp 4) true true z_closed) (map (T_N true y_closed) ex_ts) ex_bN /\
  solve_oscode osc_T med_hd ex_bT (KScalar 2) (Some ["k"; "RST"]) true 0 (1/4) (Some [1; 0; 0; 1]) false = Ok (RetMode (Some pT)) /\
  solve_oscode osc_N med_hd ex_bN (KScalar 2) (Some ["k"; "RST"]) true 0 (1/4) (Some [1; 0; 0; 1]) false = Ok (RetMode (Some pN)) /\
  window (ob_logaH ex_bT) (map s_N (ob_s ex_bT)) 2 0 (1/4) = Ok (0, 1)%nat /\ is_range ex_ts ex_ts 0 1 /\ median_of_equal med_hd /\
  (forall tensor : bool, integrates_exactly osc_T (fun t => damp true tensor 1 2 (Vexp 4) (T_sample 1 (Vexp 4) true y_closed t)) (fun t => freq2 true tensor 1 2 (Vexp 4) (T_sample 1 (Vexp 4) true y_closed t))
     1 B ex_ts (exp 1) (exp 12)) /\
  (forall tensor : bool, integrates_exactly osc_N (fun n => damp false tensor 1 2 (Vexp 4) (N_sample 1 (Vexp 4) true true z_closed n)) (fun n => freq2 false tensor 1 2 (Vexp 4) (N_sample 1 (Vexp 4) true true z_closed n))
     0 (ln B) (map (T_N true y_closed) ex_ts) (T_N true y_closed (exp 1)) (T_N true y_closed (exp 12))) /\
  common_vacuum false 1 "k" /\ common_vacuum false 1 "RST".
Proof.
  assert (HT : holds_samples true 1 (Vexp 4) (T_sample 1 (Vexp 4) true y_closed) ex_ts ex_bT) by (repeat split).
  assert (HN : holds_samples false 1 (Vexp 4) (N_sample 1 (Vexp 4) true true z_closed) (map (T_N true y_closed) ex_ts) ex_bN) by (repeat split).
  assert (OT : forall xs xi xj ws gs x0 d0, exists a r c s, osc_T xs xi xj ws gs x0 d0 = (a :: r, c :: s)) by (intros; unfold osc_T, frozen, run; cbn [fst snd map]; do 4 eexists; reflexivity).
  assert (ON : forall xs xi xj ws gs x0 d0, exists a r c s, osc_N xs xi xj ws gs x0 d0 = (a :: r, c :: s)) by (intros; unfold osc_N, frozen, run; cbn [fst snd map]; do 4 eexists; reflexivity).
  assert (WN : window (ob_logaH ex_bN) (map s_N (ob_s ex_bN)) 2 0 (1/4) = Ok (0, 1)%nat).
  { rewrite <- ex_window. unfold ex_bN, ex_bT, ex_ns. cbn [ob_logaH ob_s]. rewrite !map_map.
    assert (A : forall (g g' : R -> R), (forall t, 1 < t < exp 13 -> g t = g' t) -> map g ex_ts = map g' ex_ts) by (intros g g' E; apply map_ext_in; intros t Ht; apply E, ex_in, Ht).
    f_equal; apply A; intros t Ht; destruct (closed_match (exp 13) exB t Ht) as (M1 & M2 & _); rewrite M1, M2; reflexivity. }
  destruct (run_ok osc_T ex_bT OT eq_refl (ex_intro _ true eq_refl) ex_window) as [pT ET]; [do 2 eexists; reflexivity|do 2 eexists; reflexivity|].
  destruct (run_ok osc_N ex_bN ON eq_refl (ex_intro _ false eq_refl) WN) as [pN EN]; [do 2 eexists; reflexivity|do 2 eexists; reflexivity|].
  assert (I1 := ex_in (exp 1) ltac:(left; reflexivity)).
  exists pT, pN. cbv zeta. split; [exact (closed_bg_on _)|]. split; [exact (closed_V_on _)|]. split; [exact (closed_regular _)|]. split; [exact (closed_clock_on _ exB)|].
  split; [exact (closed_N_on _ exB)|]. split; [exact I1|].
  split; [unfold z_closed; change (T_N true y_closed (exp 1)) with (ln (exp 1)); rewrite ln_exp; reflexivity|].
  split; [apply List.Forall_forall; exact ex_in|]. split; [exact HT|]. split; [exact HN|]. split; [exact ET|]. split; [exact EN|]. split; [exact ex_window|].
  split; [split; [reflexivity|intros; reflexivity]|]. split; [intros c l NE A; destruct l; [congruence|]; apply A; left; reflexivity|].
  split; [intros tensor; apply exact_T; [exact exB|exact I1|reflexivity]|].
  split; [intros tensor; apply exact_N; [exact exB| |reflexivity]|split; intros X; discriminate X].
  change (T_N true y_closed (exp 1)) with (ln (exp 1)). rewrite !ln_exp. lra.
Qed.
