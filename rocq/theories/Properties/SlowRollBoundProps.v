(** C118: in a flat universe started by SlowRollIC, the slow-roll count of e-folds
    (inflationary_potentials.get_slow_roll_phi2N) is a guaranteed lower bound for the number of e-folds
    the evolution inflates. *)
From Coq Require Import Reals List String Lra Lia.
From Coquelicot Require Import Coquelicot.
From Verif Require Import Base Model.Potentials Model.SlowRoll Model.Equations Model.Background Model.Float Model.Solution Model.InitCond
  Spec.PotentialSpec Spec.SlowRollSpec Spec.BackgroundSpec Proofs.PhiEnd Proofs.SRN Proofs.BackgroundT Proofs.BackgroundN Proofs.FloatLemmas Proofs.SlowRollBound Proofs.Roll Properties.InitProps.
Import ListNotations.
Open Scope R_scope.

Lemma sr_aH v n : 0 < v -> sqrt (v / 3 * exp (2 * n) - 0) * exp (- n) = sqrt (v / 3).
Proof.
  intros Hv. rewrite Rminus_0_r, sqrt_mult by (try lra; left; apply exp_pos). rewrite exp_2.
  rewrite sqrt_pow2 by (left; apply exp_pos). rewrite Rmult_assoc, exp_inv. ring.
Qed.
Lemma sr_start_T U te phi t eta xe n ic y0 y : 0 < pV U phi -> sr_init (IT 0 U te) phi t eta xe (kw_of (InN n)) = Ok ic ->
  List.length y0 = List.length (T_idx te) -> sr_call ic y0 = Ok (map Fin y) ->
  var (T_idx te) "phi" y = phi /\ var (T_idx te) "dphidt" y = - pdV U phi / (3 * sqrt (pV U phi / 3)).
Proof.
  intros HV E L C. assert (HP : 0 < pV U phi / 3 * exp (2 * n) - 0) by (pose proof (exp_pos (2 * n)); rewrite Rminus_0_r; apply Rmult_lt_0_compat; lra).
  rewrite (sr_from_N (IT 0 U te) phi t eta xe n HP) in E. injection E as <-.
  assert (S0 : 0 < sqrt (pV U phi / 3)) by (apply sqrt_lt_R0; lra).
  assert (D : fdiv (Fin (- pdV U phi)) (fmul (Fin 3) (fmul (Fin (sqrt (pV U phi / 3 * exp (2 * n) - 0))) (fexp (fneg (Fin n))))) = Fin (- pdV U phi / (3 * sqrt (pV U phi / 3)))).
  { cbn [fmul fexp fneg]. rewrite (sr_aH _ _ HV). apply fdiv_fin. lra. }
  unfold sr_call, sr_obj in C. cbn [ic_eqs ic_dphi ic_N ic_phi ic_eta ie_te ie_idx ie_U ie_K attr_of bind] in C.
  rewrite D in C. set (d := - pdV U phi / (3 * sqrt (pV U phi / 3))) in *. clearbody d. clear D.
  destruct te; cbn in L; lenn L; [destruct eta|]; cbn in C; try discriminate; injection C as C;
  (destruct y as [|a1 [|a2 [|a3 rs] ] ]; try discriminate; injection C as C1 C2; subst; split; reflexivity).
Qed.
Lemma sr_start_N U tm te phi t eta xe n ic y0 y : 0 < pV U phi -> sr_init (IN 0 U tm te) phi t eta xe (kw_of (InN n)) = Ok ic ->
  List.length y0 = List.length (N_idx tm te) -> sr_call ic y0 = Ok (map Fin y) ->
  var (N_idx tm te) "phi" y = phi /\ var (N_idx tm te) "dphidN" y = - pdV U phi / pV U phi.
Proof.
  intros HV E L C. assert (HP : 0 < pV U phi / 3 * exp (2 * n) - 0) by (pose proof (exp_pos (2 * n)); rewrite Rminus_0_r; apply Rmult_lt_0_compat; lra).
  rewrite (sr_from_N (IN 0 U tm te) phi t eta xe n HP) in E. injection E as <-.
  assert (S0 : 0 < sqrt (pV U phi / 3)) by (apply sqrt_lt_R0; lra).
  assert (D : let h := fmul (Fin (sqrt (pV U phi / 3 * exp (2 * n) - 0))) (fexp (fneg (Fin n))) in fdiv (Fin (- pdV U phi)) (fmul (Fin 3) (fmul h h)) = Fin (- pdV U phi / pV U phi)).
  { cbn [fmul fexp fneg]. rewrite (sr_aH _ _ HV). rewrite sqrt_sqrt by lra. replace (3 * (pV U phi / 3)) with (pV U phi) by field. apply fdiv_fin. lra. }
  cbv zeta in D. unfold sr_call, sr_obj in C. cbn [ic_eqs ic_dphi ic_N ic_phi ic_eta ic_t ie_te ie_idx ie_U ie_K attr_of bind] in C.
  rewrite D in C. set (d := - pdV U phi / pV U phi) in *. clearbody d. clear D.
  destruct tm, te; cbn in L; lenn L; try destruct t; try destruct eta; cbn in C; try discriminate; injection C as C;
  (destruct y as [|a1 [|a2 rs] ]; try discriminate; injection C as C1 C2; subst; split; reflexivity).
Qed.

Section Time.
Variables (P : pot) (L : R) (te : bool) (y : R -> list R) (a b : R).
Let U := potfun_of P L.
Hypothesis B : T_background 0 U te y a b.
Lemma T_flow s : a < s < b ->
  is_derive (T_phi te y) s (1 * T_dphi te y s) /\ is_derive (T_dphi te y) s (1 * (-3 * T_Hub 0 U te y s * T_dphi te y s - dV P L (T_phi te y s))) /\
  is_derive (T_N te y) s (1 * T_Hub 0 U te y s) /\ is_derive (T_Hub 0 U te y) s (1 * (- (T_dphi te y s)^2 / 2)) /\
  3 * (T_Hub 0 U te y s)^2 = (T_dphi te y s)^2 / 2 + V P L (T_phi te y s) /\ 0 < T_Hub 0 U te y s /\ 0 < 1.
Proof.
  intros Hs. destruct (T_comps 0 U te y a b B s Hs) as (D1 & D2 & D3 & _). pose proof (T_H_derive 0 U te y a b B s Hs) as D4.
  destruct (T_pos 0 U te y a b B s Hs) as [HP HE].
  rewrite !Rmult_1_l. split; [exact D1|]. split; [rewrite T_d2phi_eq in D2; exact D2|]. split; [exact D3|].
  split; [eapply is_derive_eq; [exact D4|unfold T_dH, T_get_dH; toR; field]|].
  split; [|split; [exact HP|lra]].
  replace ((T_Hub 0 U te y s)^2) with (T_Hub 0 U te y s * T_Hub 0 U te y s) by ring. rewrite HE. unfold T_get_H2, U, potfun_of. cbn [pV]. field.
Qed.
End Time.
Section Efolds.
Variables (P : pot) (L : R) (tm te : bool) (y : R -> list R) (a b : R).
Let U := potfun_of P L.
Hypothesis B : N_background 0 U tm te y a b.
Let H := N_Hub 0 U tm te y.
Let q (s : R) := H s * N_dphi tm te y s.
Lemma N_flow s : a < s < b ->
  is_derive (N_phi tm te y) s (/ H s * q s) /\ is_derive q s (/ H s * (-3 * H s * q s - dV P L (N_phi tm te y s))) /\
  is_derive (fun x => x) s (/ H s * H s) /\ is_derive H s (/ H s * (- (q s)^2 / 2)) /\
  3 * (H s)^2 = (q s)^2 / 2 + V P L (N_phi tm te y s) /\ 0 < H s /\ 0 < / H s.
Proof.
  intros Hs. destruct (N_comps 0 U tm te y a b B s Hs) as (D1 & D2 & _). pose proof (N_H_derive 0 U tm te y a b B s Hs) as D4.
  destruct (N_pos 0 U tm te y a b B s Hs) as (HP & HE & _). pose proof (N_V 0 U tm te y a b B s Hs) as HV. pose proof (N_d2phi_eq 0 U tm te y a b B s Hs) as E2.
  fold H in D4, HP, HE, HV, E2. unfold q.
  assert (DH : N_dH 0 U tm te y s = - H s * (N_dphi tm te y s)^2 / 2) by (unfold N_dH, N_get_dH; fold H; field; lra).
  split; [eapply is_derive_eq; [exact D1|toR; field; lra]|].
  split.
  - eapply is_derive_eq; [apply (is_derive_mult H (N_dphi tm te y) s _ _ D4 D2); intros; apply Rmult_comm|].
    unfold plus, mult; simpl. rewrite E2, DH. unfold U, potfun_of. cbn [pdV]. toR. field. lra.
  - split; [eapply is_derive_eq; [apply is_derive_id|unfold one; simpl; toR; field; lra]|].
    split; [eapply is_derive_eq; [exact D4|rewrite DH; toR; field; lra]|].
    split; [|split; [exact HP|apply Rinv_0_lt_compat; exact HP]]. 
    unfold U, potfun_of in HV. cbn [pV] in HV. rewrite HV. ring.
Qed.
End Efolds.

(** C118 in cosmic time *)
Theorem C118_time : forall root P L te phi_i t_i eta_i x_end N_i e ic y0 y a b,
  let U := potfun_of P L in
  (* one of the featureless potentials with valid parameters, started on the branch above phi_end *)
  root_spec root -> featureless P -> valid P -> (forall p phi0, P = DoubleWell p phi0 -> 1 <= p) -> P <> DoubleWell 1 (sqrt 2) ->
  L <> 0 -> branch P phi_i -> phi_end root P L = Ok e -> e <= phi_i ->
  (* a flat universe evolving from what SlowRollIC writes *)
  sr_init (IT 0 U te) phi_i (Some t_i) eta_i x_end (kw_of (InN N_i)) = Ok ic ->
  List.length y0 = List.length (T_idx te) -> sr_call ic y0 = Ok (map Fin (y t_i)) ->
  T_background 0 U te y a b -> a < t_i < b ->
  exists N_sr, sr_phi2N root P L phi_i = Ok N_sr /\
    (forall t, t_i <= t < b -> T_inflating U te t (y t) <= 0 -> N_sr <= T_N te y t - T_N te y t_i) /\
    (forall t, t_i <= t < b -> (forall s, t_i <= s <= t -> 0 < T_inflating U te s (y s)) ->
       T_N te y t - T_N te y t_i < phi_i * V P L phi_i / dV P L phi_i * sqrt (1 + eps1V P phi_i / 3)) /\
    (forall t, t_i <= t < b -> (forall s, t_i <= s <= t -> e < T_phi te y s) ->
       0 < T_inflating U te t (y t) /\ T_phi te y t <= phi_i).
Proof.
  intros root P L te phi_i t_i eta_i x_end N_i e ic y0 y a b U HR HF HV HD HN HL HB HE LE SI LY SC BG HT.
  destruct (branch_pos P L phi_i HF HV HL HB) as [V0 V1].
  destruct (sr_start_T U te phi_i (Some t_i) eta_i x_end N_i ic y0 (y t_i) V0 SI LY SC) as [E1 E2].
  change (var (T_idx te) "phi" (y t_i)) with (T_phi te y t_i) in E1. change (var (T_idx te) "dphidt" (y t_i)) with (T_dphi te y t_i) in E2.
  unfold U, potfun_of in E2. cbn [pV pdV] in E2.
  pose proof (phi_end_branch root P L e HR HF HV HL HN HE) as Be. destruct (phi_end_spec root P L e HR HF HV HL HE) as [_ Ee].
  pose proof (Nfun_end root P L e HF HV HE) as Ne.
  assert (FL : forall s, t_i <= s < b -> _) by (intros s Hs; exact (T_flow P L te y a b BG s ltac:(lra))).
  assert (B0 : branch P (T_phi te y t_i)) by (rewrite E1; exact HB).
  destruct (FL t_i ltac:(lra)) as (_ & _ & _ & _ & FR & HP & _). set (h := T_Hub 0 (potfun_of P L) te y t_i) in *.
  rewrite E1 in FR.
  set (v := V P L phi_i) in *. set (v1 := dV P L phi_i) in *. set (r := sqrt (v / 3)) in *.
  assert (R0 : 0 < r) by (apply sqrt_lt_R0; lra). assert (R2 : r * r = v / 3) by (apply sqrt_sqrt; lra).
  assert (Q0 : T_dphi te y t_i < 0).
  { rewrite E2. assert (0 < v1 / (3 * r)) by (apply Rdiv_lt_0_compat; lra). unfold Rdiv in *. rewrite Ropp_mult_distr_l_reverse. lra. }
  assert (HR' : r <= h).
  { destruct (Rle_dec r h) as [|X]; [assumption|]. exfalso. assert (h * h < r * r) by nra. pose proof (pow2_ge_0 (T_dphi te y t_i)). nra. }
  assert (ST : - h * (dV P L (T_phi te y t_i) / V P L (T_phi te y t_i)) <= T_dphi te y t_i <= 0).
  { split; [|lra]. rewrite E1, E2. fold v v1.
    assert (v1 / (3 * r) <= h * (v1 / v)).
    { replace (v1 / (3 * r)) with (r * (v1 / v)). - apply Rmult_le_compat_r; [left; apply Rdiv_lt_0_compat; lra|exact HR'].
      - replace v with (3 * (r * r)) by lra. field. lra. }
    replace (- v1 / (3 * r)) with (- (v1 / (3 * r))) by (field; lra). lra. }
  exists (Nfun P e phi_i). split; [apply Nfun_ok with (1 := HE)|]. split; [|split].
  - intros t Ht END. rewrite <- E1.
    apply (roll_lower P L HF HV HL HD (T_phi te y) (T_dphi te y) (T_N te y) (T_Hub 0 (potfun_of P L) te y) (fun _ => 1) t_i b FL B0 ST t e); try assumption. rewrite E1. exact LE.
  - intros t Ht INF.
    pose proof (roll_upper P L HF HV HL HD (T_phi te y) (T_dphi te y) (T_N te y) (T_Hub 0 (potfun_of P L) te y) (fun _ => 1) t_i b FL B0 ST t Ht Q0 INF) as X.
    fold h in X. rewrite E1 in X. eapply Rlt_le_trans; [exact X|]. right. rewrite E2.
    unfold Rdiv at 3. rewrite Rmult_assoc. unfold Rdiv at 2. rewrite !Rmult_assoc. f_equal.
    (* h = r * sqrt (1 + eps/3) *)
    assert (EP : eps1V P phi_i = (v1 / v)^2 / 2) by (pose proof (branch_lam2 P L HF HV HL phi_i HB) as W; fold v v1 in W; lra).
    assert (HS : h = r * sqrt (1 + eps1V P phi_i / 3)).
    { unfold r. rewrite <- sqrt_mult; [|lra|rewrite EP; pose proof (pow2_ge_0 (v1 / v)); lra].
      rewrite <- (sqrt_pow2 h) by lra. f_equal. rewrite E2 in FR. rewrite EP.
      replace ((- v1 / (3 * r))^2) with (v1^2 / (9 * (r * r))) in FR by (field; lra). rewrite R2 in FR.
      replace (h^2) with (3 * h^2 / 3) by field. rewrite FR. field. lra. }
    rewrite HS. set (w := sqrt (1 + eps1V P phi_i / 3)). replace v with (3 * (r * r)) by lra. field. lra.
  - intros t Ht AB. pose proof (branch_gt0 P e Be) as E0.
    assert (POS : forall s, t_i <= s <= t -> 0 < T_phi te y s) by (intros s Hs; pose proof (AB s Hs); lra).
    split.
    + apply (roll_accel P L HF HV HL HD (T_phi te y) (T_dphi te y) (T_N te y) (T_Hub 0 (potfun_of P L) te y) (fun _ => 1) t_i b FL B0 ST t e Ht POS Be Ee (AB t ltac:(lra))).
    + rewrite <- E1. apply (roll_branch P L HF HV HL HD (T_phi te y) (T_dphi te y) (T_N te y) (T_Hub 0 (potfun_of P L) te y) (fun _ => 1) t_i b FL B0 ST t Ht POS). lra.
Qed.

(** C118 in e-folds: the independent variable is the e-fold count itself *)
Theorem C118_efolds : forall root P L tm te phi_i t_i eta_i x_end N_i e ic y0 y a b,
  let U := potfun_of P L in
  root_spec root -> featureless P -> valid P -> (forall p phi0, P = DoubleWell p phi0 -> 1 <= p) -> P <> DoubleWell 1 (sqrt 2) ->
  L <> 0 -> branch P phi_i -> phi_end root P L = Ok e -> e <= phi_i ->
  sr_init (IN 0 U tm te) phi_i t_i eta_i x_end (kw_of (InN N_i)) = Ok ic ->
  List.length y0 = List.length (N_idx tm te) -> sr_call ic y0 = Ok (map Fin (y N_i)) ->
  N_background 0 U tm te y a b -> a < N_i < b ->
  exists N_sr, sr_phi2N root P L phi_i = Ok N_sr /\
    (forall n, N_i <= n < b -> N_inflating 0 U tm te n (y n) <= 0 -> N_sr <= n - N_i) /\
    (forall n, N_i <= n < b -> (forall s, N_i <= s <= n -> 0 < N_inflating 0 U tm te s (y s)) ->
       n - N_i < phi_i * V P L phi_i / dV P L phi_i) /\
    (forall n, N_i <= n < b -> (forall s, N_i <= s <= n -> e < N_phi tm te y s) ->
       0 < N_inflating 0 U tm te n (y n) /\ N_phi tm te y n <= phi_i).
Proof.
  intros root P L tm te phi_i t_i eta_i x_end N_i e ic y0 y a b U HR HF HV HD HN HL HB HE LE SI LY SC BG HT.
  destruct (branch_pos P L phi_i HF HV HL HB) as [V0 V1].
  destruct (sr_start_N U tm te phi_i t_i eta_i x_end N_i ic y0 (y N_i) V0 SI LY SC) as [E1 E2].
  change (var (N_idx tm te) "phi" (y N_i)) with (N_phi tm te y N_i) in E1. change (var (N_idx tm te) "dphidN" (y N_i)) with (N_dphi tm te y N_i) in E2.
  unfold U, potfun_of in E2. cbn [pV pdV] in E2.
  pose proof (phi_end_branch root P L e HR HF HV HL HN HE) as Be. destruct (phi_end_spec root P L e HR HF HV HL HE) as [_ Ee].
  pose proof (Nfun_end root P L e HF HV HE) as Ne.
  assert (FL : forall s, N_i <= s < b -> _) by (intros s Hs; exact (N_flow P L tm te y a b BG s ltac:(lra))).
  assert (B0 : branch P (N_phi tm te y N_i)) by (rewrite E1; exact HB).
  set (Hf := N_Hub 0 (potfun_of P L) tm te y) in *. set (q := fun s => Hf s * N_dphi tm te y s) in *.
  destruct (FL N_i ltac:(lra)) as (_ & _ & _ & _ & FR & HP & _).
  assert (LP : 0 < dV P L phi_i / V P L phi_i) by (apply Rdiv_lt_0_compat; assumption).
  assert (QE : q N_i = - (Hf N_i * (dV P L phi_i / V P L phi_i))) by (unfold q; rewrite E2; field; lra).
  assert (Q0 : q N_i < 0) by (rewrite QE; pose proof (Rmult_lt_0_compat _ _ HP LP); lra).
  assert (ST : - Hf N_i * (dV P L (N_phi tm te y N_i) / V P L (N_phi tm te y N_i)) <= q N_i <= 0) by (split; [rewrite E1, QE; lra|lra]).
  assert (INFL : forall s, a < s < b -> N_inflating 0 U tm te s (y s) = V P L (N_phi tm te y s) - (q s)^2).
  { intros s Hs. unfold N_inflating, q. rewrite Rpow_mult_distr. unfold Hf, N_Hub. rewrite pow2_sqrt; [reflexivity|].
    destruct BG as [_ Q]. left. apply (Q s Hs). }
  exists (Nfun P e phi_i). split; [apply Nfun_ok with (1 := HE)|]. split; [|split].
  - intros n Hn END. rewrite INFL in END by lra. rewrite <- E1.
    apply (roll_lower P L HF HV HL HD (N_phi tm te y) q (fun x => x) Hf (fun s => / Hf s) N_i b FL B0 ST n e); try assumption. rewrite E1. exact LE.
  - intros n Hn INF.
    pose proof (roll_upper P L HF HV HL HD (N_phi tm te y) q (fun x => x) Hf (fun s => / Hf s) N_i b FL B0 ST n Hn Q0
                  (fun s Hs => eq_ind _ (fun z => 0 < z) (INF s Hs) _ (INFL s ltac:(lra)))) as X. cbv beta in X.
    rewrite E1 in X. eapply Rlt_le_trans; [exact X|]. right. rewrite QE. field. lra.
  - intros n Hn AB. pose proof (branch_gt0 P e Be) as E0. rewrite INFL by lra.
    assert (POS : forall s, N_i <= s <= n -> 0 < N_phi tm te y s) by (intros s Hs; pose proof (AB s Hs); lra).
    split.
    + apply (roll_accel P L HF HV HL HD (N_phi tm te y) q (fun x => x) Hf (fun s => / Hf s) N_i b FL B0 ST n e Hn POS Be Ee (AB n ltac:(lra))).
    + rewrite <- E1. apply (roll_branch P L HF HV HL HD (N_phi tm te y) q (fun x => x) Hf (fun s => / Hf s) N_i b FL B0 ST n Hn POS). lra.
Qed.
