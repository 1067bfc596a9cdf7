(** Properties C13-C21 of the background equations
    (/repo/primpy/time/inflation.py, /repo/primpy/efolds/inflation.py). *)
From Coq Require Import Reals Ranalysis5 List String Lra Lia.
From Coquelicot Require Import Coquelicot.
From Verif Require Import Base Model.Potentials Model.Equations Model.Background Spec.PotentialSpec Spec.BackgroundSpec Spec.FlowSpec
  Proofs.BackgroundT Proofs.BackgroundN Proofs.BackgroundTN Proofs.BackgroundEx Proofs.Flow.
Import ListNotations.
Open Scope R_scope.

(** The smoothness hypothesis inside [T_background]/[N_background] holds for every class of
    potentials.py on its domain. *)
Theorem C13_potentials_are_smooth : forall P L phi, in_domain P phi -> smooth_pot (potfun_of P L) phi.
Proof. exact potfun_smooth. Qed.

(** C13: the Friedmann constraint, N' = H, and H' = get_dH = H get_dH_H along solutions. *)
Theorem C13_friedmann : forall K U te,
  (forall t y, let N := var (T_idx te) "_N" y in let p := var (T_idx te) "dphidt" y in
     3 * T_H2 K U te t y = p^2 / 2 + pV U (var (T_idx te) "phi" y) - 3 * K / (exp N)^2) /\
  (forall y a b t, T_background K U te y a b -> a < t < b ->
     is_derive (T_phi te y) t (T_dphi te y t) /\
     is_derive (T_N te y) t (T_Hub K U te y t) /\ 0 < T_Hub K U te y t /\
     is_derive (T_Hub K U te y) t (T_get_dH (T_N te y t) (T_Hub K U te y t) (T_dphi te y t) K) /\
     T_get_dH (T_N te y t) (T_Hub K U te y t) (T_dphi te y t) K
     = T_Hub K U te y t * T_get_dH_H (T_N te y t) (T_H2 K U te t (y t)) (T_dphi te y t) K).
Proof.
  intros K U te. split.
  - intros t y N p. unfold T_H2, T_get_H2. fold N p.
    replace (-2 * N) with (- N + - N) by ring. rewrite exp_plus, exp_Ropp. field. apply Rgt_not_eq, exp_pos.
  - intros y a b t B Ht. destruct (T_comps K U te y a b B t Ht) as [D1 [_ [D3 _]]].
    destruct (T_pos K U te y a b B t Ht) as [HP _].
    split; [exact D1|]. split; [exact D3|]. split; [exact HP|]. split; [exact (T_H_derive K U te y a b B t Ht)|].
    unfold T_get_dH_H, T_get_dH. fold (T_Hub K U te y t). change (sqrt (T_H2 K U te t (y t))) with (T_Hub K U te y t). field. lra.
Qed.

(** C14: the higher closed-form derivatives; [d3] is the true third derivative of the field. *)
Theorem C14_time_derivatives : forall K U te y a b (d3 : R -> R),
  T_background K U te y a b ->
  (forall s, a < s < b -> is_derive (T_d2phi K U te y) s (d3 s)) ->
  forall t, a < t < b ->
  let N := T_N te y t in let H := T_Hub K U te y t in let p := T_dphi te y t in
  let dV := pdV U (T_phi te y t) in let d2V := pd2V U (T_phi te y t) in let d3V := pd3V U (T_phi te y t) in
  let dH := T_get_dH N H p K in
  let d2phi := T_get_d2phi (T_H2 K U te t (y t)) p dV in
  let d2H := T_get_d2H N H dH p d2phi K in
  let d3H := T_get_d3H N H dH d2H p d2phi (d3 t) K in
  is_derive (T_dphi te y) t d2phi /\
  is_derive (T_dH K U te y) t d2H /\
  is_derive (T_d2H K U te y) t d3H /\
  is_derive d3 t (T_get_d4phi H dH d2H d3H p d2phi (d3 t) dV d2V d3V).
Proof.
  intros K U te y a b d3 B D3 t Ht; cbv zeta.
  assert (E : forall s, a < s < b -> T_d3true K U te y s = d3 s).
  { intros s Hs. pose proof (T_d2phi_derive K U te y a b B s Hs) as A. apply is_derive_unique in A.
    pose proof (D3 s Hs) as A'. apply is_derive_unique in A'. congruence. }
  split; [apply (T_comps K U te y a b B t Ht)|]. split; [exact (T_dH_derive K U te y a b B t Ht)|].
  rewrite <- (E t Ht). split; [exact (T_d2H_derive K U te y a b B t Ht)|].
  apply (ext_in (T_d3true K U te y) d3 a b t _ Ht E). exact (T_d3true_derive K U te y a b B t Ht).
Qed.

Theorem C14_nonvacuous : exists y d3, T_background 1 (Vexp 4) true y 1 3 /\
  forall s, 1 < s < 3 -> is_derive (T_d2phi 1 (Vexp 4) true y) s (d3 s).
Proof. exists y_closed, (T_d3true 1 (Vexp 4) true y_closed). split; [exact closed_background|]. exact (T_d2phi_derive _ _ _ _ _ _ closed_background). Qed.

(** C15 is false of the code: in an exact closed-universe solution get_d3phi is not the third
    derivative of the field. *)
Theorem C15_refuted : exists K U te y a b t, T_background K U te y a b /\ a < t < b /\
  is_derive_n (T_phi te y) 3 t (1/2) /\ T_d3phi K U te y t = 5/4.
Proof.
  exists 1, (Vexp 4), true, y_closed, 1, 3, 2. split; [exact closed_background|]. split; [lra|].
  assert (E1 : forall x, 0 < x -> Derive (T_phi true y_closed) x = 2 / x).
  { intros x Hx. apply is_derive_unique. unfold T_phi, y_closed. cbn. evar_last; [auto_derive; [lra|reflexivity]|]. toR. field. lra. }
  assert (L : forall x, 0 < x -> locally x (fun s : R => 0 < s)) by (intros x Hx; apply (open_gt 0 x Hx)).
  assert (E2 : forall x, 0 < x -> is_derive (Derive (T_phi true y_closed)) x (- 2 / x^2)).
  { intros x Hx. apply (is_derive_ext_loc (fun s => 2 / s)).
    - generalize (L x Hx). apply filter_imp. intros s Hs. symmetry. apply E1, Hs.
    - evar_last; [auto_derive; [lra|reflexivity]|]. toR. field. lra. }
  split.
  - change (is_derive (Derive (fun x => Derive (fun x0 => T_phi true y_closed x0) x)) 2 (1/2)).
    apply (is_derive_ext_loc (fun s => - 2 / s^2)).
    + generalize (L 2 ltac:(lra)). apply filter_imp. intros s Hs. symmetry. apply is_derive_unique. apply E2, Hs.
    + evar_last; [auto_derive; [lra|reflexivity]|]. toR. field.
  - unfold T_d3phi, T_get_d3phi, T_d2phi, T_get_d2phi, T_Hub. rewrite closed_H2 by lra.
    rewrite sqrt_pow2 by (left; apply Rinv_0_lt_compat; lra). unfold T_dphi, T_phi, y_closed, Vexp. cbn.
    rewrite exp_m2ln by lra. field.
Qed.

(** What does hold: get_d3phi is exact in flat universes, and in curved ones it misses the term
    -3K e^{-2N} dphi. *)
Theorem C15_partial : forall K U te y a b t, T_background K U te y a b -> a < t < b ->
  is_derive (T_d2phi K U te y) t (T_d3phi K U te y t - 3 * K * exp (-2 * T_N te y t) * T_dphi te y t) /\
  (K = 0 -> is_derive (T_d2phi K U te y) t (T_d3phi K U te y t)).
Proof.
  intros K U te y a b t B Ht. pose proof (T_d2phi_derive K U te y a b B t Ht) as D. rewrite T_d3_error in D.
  split; [exact D|]. intros E. rewrite E in D |- *. apply is_derive_eq with (1 := D). toR. ring.
Qed.
Theorem C15_nonvacuous : exists y, T_background 0 (Vexp 10) true y 1 3.
Proof. exists y_flat. exact flat_background. Qed.

(** C16: the e-fold chain. *)
Theorem C16_efold_derivatives : forall K U tt te y a b n,
  N_background K U tt te y a b -> a < n < b ->
  let H := N_Hub K U tt te y n in let p := N_dphi tt te y n in
  (** Friedmann constraint in terms of dphi/dt = H dphi/dN *)
  3 * H^2 = (H * p)^2 / 2 + pV U (N_phi tt te y n) - 3 * K / (exp n)^2 /\
  is_derive (N_phi tt te y) n p /\ is_derive (N_dphi tt te y) n (N_d2phi K U tt te y n) /\
  is_derive (N_d2phi K U tt te y) n (N_d3phi K U tt te y n) /\
  is_derive (N_d3phi K U tt te y) n (N_d4phi K U tt te y n) /\
  is_derive (N_Hub K U tt te y) n (N_dH K U tt te y n) /\
  N_dH K U tt te y n = H * N_get_dH_H n (N_H2 K U tt te n (y n)) p K /\
  is_derive (N_dH K U tt te y) n (N_d2H K U tt te y n) /\
  is_derive (N_d2H K U tt te y) n (N_d3H K U tt te y n) /\
  (tt = true -> is_derive (N_t tt te y) n (1 / H)) /\
  (te = true -> is_derive (N_eta tt te y) n (1 / (exp n * H))).
Proof.
  intros K U tt te y a b n B Hn H p. destruct (N_comps K U tt te y a b B n Hn) as [D1 [D2 [D3 D4]]].
  destruct (N_pos K U tt te y a b B n Hn) as [HP [HE _]].
  assert (E2 : N_H2 K U tt te n (y n) = H^2).
  { unfold H, N_Hub. simpl. rewrite Rmult_1_r, sqrt_sqrt; [reflexivity|]. destruct B as [_ Q]. left. apply (Q n Hn). }
  split.
  { rewrite (N_V K U tt te y a b B n Hn). fold H p. replace (-2 * n) with (- n + - n) by ring. rewrite exp_plus, exp_Ropp. field. apply Rgt_not_eq, exp_pos. }
  split; [exact D1|]. split; [exact D2|]. split; [exact (N_d2phi_derive K U tt te y a b B n Hn)|].
  split; [exact (N_d3phi_derive K U tt te y a b B n Hn)|]. split; [exact (N_H_derive K U tt te y a b B n Hn)|].
  split. { rewrite E2. unfold N_dH, N_get_dH, N_get_dH_H. fold H p. field. unfold H; lra. }
  split; [exact (N_dH_derive K U tt te y a b B n Hn)|]. split; [exact (N_d2H_derive K U tt te y a b B n Hn)|].
  split; [exact D3|]. 
  intros E. apply is_derive_eq with (1 := D4 E). toR. rewrite exp_Ropp. fold H. assert (HP2 : 0 < H) by exact HP. field. split; apply Rgt_not_eq; [apply exp_pos|exact HP2].
Qed.

(** C17: the two time variables describe the same universe. *)
Theorem C17_same_observables : forall K U tt te t y,
  0 < T_H2 K U te t y -> pV U (var (T_idx te) "phi" y) <> 3 * K * exp (-2 * var (T_idx te) "_N" y) ->
  let n := var (T_idx te) "_N" y in let z := state_T2N K U tt te t y in
  N_H2 K U tt te n z = T_H2 K U te t y /\ N_w K U tt te n z = T_w U te t y /\
  N_inflating K U tt te n z = T_inflating U te t y.
Proof. exact T2N_obs. Qed.
Theorem C17_same_observables_back : forall K U tt te t n y,
  0 < N_H2 K U tt te n y -> (var (N_idx tt te) "dphidN" y)^2 <> 6 ->
  let z := state_N2T K U tt te n y in
  T_H2 K U te t z = N_H2 K U tt te n y /\ T_w U te t z = N_w K U tt te n y /\
  T_inflating U te t z = N_inflating K U tt te n y.
Proof. exact N2T_obs. Qed.
(** between any two times the e-fold number is a valid clock, and in it the mapped trajectory
    (including the t and eta components) solves the e-fold equations *)
Theorem C17_time_to_efolds : forall K U tt te y a b,
  T_background K U te y a b ->
  (forall t, a < t < b -> pV U (T_phi te y t) <> 3 * K * exp (-2 * T_N te y t)) ->
  forall t0 t1, a < t0 -> t0 < t1 -> t1 < b ->
  exists tau, (forall n, T_N te y t0 < n < T_N te y t1 -> t0 <= tau n <= t1 /\ T_N te y (tau n) = n) /\
    N_background K U tt te (fun n => state_T2N K U tt te (tau n) (y (tau n))) (T_N te y t0) (T_N te y t1).
Proof.
  intros K U tt te y a b B HV t0 t1 Ha Hb Hc.
  assert (CT : forall x, t0 <= x <= t1 -> continuity_pt (T_N te y) x).
  { intros x Hx. apply continuity_pt_filterlim. apply (ex_derive_continuous (V := R_NormedModule)).
    exists (T_Hub K U te y x). apply (T_comps K U te y a b B x). lra. }
  pose (tau := fun n => match Rle_dec (T_N te y t0) n with
                        | left H1 => match Rle_dec n (T_N te y t1) with
                                     | left H2 => proj1_sig (f_interv_is_interv (T_N te y) t0 t1 n Hb (conj H1 H2) CT)
                                     | right _ => 0 end
                        | right _ => 0 end).
  exists tau.
  assert (HT : forall n, T_N te y t0 < n < T_N te y t1 -> t0 <= tau n <= t1 /\ T_N te y (tau n) = n).
  { intros n Hn. unfold tau. destruct (Rle_dec (T_N te y t0) n); [|lra]. destruct (Rle_dec n (T_N te y t1)); [|lra].
    destruct (f_interv_is_interv _ _ _ _ _ _ _) as [x Hx]. exact Hx. }
  split; [exact HT|].
  apply T2N_solution with (a := a) (b := b); [exact B|exact HV|]. intros n Hn. destruct (HT n Hn). split; [lra|assumption].
Qed.
Theorem C17_efolds_to_time : forall K U tt te y a b nu t0 t1,
  N_background K U tt te y a b ->
  (forall t, t0 < t < t1 -> a < nu t < b /\ is_derive nu t (N_Hub K U tt te y (nu t))) ->
  T_background K U te (fun t => state_N2T K U tt te (nu t) (y (nu t))) t0 t1.
Proof. exact N2T_solution. Qed.
(** if the e-fold run tracks t, inverting its t component is such a clock *)
Theorem C17_tracked_time_is_time : forall K U te y a b nu t0 t1,
  N_background K U true te y a b ->
  (forall t, t0 < t < t1 -> a < nu t < b /\ N_t true te y (nu t) = t) ->
  T_background K U te (fun t => state_N2T K U true te (nu t) (y (nu t))) t0 t1.
Proof.
  intros K U te y a b nu t0 t1 B HT. apply N2T_solution with (a := a) (b := b); [exact B|].
  intros t Ht. split; [apply (HT t Ht)|].
  assert (D : is_derive nu t (/ (1 / N_Hub K U true te y (nu t)))).
  { apply (inverse_derive (N_t true te y) (fun n => 1 / N_Hub K U true te y n) nu a b t0 t1); [|exact HT|exact Ht].
    intros n Hn. destruct (N_comps K U true te y a b B n Hn) as [_ [_ [D _]]]. split; [exact (D eq_refl)|].
    apply Rdiv_lt_0_compat; [lra|apply (N_pos K U true te y a b B n Hn)]. }
  apply is_derive_eq with (1 := D). toR. destruct (N_pos K U true te y a b B _ (proj1 (HT t Ht))) as [P _]. field. lra.
Qed.

Lemma flat_V_ok t : 1 < t < 3 -> pV (Vexp 10) (T_phi true y_flat t) <> 3 * 0 * exp (-2 * T_N true y_flat t).
Proof. intros Ht. unfold Vexp, T_phi, y_flat. cbn. pose proof (exp_pos (- (2 * ln t))). lra. Qed.
Theorem C16_C17_nonvacuous : exists y n0 n1, n0 < n1 /\ N_background 0 (Vexp 10) true true y n0 n1.
Proof.
  destruct (C17_time_to_efolds 0 (Vexp 10) true true y_flat 1 3 flat_background flat_V_ok (3/2) 2) as [tau [_ B]]; try lra.
  eexists _, _, _. split; [|exact B]. unfold T_N, y_flat. cbn. pose proof (ln_increasing (3/2) 2). lra.
Qed.

(** C18: Hubble-flow parameters of any smooth expansion history. *)
Theorem C18_time : forall H H1 H2 H3 a b,
  chain3 H H1 H2 H3 a b -> (forall t, a < t < b -> 0 < H t) -> forall t, a < t < b ->
  let e1 := fun s => T_get_epsilon_1H (H s) (H1 s) in
  let e2 := fun s => T_get_epsilon_2H Standard (H s) (H1 s) (H2 s) in
  let e3 := fun s => T_get_epsilon_3H Standard (H s) (H1 s) (H2 s) (H3 s) in
  let g2 := fun s => T_get_epsilon_2H Gong (H s) (H1 s) (H2 s) in
  let g3 := fun s => T_get_epsilon_3H Gong (H s) (H1 s) (H2 s) (H3 s) in
  (** d ln H/dN = -e1, dN = H dt *)
  is_derive (fun s => ln (H s)) t (- e1 t * H t) /\
  (H1 t <> 0 -> is_derive e1 t (e1 t * e2 t * H t)) /\
  (H1 t <> 0 -> e2 t <> 0 -> is_derive e2 t (e2 t * e3 t * H t)) /\
  is_derive e1 t (g2 t * H t) /\ is_derive (fun s => g2 s * H s) t (g3 t * H t ^ 2).
Proof.
  intros H H1 H2 H3 a b C P t Ht e1 e2 e3 g2 g3.
  split; [exact (T_e1 _ _ _ _ _ _ C P t Ht)|]. split; [exact (T_e2 _ _ _ _ _ _ C P t Ht)|].
  split; [|split; [exact (T_e2G _ _ _ _ _ _ C P t Ht)|exact (T_e3G _ _ _ _ _ _ C P t Ht)]].
  intros N1 N2. apply (T_e3 _ _ _ _ _ _ C P t Ht N1). intros E. apply N2. unfold e2, T_get_epsilon_2H. pose proof (P t Ht).
  replace (H2 t / (H t * H1 t) - 2 * H1 t / H t ^ 2) with ((H t * H2 t - 2 * H1 t ^ 2) / (H t ^ 2 * H1 t)) by (field; lra).
  rewrite E. unfold Rdiv. ring.
Qed.
Theorem C18_efolds : forall H H1 H2 H3 a b,
  chain3 H H1 H2 H3 a b -> (forall n, a < n < b -> 0 < H n) -> forall n, a < n < b ->
  let e1 := fun s => N_get_epsilon_1H (H s) (H1 s) in
  let e2 := fun s => N_get_epsilon_2H Standard (H s) (H1 s) (H2 s) in
  let e3 := fun s => N_get_epsilon_3H Standard (H s) (H1 s) (H2 s) (H3 s) in
  let g2 := fun s => N_get_epsilon_2H Gong (H s) (H1 s) (H2 s) in
  let g3 := fun s => N_get_epsilon_3H Gong (H s) (H1 s) (H2 s) (H3 s) in
  is_derive (fun s => ln (H s)) n (- e1 n) /\
  (H1 n <> 0 -> is_derive e1 n (e1 n * e2 n)) /\
  (H1 n <> 0 -> e2 n <> 0 -> is_derive e2 n (e2 n * e3 n)) /\
  (** d/dt = H d/dN *)
  is_derive e1 n (g2 n) /\ is_derive (fun s => g2 s * H s) n (g3 n * H n ^ 2 / H n).
Proof.
  intros H H1 H2 H3 a b C P t Ht e1 e2 e3 g2 g3.
  split; [exact (N_e1 _ _ _ _ _ _ C P t Ht)|]. split; [exact (N_e2 _ _ _ _ _ _ C P t Ht)|].
  split; [|split; [exact (N_e2G _ _ _ _ _ _ C P t Ht)|]].
  - intros N1 N2. apply (N_e3 _ _ _ _ _ _ C P t Ht N1). intros E. apply N2. unfold e2, N_get_epsilon_2H. pose proof (P t Ht).
    replace (H2 t / H1 t - H1 t / H t) with ((H t * H2 t - H1 t ^ 2) / (H t * H1 t)) by (field; lra). rewrite E. unfold Rdiv. ring.
  - apply is_derive_eq with (1 := N_e3G _ _ _ _ _ _ C P t Ht). toR. unfold g3. pose proof (P t Ht). field. lra.
Qed.
Theorem C18_same_numbers : forall HT T1 T2 T3 a b HN h1 h2 h3 n0 n1 Nf,
  chain3 HT T1 T2 T3 a b -> chain3 HN h1 h2 h3 n0 n1 -> same_history HT a b HN n0 n1 Nf ->
  forall t, a < t < b -> let n := Nf t in
  T_get_epsilon_1H (HT t) (T1 t) = N_get_epsilon_1H (HN n) (h1 n) /\
  T_get_epsilon_2H Gong (HT t) (T1 t) (T2 t) = N_get_epsilon_2H Gong (HN n) (h1 n) (h2 n) /\
  T_get_epsilon_3H Gong (HT t) (T1 t) (T2 t) (T3 t) = N_get_epsilon_3H Gong (HN n) (h1 n) (h2 n) (h3 n) /\
  (h1 n <> 0 -> T_get_epsilon_2H Standard (HT t) (T1 t) (T2 t) = N_get_epsilon_2H Standard (HN n) (h1 n) (h2 n)) /\
  (h1 n <> 0 -> HN n * h2 n - h1 n ^ 2 <> 0 ->
   T_get_epsilon_3H Standard (HT t) (T1 t) (T2 t) (T3 t) = N_get_epsilon_3H Standard (HN n) (h1 n) (h2 n) (h3 n)).
Proof. exact TN_eps. Qed.
(** the history H = 1/(t (1+t)^2)... a witness with non-constant e1 and e2: H = 1/t + 1, N = ln t + t *)
Theorem C18_nonvacuous :
  let H := fun t => / t + 1 in let H1 := fun t => - / t^2 in let H2 := fun t => 2 / t^3 in let H3 := fun t => -6 / t^4 in
  chain3 H H1 H2 H3 1 3 /\ (forall t, 1 < t < 3 -> 0 < H t) /\ H1 2 <> 0 /\ T_get_epsilon_2H Standard (H 2) (H1 2) (H2 2) <> 0.
Proof.
  cbv zeta. split; [|split; [|split]].
  - intros t Ht. split; [|split]; (evar_last; [auto_derive; [repeat split; try nz|reflexivity]|]; toR; simpl; field; lra).
  - intros t Ht. assert (0 < / t) by (apply Rinv_0_lt_compat; lra). lra.
  - apply Rlt_not_eq. assert (0 < / 2^2) by (apply Rinv_0_lt_compat; lra). lra.
  - unfold T_get_epsilon_2H. replace (2 / 2 ^ 3 / ((/ 2 + 1) * - / 2 ^ 2) - 2 * - / 2 ^ 2 / (/ 2 + 1) ^ 2) with (-(4/9)) by field. lra.
Qed.
(** ... and in e-folds, for the power law HN = e^{-n/2} (a = t^2), same history as HT = 2/t up to the unit of t *)
Theorem C18_same_numbers_nonvacuous :
  let c := fun k (n : R) => k * exp (- n) in
  let HT := fun t => / t in let T1 := fun t => - / t^2 in let T2 := fun t => 2 / t^3 in let T3 := fun t => -6 / t^4 in
  chain3 HT T1 T2 T3 1 3 /\ chain3 (c 1) (c (-1)) (c 1) (c (-1)) 0 2 /\ same_history HT 1 3 (c 1) 0 2 ln.
Proof.
  cbv zeta. split; [|split].
  - intros t Ht. split; [|split]; (evar_last; [auto_derive; [repeat split; try nz|reflexivity]|]; toR; simpl; field; lra).
  - intros t Ht. split; [|split]; (evar_last; [auto_derive; [exact I|reflexivity]|]; toR; simpl; ring).
  - intros t Ht. split; [apply Rinv_0_lt_compat; lra|]. split.
    + split; [rewrite <- ln_1; apply ln_increasing; lra|].
      apply exp_lt_inv. rewrite exp_ln by lra. pose proof (exp_ineq1 2). lra.
    + split; [apply is_derive_ln; lra|]. rewrite exp_Ropp, exp_ln by lra. ring.
Qed.

(** C19: the field parameters delta_n = phi^(n+1)/(H^n phi'). *)
Theorem C19_deltas : forall HT T1 T2 T3 a b HN h1 h2 h3 n0 n1 Nf fT p1 p2 p3 p4 fN q1 q2 q3 q4,
  chain3 HT T1 T2 T3 a b -> chain3 HN h1 h2 h3 n0 n1 -> same_history HT a b HN n0 n1 Nf ->
  chain4 fT p1 p2 p3 p4 a b -> chain4 fN q1 q2 q3 q4 n0 n1 -> (forall t, a < t < b -> fT t = fN (Nf t)) ->
  forall t, a < t < b -> p1 t <> 0 -> let n := Nf t in
  let d1 := p2 t / (HT t * p1 t) in let d2 := p3 t / (HT t ^ 2 * p1 t) in let d3 := p4 t / (HT t ^ 3 * p1 t) in
  T_get_delta_1 (HT t) (T1 t) (p1 t) (p2 t) = d1 /\ N_get_delta_1 (HN n) (h1 n) (q1 n) (q2 n) = d1 /\
  T_get_delta_2 (HT t) (T1 t) (T2 t) (p1 t) (p2 t) (p3 t) = d2 /\
  N_get_delta_2 (HN n) (h1 n) (h2 n) (q1 n) (q2 n) (q3 n) = d2 /\
  T_get_delta_3 (HT t) (T1 t) (T2 t) (T3 t) (p1 t) (p2 t) (p3 t) (p4 t) = d3 /\
  N_get_delta_3 (HN n) (h1 n) (h2 n) (h3 n) (q1 n) (q2 n) (q3 n) (q4 n) = d3.
Proof.
  intros. destruct (TN_delta HT a b HN h1 h2 h3 n0 n1 Nf H0 H1 fT p1 p2 p3 p4 fN q1 q2 q3 q4 H2 H3 H4 t H5 H6) as [A1 [A2 A3]].
  repeat split; assumption.
Qed.
Theorem C19_nonvacuous :
  let c := fun k (n : R) => k * exp n in
  chain4 (fun t => t^2) (fun t => 2*t) (fun _ => 2) (fun _ => 0) (fun _ => 0) 1 3 /\
  chain4 (fun n => exp (2*n)) (fun n => 2 * exp (2*n)) (fun n => 4 * exp (2*n)) (fun n => 8 * exp (2*n)) (fun n => 16 * exp (2*n)) 0 2 /\
  (forall t, 1 < t < 3 -> t^2 = exp (2 * ln t)) /\ 2 * 2 <> 0.
Proof.
  cbv zeta. split; [|split; [|split]].
  - split; [intros t Ht; split; [|split]|intros t Ht]; (evar_last; [auto_derive; [exact I|reflexivity]|]; toR; simpl; ring).
  - split; [intros t Ht; split; [|split]|intros t Ht]; (evar_last; [auto_derive; [exact I|reflexivity]|]; toR; simpl; ring).
  - intros t Ht. replace (2 * ln t) with (ln t + ln t) by ring. rewrite exp_plus, exp_ln by lra. ring.
  - lra.
Qed.

(** C20: [inflating] = 3 a''/a, a = e^N; its sign is that of -(1/3) - w. *)
Theorem C20_inflating_time : forall K U te y a b t, T_background K U te y a b -> a < t < b ->
  is_derive_n (fun s => exp (T_N te y s)) 2 t (exp (T_N te y t) * (T_inflating U te t (y t) / 3)).
Proof.
  intros K U te y a b t B Ht.
  assert (D1 : forall s, a < s < b -> is_derive (fun s => exp (T_N te y s)) s (exp (T_N te y s) * T_Hub K U te y s)).
  { intros s Hs. destruct (T_comps K U te y a b B s Hs) as [_ [_ [D _]]].
    set (Nf := T_N te y) in *. evar_last; [auto_derive; [repeat split; exd|reflexivity]|]. undd. toR. ring. }
  change (is_derive (Derive (fun s => exp (T_N te y s))) t (exp (T_N te y t) * (T_inflating U te t (y t) / 3))).
  apply (ext_in (fun s => exp (T_N te y s) * T_Hub K U te y s) _ a b t _ Ht).
  { intros s Hs. symmetry. apply is_derive_unique, D1, Hs. }
  destruct (T_comps K U te y a b B t Ht) as [_ [_ [D _]]]. pose proof (T_H_derive K U te y a b B t Ht) as DH.
  destruct (T_pos K U te y a b B t Ht) as [_ HE].
  assert (EI : T_inflating U te t (y t) = 3 * (T_Hub K U te y t * T_Hub K U te y t + T_dH K U te y t)).
  { rewrite HE. unfold T_inflating, T_dH, T_get_dH, T_get_H2. unfold T_phi, T_dphi. field. }
  rewrite EI. set (Nf := T_N te y) in *. set (H := T_Hub K U te y) in *. set (dh := T_dH K U te y) in *.
  evar_last; [auto_derive; [repeat split; exd|reflexivity]|]. undd. toR. field.
Qed.
Theorem C20_inflating_efolds : forall K U tt te y a b nu t0 t1 t,
  N_background K U tt te y a b ->
  (forall t, t0 < t < t1 -> a < nu t < b /\ is_derive nu t (N_Hub K U tt te y (nu t))) -> t0 < t < t1 ->
  is_derive_n (fun s => exp (nu s)) 2 t (exp (nu t) * (N_inflating K U tt te (nu t) (y (nu t)) / 3)).
Proof.
  intros K U tt te y a b nu t0 t1 t B HT Ht.
  pose proof (C17_efolds_to_time K U tt te y a b nu t0 t1 B HT) as TB.
  pose proof (C20_inflating_time _ _ _ _ _ _ t TB Ht) as D.
  destruct (HT t Ht) as [Hn _]. destruct B as [_ Q]. destruct (Q _ Hn) as [HP [H6 _]].
  destruct (N2T_obs K U tt te t (nu t) (y (nu t)) HP H6) as [_ [_ EI]]. cbv beta in D, EI. unfold T_N in D. cbv zeta in EI. rewrite EI in D.
  rewrite var_N2T_N in D.
  apply (is_derive_n_ext (fun s => exp (var (T_idx te) "_N" (state_N2T K U tt te (nu s) (y (nu s)))))); [|exact D].
  intros s. rewrite var_N2T_N. reflexivity.
Qed.
Theorem C20_sign_time : forall U te t y,
  let rho := (var (T_idx te) "dphidt" y)^2 / 2 + pV U (var (T_idx te) "phi" y) in
  0 < rho -> (0 < T_inflating U te t y <-> T_w U te t y < -1/3) /\ (T_inflating U te t y = 0 <-> T_w U te t y = -1/3).
Proof.
  intros U te t y rho HR. unfold T_inflating, T_w. fold rho. set (p2 := (var (T_idx te) "dphidt" y)^2) in *. set (v := pV U (var (T_idx te) "phi" y)) in *.
  assert (HR2 : 0 < p2/2 + v) by exact HR. change rho with (p2/2+v).
  assert (E : v - p2 = -(3/2) * (p2/2+v) * ((p2/2 - v)/(p2/2+v) + 1/3)) by (field; lra).
  set (w := (p2/2-v)/(p2/2+v)) in *. split; split; intros H; nra.
Qed.
Theorem C20_sign_efolds : forall K U tt te n y,
  let rho := N_H2 K U tt te n y * (var (N_idx tt te) "dphidN" y)^2 / 2 + pV U (var (N_idx tt te) "phi" y) in
  0 < rho -> (0 < N_inflating K U tt te n y <-> N_w K U tt te n y < -1/3) /\
             (N_inflating K U tt te n y = 0 <-> N_w K U tt te n y = -1/3).
Proof.
  intros K U tt te t y rho HR. unfold N_inflating, N_w. fold rho. set (p2 := N_H2 K U tt te t y * (var (N_idx tt te) "dphidN" y)^2) in *. set (v := pV U (var (N_idx tt te) "phi" y)) in *.
  assert (HR2 : 0 < p2/2 + v) by exact HR. change rho with (p2/2+v).
  assert (E : v - p2 = -(3/2) * (p2/2+v) * ((p2/2 - v)/(p2/2+v) + 1/3)) by (field; lra).
  set (w := (p2/2-v)/(p2/2+v)) in *. split; split; intros H; nra.
Qed.

(** C21: bounds on the equation of state; [q] is the squared field velocity (dphi/dt)^2. *)
Lemma w_bounds q v w : 0 <= q -> 0 <= v -> 0 < q/2 + v -> w = (q/2 - v)/(q/2+v) ->
  -1 <= w <= 1 /\ (w = -1 <-> q = 0) /\ (w = 1 <-> v = 0).
Proof.
  intros Hq Hv Hr E. assert (F : w * (q/2+v) = q/2 - v) by (rewrite E; field; lra). clear E.
  repeat match goal with |- _ /\ _ => split | |- _ <-> _ => split end; try intros; nra.
Qed.
Theorem C21_time : forall U te t y,
  let p := var (T_idx te) "dphidt" y in let v := pV U (var (T_idx te) "phi" y) in let w := T_w U te t y in
  0 <= v -> 0 < p^2/2 + v -> -1 <= w <= 1 /\ (w = -1 <-> p = 0) /\ (w = 1 <-> v = 0).
Proof.
  intros U te t y p v w Hv Hr. destruct (w_bounds (p^2) v w (pow2_ge_0 p) Hv Hr eq_refl) as [A [B C]].
  split; [exact A|]. split; [|exact C]. rewrite B. split; intros E; [apply Rsqr_0_uniq; unfold Rsqr; lra|rewrite E; ring].
Qed.
Theorem C21_efolds : forall K U tt te n y,
  let h := N_H2 K U tt te n y in
  let p := var (N_idx tt te) "dphidN" y in let v := pV U (var (N_idx tt te) "phi" y) in let w := N_w K U tt te n y in
  0 < h -> 0 <= v -> 0 < h * p^2/2 + v -> -1 <= w <= 1 /\ (w = -1 <-> p = 0) /\ (w = 1 <-> v = 0).
Proof.
  intros K U tt te n y h p v w Hh Hv Hr.
  destruct (w_bounds (h * p^2) v w ltac:(pose proof (pow2_ge_0 p); nra) Hv Hr eq_refl) as [A [B C]].
  split; [exact A|]. split; [|exact C]. rewrite B. split; intros E.
  - apply Rmult_integral in E. destruct E as [E|E]; [lra|]. apply Rsqr_0_uniq; unfold Rsqr; lra.
  - rewrite E; ring.
Qed.
Theorem C20_C21_nonvacuous : let U := potfun_of Quadratic 1 in let y := [3; 1; 0] in
  0 <= pV U (var (T_idx false) "phi" y) /\ 0 < (var (T_idx false) "dphidt" y)^2/2 + pV U (var (T_idx false) "phi" y).
Proof. cbn. unfold quad_V. split; lra. Qed.
