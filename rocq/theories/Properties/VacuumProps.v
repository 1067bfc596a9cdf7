(** C97: which physical state the three vacua prepare. *)
From Coq Require Import Reals List String Lra Lia.
From Coquelicot Require Import Coquelicot.
From Verif Require Import Base Model.Potentials Model.Equations Model.Background Model.Perturbations
  Spec.BackgroundSpec Spec.PerturbationSpec Proofs.BackgroundT Proofs.BackgroundN Proofs.BackgroundEx Proofs.PertT
  Properties.PertProps.
Import ListNotations.
Open Scope R_scope.

Lemma cderiv_parts w a d r : a <> 0 -> cderiv w a d r = (- d * r, - (w / a) * r).
Proof.
  intros Ha. unfold cderiv, Ci, RtoC, Cdiv, Cinv, Cmult, Cminus, Cplus, Copp. cbn [fst snd].
  apply injective_projections; cbn [fst snd]; field; exact Ha.
Qed.
Lemma rst_parts k a r : a <> 0 -> (- Ci * RtoC k / RtoC a * RtoC r)%C = (0, - (k / a) * r).
Proof.
  intros Ha. unfold Ci, RtoC, Cdiv, Cinv, Cmult, Cminus, Cplus, Copp. cbn [fst snd].
  apply injective_projections; cbn [fst snd]; field; exact Ha.
Qed.
Lemma prod_derive (z f : R -> R) x dz df : is_derive z x dz -> is_derive f x df -> is_derive (fun s => z s * f s) x (dz * f x + z x * df).
Proof. intros Z F. evar_last; [auto_derive; [repeat split; exd|reflexivity]|]. undd. toR. ring. Qed.

Lemma pf (z : R -> R) A w c u x dzz : 0 < w -> z x <> 0 -> A <> 0 -> is_derive z x (z x * dzz) ->
  starts_from (RtoC (c / sqrt (2 * w) / z x), cderiv w A dzz (c / sqrt (2 * w) / z x)) u x ->
  positive_frequency z A w c u x.
Proof.
  intros W NZ NA DZ (E & D1 & D2). rewrite (cderiv_parts w A dzz _ NA) in D1, D2. cbn [fst snd] in E, D1, D2.
  assert (SQ : sqrt (2 * w) <> 0) by (apply Rgt_not_eq, sqrt_lt_R0; lra).
  assert (E1 : fst (u x) = c / sqrt (2 * w) / z x) by (rewrite E; reflexivity). assert (E2 : snd (u x) = 0) by (rewrite E; reflexivity).
  unfold positive_frequency. rewrite E1, E2. split; [field; split; assumption|]. split; [ring|]. split.
  - evar_last; [apply (prod_derive z (fun s => fst (u s)) x _ _ DZ D1)|]. rewrite E1. toR. ring.
  - evar_last; [apply (prod_derive z (fun s => snd (u s)) x _ _ DZ D2)|]. rewrite E2. toR. field. repeat split; assumption.
Qed.
Lemma rn (z : R -> R) A w c u x : 0 < w -> z x <> 0 -> A <> 0 ->
  starts_from (RtoC (c / sqrt (2 * w) / z x), (- Ci * RtoC w / RtoC A * RtoC (c / sqrt (2 * w) / z x))%C) u x ->
  renormalised z A w c u x.
Proof.
  intros W NZ NA (E & D1 & D2). cbn [fst snd] in E, D1, D2. rewrite rst_parts in D1, D2 by exact NA. cbn [fst snd] in D1, D2.
  assert (SQ : sqrt (2 * w) <> 0) by (apply Rgt_not_eq, sqrt_lt_R0; lra).
  assert (E1 : fst (u x) = c / sqrt (2 * w) / z x) by (rewrite E; reflexivity). assert (E2 : snd (u x) = 0) by (rewrite E; reflexivity).
  unfold renormalised. rewrite E1, E2. split; [field; split; assumption|]. split; [reflexivity|]. split; assumption.
Qed.

(** scalar and tensor modes in cosmic time: the k vacuum (frequency k) and the HD vacuum (its own frequency)
    put the canonical variable z u (a u / 2 for tensors) into the positive-frequency state; RST puts
    u' = - i k/a u instead *)
Theorem C97_scalar_time : forall K k U te y a b t (u : R -> C),
  T_background K U te y a b -> 0 < k -> a < t < b -> T_dphi te y t <> 0 ->
  let s := T_sample K U te y t in let A := exp (T_N te y t) in
  (starts_from (Ts_vac_k K k U s) u t -> positive_frequency (zvar K U te y) A k 1 u t) /\
  (Ts_HD_wk K k U s > 0 -> starts_from (Ts_vac_HD K k U s) u t -> positive_frequency (zvar K U te y) A (Ts_HD_wk K k U s) 1 u t) /\
  (starts_from (Ts_vac_RST k s) u t -> renormalised (zvar K U te y) A k 1 u t).
Proof.
  intros K k U te y a b t u B Hk Ht Np. cbv zeta. destruct (T_pos K U te y a b B t Ht) as [HP HE].
  pose proof (zvar_derive K U te y a b B t Ht Np) as DZ.
  assert (NZ : zvar K U te y t <> 0).
  { unfold zvar. apply Rmult_integral_contrapositive_currified; [apply Rmult_integral_contrapositive_currified; [apply Rgt_not_eq, exp_pos|exact Np]|apply Rinv_neq_0_compat; lra]. }
  assert (NA : exp (T_N te y t) <> 0) by apply Rgt_not_eq, exp_pos.
  assert (DZZ : T_Hub K U te y t + T_get_d2phi (T_Hub K U te y t ^ 2) (T_dphi te y t) (pdV U (T_phi te y t)) / T_dphi te y t
     - T_get_dH_H (T_N te y t) (T_Hub K U te y t ^ 2) (T_dphi te y t) K
     = T_Hub K U te y t + T_d2phi K U te y t / T_dphi te y t - T_dH K U te y t / T_Hub K U te y t).
  { unfold T_d2phi, T_dH, T_get_dH, T_get_dH_H, T_get_d2phi. change (sqrt (T_H2 K U te t (y t))) with (T_Hub K U te y t).
    rewrite sqrt_pow2 by lra. field. split; first [lra|exact Np]. }
  split; [|split].
  - intros S. apply (pf (zvar K U te y) (exp (T_N te y t)) k 1 u t _ Hk NZ NA DZ). rewrite <- DZZ. exact S.
  - intros W S. apply (pf (zvar K U te y) (exp (T_N te y t)) _ 1 u t _ W NZ NA DZ). rewrite <- DZZ. exact S.
  - intros S. apply (rn (zvar K U te y) (exp (T_N te y t)) k 1 u t Hk NZ NA). exact S.
Qed.
Theorem C97_scalar_efolds : forall K k U tt te y a b n (u : R -> C),
  N_background K U tt te y a b -> 0 < k -> a < n < b -> N_dphi tt te y n <> 0 ->
  let s := N_sample K U tt te y n in let A := exp n * N_Hub K U tt te y n in
  (starts_from (Ns_vac_k K k U s) u n -> positive_frequency (zvarN tt te y) A k 1 u n) /\
  (Ns_HD_wk K k U s > 0 -> starts_from (Ns_vac_HD K k U s) u n -> positive_frequency (zvarN tt te y) A (Ns_HD_wk K k U s) 1 u n) /\
  (starts_from (Ns_vac_RST k s) u n -> renormalised (zvarN tt te y) A k 1 u n).
Proof.
  intros K k U tt te y a b n u B Hk Hn Np. cbv zeta. destruct (N_pos K U tt te y a b B n Hn) as [HP _].
  destruct (N_comps K U tt te y a b B n Hn) as (_ & DP & _).
  assert (H2 : N_H2 K U tt te n (y n) = N_Hub K U tt te y n ^ 2).
  { unfold N_Hub. rewrite pow2_sqrt; [reflexivity|]. left. apply (proj2 B n Hn). }
  assert (DZ : is_derive (zvarN tt te y) n (zvarN tt te y n * (N_get_d2phi (N_Hub K U tt te y n ^ 2)
     (N_get_dH_H n (N_Hub K U tt te y n ^ 2) (N_dphi tt te y n) K) (N_dphi tt te y n) (pdV U (N_phi tt te y n)) / N_dphi tt te y n + 1))).
  { rewrite <- H2. change (N_get_d2phi _ _ _ _) with (N_d2phi K U tt te y n). unfold zvarN. set (p := N_dphi tt te y) in *.
    evar_last; [auto_derive; [repeat split; exd|reflexivity]|]. undd. toR. field. exact Np. }
  assert (NZ : zvarN tt te y n <> 0) by (unfold zvarN; apply Rmult_integral_contrapositive_currified; [apply Rgt_not_eq, exp_pos|exact Np]).
  assert (NA : exp n * N_Hub K U tt te y n <> 0) by (apply Rgt_not_eq, Rmult_lt_0_compat; [apply exp_pos|exact HP]).
  split; [|split].
  - intros S. apply (pf (zvarN tt te y) _ k 1 u n _ Hk NZ NA DZ). exact S.
  - intros W S. apply (pf (zvarN tt te y) _ _ 1 u n _ W NZ NA DZ). exact S.
  - intros S. apply (rn (zvarN tt te y) _ k 1 u n Hk NZ NA). exact S.
Qed.
Theorem C97_tensor_time : forall K k U te y a b t (u : R -> C),
  T_background K U te y a b -> 0 < k -> a < t < b ->
  let s := T_sample K U te y t in let A := fun x => exp (T_N te y x) in
  (starts_from (Tt_vac_k k s) u t -> positive_frequency A (A t) k 2 u t) /\
  (Tt_HD_wk K k s > 0 -> starts_from (Tt_vac_HD K k s) u t -> positive_frequency A (A t) (Tt_HD_wk K k s) 2 u t) /\
  (starts_from (Tt_vac_RST k s) u t -> renormalised A (A t) k 2 u t).
Proof.
  intros K k U te y a b t u B Hk Ht. cbv zeta. destruct (T_comps K U te y a b B t Ht) as (_ & _ & DN & _).
  assert (DZ : is_derive (fun x => exp (T_N te y x)) t (exp (T_N te y t) * T_Hub K U te y t)).
  { evar_last; [auto_derive; [repeat split; exd|reflexivity]|]. undd. toR. ring. }
  assert (NA : exp (T_N te y t) <> 0) by apply Rgt_not_eq, exp_pos.
  split; [|split].
  - intros S. apply (pf (fun x => exp (T_N te y x)) (exp (T_N te y t)) k 2 u t _ Hk NA NA DZ). exact S.
  - intros W S. apply (pf (fun x => exp (T_N te y x)) (exp (T_N te y t)) _ 2 u t _ W NA NA DZ). exact S.
  - intros S. apply (rn (fun x => exp (T_N te y x)) (exp (T_N te y t)) k 2 u t Hk NA NA). exact S.
Qed.
Theorem C97_tensor_efolds : forall K k U tt te y a b n (u : R -> C),
  N_background K U tt te y a b -> 0 < k -> a < n < b ->
  let s := N_sample K U tt te y n in let A := exp n * N_Hub K U tt te y n in
  (starts_from (Nt_vac_k k s) u n -> positive_frequency exp A k 2 u n) /\
  (Nt_HD_wk K k s > 0 -> starts_from (Nt_vac_HD K k s) u n -> positive_frequency exp A (Nt_HD_wk K k s) 2 u n) /\
  (starts_from (Nt_vac_RST k s) u n -> renormalised exp A k 2 u n).
Proof.
  intros K k U tt te y a b n u B Hk Hn. cbv zeta. destruct (N_pos K U tt te y a b B n Hn) as [HP _].
  assert (DZ : is_derive exp n (exp n * 1)) by (evar_last; [apply is_derive_exp|toR; ring]).
  assert (NZ : exp n <> 0) by apply Rgt_not_eq, exp_pos.
  assert (NA : exp n * N_Hub K U tt te y n <> 0) by (apply Rgt_not_eq, Rmult_lt_0_compat; [apply exp_pos|exact HP]).
  split; [|split].
  - intros S. apply (pf exp _ k 2 u n _ Hk NZ NA DZ). exact S.
  - intros W S. apply (pf exp _ _ 2 u n _ W NZ NA DZ). exact S.
  - intros S. apply (rn exp _ k 2 u n Hk NZ NA). exact S.
Qed.
Theorem C97_nonvacuous :
  T_background 1 (Vexp 4) true y_closed 1 3 /\ T_dphi true y_closed 2 <> 0 /\
  Ts_HD_wk 1 5 (Vexp 4) (T_sample 1 (Vexp 4) true y_closed 2) > 0 /\
  forall vac, starts_from vac (fun x => (fst (fst vac) + fst (snd vac) * (x - 2), snd (fst vac) + snd (snd vac) * (x - 2))) 2.
Proof.
  split; [exact closed_background|]. split; [rewrite closed_dphi; intros X; lra|]. split; [exact C56_time_nonvacuous|].
  intros vac. unfold starts_from. cbn [fst snd]. split; [|split].
  - destruct vac as [[r i] [dr di]]. cbn [fst snd]. apply injective_projections; cbn [fst snd]; ring.
  - evar_last; [auto_derive; [exact I|reflexivity]|]. toR. ring.
  - evar_last; [auto_derive; [exact I|reflexivity]|]. toR. ring.
Qed.
