From Coq Require Import Reals List String Lra Lia.
From Coquelicot Require Import Coquelicot.
From Verif Require Import Base Model.Potentials Model.Equations Model.Background Spec.BackgroundSpec Proofs.PhiEnd Proofs.SRN Proofs.BackgroundT Proofs.BackgroundN.
Import ListNotations.
Open Scope R_scope.

Lemma incr_on (f f' : R -> R) a b x z : (forall t, a < t < b -> is_derive f t (f' t) /\ 0 < f' t) ->
  a < x -> x < z -> z < b -> f x < f z.
Proof.
  intros D Hx Hxz Hz.
  apply (incr_function f a b f'); simpl; try assumption.
  - intros t H1 H2. apply D. split; assumption.
  - intros t H1 H2. apply D. split; assumption.
Qed.

Lemma inverse_derive (f f' tau : R -> R) a b n0 n1 :
  (forall t, a < t < b -> is_derive f t (f' t) /\ 0 < f' t) ->
  (forall n, n0 < n < n1 -> a < tau n < b /\ f (tau n) = n) ->
  forall n, n0 < n < n1 -> is_derive tau n (/ f' (tau n)).
Proof.
  intros D T n Hn. destruct (T n Hn) as [Ht Eq]. set (t := tau n) in *. destruct (D t Ht) as [Dt Pl]. set (l := f' t) in *.
  apply is_derive_Reals. intros eps Heps.
  set (e' := Rmin (l/2) (eps * (l*l) / 4)).
  assert (He' : 0 < e') by (apply Rmin_glb_lt; [lra|apply Rdiv_lt_0_compat; [pos|lra]]).
  apply is_derive_Reals in Dt. destruct (Dt e' He') as [d Hd].
  set (r := Rmin d (Rmin ((t-a)/2) ((b-t)/2))).
  assert (Hr : 0 < r) by (apply Rmin_glb_lt; [apply cond_pos|apply Rmin_glb_lt; lra]).
  assert (Hr1 : r <= d) by apply Rmin_l.
  assert (Hr2 : r <= (t-a)/2 /\ r <= (b-t)/2).
  { assert (r <= Rmin ((t-a)/2) ((b-t)/2)) by apply Rmin_r. pose proof (Rmin_l ((t-a)/2) ((b-t)/2)). pose proof (Rmin_r ((t-a)/2) ((b-t)/2)). lra. }
  assert (M1 : f (t - r) < n) by (rewrite <- Eq; apply (incr_on f f' a b); try assumption; lra).
  assert (M2 : n < f (t + r)) by (rewrite <- Eq; apply (incr_on f f' a b); try assumption; lra).
  set (k0 := Rmin (Rmin (n - f (t-r)) (f (t+r) - n)) (Rmin (n - n0) (n1 - n))).
  assert (Hk0 : 0 < k0) by (repeat apply Rmin_glb_lt; lra).
  assert (Hk : k0 <= n - f (t-r) /\ k0 <= f (t+r) - n /\ k0 <= n - n0 /\ k0 <= n1 - n).
  { unfold k0. pose proof (Rmin_l (Rmin (n - f (t-r)) (f (t+r) - n)) (Rmin (n - n0) (n1 - n))).
    pose proof (Rmin_r (Rmin (n - f (t-r)) (f (t+r) - n)) (Rmin (n - n0) (n1 - n))).
    pose proof (Rmin_l (n - f (t-r)) (f (t+r) - n)). pose proof (Rmin_r (n - f (t-r)) (f (t+r) - n)).
    pose proof (Rmin_l (n - n0) (n1 - n)). pose proof (Rmin_r (n - n0) (n1 - n)). lra. }
  exists (mkposreal k0 Hk0). intros k Hk1 Hk2. simpl in Hk2. apply Rabs_lt_between in Hk2.
  assert (Hnk : n0 < n + k < n1) by lra. destruct (T (n+k) Hnk) as [Ht' Eq'].
  set (h := tau (n+k) - t). assert (Eh : tau (n+k) = t + h) by (unfold h; ring). rewrite Eh in Ht', Eq'.
  assert (Hh0 : h <> 0) by (intros C; rewrite C, Rplus_0_r in Eq'; lra).
  assert (Hh1 : - r < h < r).
  { split; apply Rnot_le_lt; intros C.
    - assert (f (t+h) <= f (t-r)); [|lra]. destruct C as [C|C]; [left; apply (incr_on f f' a b); try assumption; lra|right; f_equal; lra].
    - assert (f (t+r) <= f (t+h)); [|lra]. destruct C as [C|C]; [left; apply (incr_on f f' a b); try assumption; lra|right; f_equal; lra]. }
  assert (Hq : Rabs ((f (t+h) - f t)/h - l) < e') by (apply Hd; [exact Hh0|apply Rabs_lt_between; lra]).
  rewrite Eq', Eq in Hq. replace (n + k - n) with k in Hq by ring. rewrite Eh. change (tau n) with t. replace (t + h - t) with h by ring.
  set (q := k/h) in *. assert (Ek : k = q * h) by (unfold q; field; exact Hh0).
  assert (E1 : e' <= l/2) by apply Rmin_l. assert (E2 : e' <= eps * (l*l) / 4) by apply Rmin_r.
  apply Rabs_lt_between in Hq. assert (Hq2 : l/2 < q) by lra.
  rewrite Ek. replace (h / (q*h) - / l) with ((l - q) / (q * l)) by (field; lra).
  unfold Rdiv. rewrite Rabs_mult, (Rabs_pos_eq (/ (q*l))) by (left; apply Rinv_0_lt_compat; apply Rmult_lt_0_compat; lra).
  apply Rmult_lt_reg_r with (q*l); [apply Rmult_lt_0_compat; lra|].
  rewrite Rmult_assoc, Rinv_l, Rmult_1_r by (apply Rgt_not_eq, Rmult_lt_0_compat; lra).
  assert (Rabs (l-q) < e') by (apply Rabs_lt_between; lra).
  assert (eps * (l*l) / 4 < eps * (q*l)); [|lra].
  assert (l*l/2 < q * l) by nra. assert (eps * (l*l/2) < eps * (q*l)) by (apply Rmult_lt_compat_l; lra). nra.
Qed.

Lemma TN_H2 N p V K : 0 < T_get_H2 N p V K -> V <> 3 * K * exp (-2*N) ->
  N_get_H2 N (p / sqrt (T_get_H2 N p V K)) V K = T_get_H2 N p V K /\ (p / sqrt (T_get_H2 N p V K))^2 <> 6.
Proof.
  intros HP HV. set (h2 := T_get_H2 N p V K) in *. assert (S : sqrt h2 * sqrt h2 = h2) by (apply sqrt_sqrt; lra).
  assert (0 < sqrt h2) by (apply sqrt_lt_R0; exact HP).
  assert (Eq : (p / sqrt h2)^2 = p^2 / h2) by (rewrite <- S at 2; field; lra).
  assert (E6 : 6 * h2 - p^2 = 2 * V - 6 * K * exp (-2*N)) by (unfold h2, T_get_H2; field).
  assert (Hne : 2 * V - 6 * K * exp (-2*N) <> 0) by lra.
  split.
  - unfold N_get_H2. rewrite Eq. replace (6 - p^2/h2) with ((6*h2 - p^2)/h2) by (field; lra). rewrite E6. field. split; lra.
  - rewrite Eq. intros C. apply Hne. rewrite <- E6. assert (p^2 = 6 * h2); [|lra]. rewrite <- C. field. lra.
Qed.

Lemma var_T2N_phi K U tt te t y : var (N_idx tt te) "phi" (state_T2N K U tt te t y) = var (T_idx te) "phi" y.
Proof. destruct tt, te; reflexivity. Qed.
Lemma var_T2N_dphi K U tt te t y : var (N_idx tt te) "dphidN" (state_T2N K U tt te t y) = var (T_idx te) "dphidt" y / sqrt (T_H2 K U te t y).
Proof. destruct tt, te; reflexivity. Qed.
Lemma T2N_obs K U tt te t y : 0 < T_H2 K U te t y ->
  pV U (var (T_idx te) "phi" y) <> 3 * K * exp (-2 * var (T_idx te) "_N" y) ->
  let n := var (T_idx te) "_N" y in let z := state_T2N K U tt te t y in
  N_H2 K U tt te n z = T_H2 K U te t y /\ N_w K U tt te n z = T_w U te t y /\ N_inflating K U tt te n z = T_inflating U te t y.
Proof.
  intros HP HV n z. destruct (TN_H2 _ _ _ _ HP HV) as [E _].
  assert (EH : N_H2 K U tt te n z = T_H2 K U te t y) by (unfold N_H2, z; rewrite var_T2N_phi, var_T2N_dphi; exact E).
  split; [exact EH|]. unfold N_w, N_inflating. rewrite EH. unfold z. rewrite var_T2N_phi, var_T2N_dphi.
  assert (Es : T_H2 K U te t y * (var (T_idx te) "dphidt" y / sqrt (T_H2 K U te t y)) ^ 2 = (var (T_idx te) "dphidt" y)^2).
  { pose proof (sqrt_sqrt _ (Rlt_le _ _ HP)) as S. assert (0 < sqrt (T_H2 K U te t y)) by (apply sqrt_lt_R0; exact HP).
    rewrite <- S at 1. field. lra. }
  rewrite Es. split; reflexivity.
Qed.

Lemma T2N_solution K U tt te y a b tau n0 n1 :
  T_background K U te y a b ->
  (forall t, a < t < b -> pV U (T_phi te y t) <> 3 * K * exp (-2 * T_N te y t)) ->
  (forall n, n0 < n < n1 -> a < tau n < b /\ T_N te y (tau n) = n) ->
  N_background K U tt te (fun n => state_T2N K U tt te (tau n) (y (tau n))) n0 n1.
Proof.
  intros B HV HT.
  assert (DT : forall n, n0 < n < n1 -> is_derive tau n (/ T_Hub K U te y (tau n))).
  { apply (inverse_derive (T_N te y) (T_Hub K U te y) tau a b n0 n1); [|exact HT].
    intros t Ht. split; [apply (T_comps K U te y a b B t Ht)|apply (T_pos K U te y a b B t Ht)]. }
  assert (OBS : forall n, n0 < n < n1 -> N_H2 K U tt te n (state_T2N K U tt te (tau n) (y (tau n))) = T_H2 K U te (tau n) (y (tau n))).
  { intros n Hn. destruct (HT n Hn) as [Ht En]. destruct B as [_ Q]. destruct (Q _ Ht) as [HP _].
    pose proof (T2N_obs K U tt te (tau n) (y (tau n)) HP (HV _ Ht)) as [E _]. unfold T_N in En. rewrite En in E. exact E. }
  split.
  - intros n Hn. destruct (HT n Hn) as [Ht En]. pose proof (DT n Hn) as Dn. pose proof (OBS n Hn) as EO.
    destruct (T_comps K U te y a b B _ Ht) as [D1 [D2 [D3 D4]]]. destruct (T_pos K U te y a b B _ Ht) as [HP _].
    pose proof (T_H_derive K U te y a b B _ Ht) as DH.
    set (H := T_Hub K U te y) in *. set (p := T_dphi te y) in *. set (f := T_phi te y) in *.
    assert (C1 : is_derive (fun s => f (tau s)) n (p (tau n) / H (tau n))).
    { evar_last; [auto_derive; [repeat split; exd|reflexivity]|]. undd. toR. field. lra. }
    assert (C2 : is_derive (fun s => p (tau s) / H (tau s)) n
       (N_get_d2phi (T_H2 K U te (tau n) (y (tau n))) (N_get_dH_H n (T_H2 K U te (tau n) (y (tau n))) (p (tau n)/H (tau n)) K) (p (tau n)/H (tau n)) (pdV U (f (tau n))))).
    { assert (EH2 : T_H2 K U te (tau n) (y (tau n)) = H (tau n) ^ 2).
      { unfold H, T_Hub. simpl. rewrite Rmult_1_r, sqrt_sqrt; [reflexivity|]. destruct B as [_ Q]; left; apply (Q _ Ht). }
      rewrite EH2. set (q := T_d2phi K U te y) in *. set (dh := T_dH K U te y) in *.
      evar_last; [auto_derive; [repeat split; try exd; lra|reflexivity]|]. undd.
      unfold q, dh. rewrite T_d2phi_eq. unfold T_dH, T_get_dH, N_get_d2phi, N_get_dH_H. rewrite En. fold H p f. toR. simpl. field. lra. }
    assert (C3 : is_derive (fun s => tau s) n (1 / sqrt (T_H2 K U te (tau n) (y (tau n))))).
    { apply is_derive_eq with (/ H (tau n)); [exact Dn|]. unfold Rdiv. rewrite Rmult_1_l. reflexivity. }
    assert (C4 : te = true -> is_derive (fun s => T_eta te y (tau s)) n (exp (- n) / sqrt (T_H2 K U te (tau n) (y (tau n))))).
    { intros E. specialize (D4 E). rewrite En in D4. set (et := T_eta te y) in *.
      change (sqrt (T_H2 K U te (tau n) (y (tau n)))) with (H (tau n)).
      clear C1 C2 C3. evar_last; [auto_derive; [repeat split; exd|reflexivity]|]. undd. toR. field. lra. }
    split; [destruct tt, te; reflexivity|].
    intros i Hi.
    unfold N_call. rewrite EO, var_T2N_phi, var_T2N_dphi.
    destruct tt, te; cbn in Hi;
    destruct i as [|[|[|[|i]]]]; try lia; try exact C1; try exact C2; try exact C3; exact (C4 eq_refl).
  - intros n Hn. destruct (HT n Hn) as [Ht En]. rewrite (OBS n Hn). destruct B as [_ Q]. destruct (Q _ Ht) as [HP HS].
    split; [exact HP|]. unfold N_dphi, N_phi. rewrite var_T2N_phi, var_T2N_dphi. split; [|exact HS].
    apply (TN_H2 _ _ _ _ HP (HV _ Ht)).
Qed.

(** the other direction *)
Lemma var_N2T_phi K U tt te t y : var (T_idx te) "phi" (state_N2T K U tt te t y) = var (N_idx tt te) "phi" y.
Proof. destruct te; reflexivity. Qed.
Lemma var_N2T_dphi K U tt te t y : var (T_idx te) "dphidt" (state_N2T K U tt te t y) = var (N_idx tt te) "dphidN" y * sqrt (N_H2 K U tt te t y).
Proof. destruct te; reflexivity. Qed.
Lemma var_N2T_N K U tt te t y : var (T_idx te) "_N" (state_N2T K U tt te t y) = t.
Proof. destruct te; reflexivity. Qed.
Lemma N2T_obs K U tt te t n y : 0 < N_H2 K U tt te n y -> (var (N_idx tt te) "dphidN" y)^2 <> 6 ->
  let z := state_N2T K U tt te n y in
  T_H2 K U te t z = N_H2 K U tt te n y /\ T_w U te t z = N_w K U tt te n y /\ T_inflating U te t z = N_inflating K U tt te n y.
Proof.
  intros HP H6 z. pose proof (sqrt_sqrt _ (Rlt_le _ _ HP)) as S.
  assert (Es : (var (N_idx tt te) "dphidN" y * sqrt (N_H2 K U tt te n y))^2 = N_H2 K U tt te n y * (var (N_idx tt te) "dphidN" y)^2).
  { rewrite <- S at 2. ring. }
  split; [|split].
  - unfold T_H2, T_get_H2, z. rewrite var_N2T_N, var_N2T_phi, var_N2T_dphi. rewrite Es.
    unfold N_H2, N_get_H2. field. lra.
  - unfold T_w, N_w, z. rewrite var_N2T_phi, var_N2T_dphi, Es. reflexivity.
  - unfold T_inflating, N_inflating, z. rewrite var_N2T_phi, var_N2T_dphi, Es. reflexivity.
Qed.
Lemma N2T_solution K U tt te y a b nu t0 t1 :
  N_background K U tt te y a b ->
  (forall t, t0 < t < t1 -> a < nu t < b /\ is_derive nu t (N_Hub K U tt te y (nu t))) ->
  T_background K U te (fun t => state_N2T K U tt te (nu t) (y (nu t))) t0 t1.
Proof.
  intros B HT.
  assert (OBS : forall t, t0 < t < t1 -> T_H2 K U te t (state_N2T K U tt te (nu t) (y (nu t))) = N_H2 K U tt te (nu t) (y (nu t))).
  { intros t Ht. destruct (HT t Ht) as [Hn _]. destruct B as [_ Q]. destruct (Q _ Hn) as [HP [H6 _]].
    apply (N2T_obs K U tt te t (nu t) (y (nu t)) HP H6). }
  split.
  - intros t Ht. destruct (HT t Ht) as [Hn Dn]. pose proof (OBS t Ht) as EO.
    destruct (N_comps K U tt te y a b B _ Hn) as [D1 [D2 [_ D4]]]. destruct (N_pos K U tt te y a b B _ Hn) as [HP _].
    pose proof (N_H_derive K U tt te y a b B _ Hn) as DH. pose proof (N_d2phi_eq K U tt te y a b B _ Hn) as E2.
    set (H := N_Hub K U tt te y) in *. set (p := N_dphi tt te y) in *. set (f := N_phi tt te y) in *.
    assert (EH2 : N_H2 K U tt te (nu t) (y (nu t)) = H (nu t) ^ 2).
    { unfold H, N_Hub. simpl. rewrite Rmult_1_r, sqrt_sqrt; [reflexivity|]. destruct B as [_ Q]; left; apply (Q _ Hn). }
    assert (C1 : is_derive (fun s => f (nu s)) t (p (nu t) * H (nu t))).
    { evar_last; [auto_derive; [repeat split; exd|reflexivity]|]. undd. toR. ring. }
    assert (C2 : is_derive (fun s => p (nu s) * H (nu s)) t
       (T_get_d2phi (N_H2 K U tt te (nu t) (y (nu t))) (p (nu t) * H (nu t)) (pdV U (f (nu t))))).
    { set (q := N_d2phi K U tt te y) in *. set (dh := N_dH K U tt te y) in *.
      evar_last; [auto_derive; [repeat split; exd|reflexivity]|]. undd.
      unfold T_get_d2phi. change (sqrt (N_H2 K U tt te (nu t) (y (nu t)))) with (H (nu t)).
      rewrite E2. toR. simpl. field. lra. }
    assert (C4 : te = true -> is_derive (fun s => N_eta tt te y (nu s)) t (exp (- nu t))).
    { intros E. specialize (D4 E). set (et := N_eta tt te y) in *.
      evar_last; [auto_derive; [repeat split; exd|reflexivity]|]. undd. toR. field. lra. }
    split; [destruct te; reflexivity|].
    intros i Hi. unfold T_call. rewrite EO, var_N2T_phi, var_N2T_dphi, var_N2T_N.
    destruct te; cbn in Hi;
    destruct i as [|[|[|[|i]]]]; try lia; try exact C1; try exact C2; try exact Dn; exact (C4 eq_refl).
  - intros t Ht. destruct (HT t Ht) as [Hn _]. rewrite (OBS t Ht). destruct B as [_ Q]. destruct (Q _ Hn) as [HP [_ HS]].
    split; [exact HP|]. unfold T_phi. rewrite var_N2T_phi. exact HS.
Qed.
