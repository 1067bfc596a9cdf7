(** C99: the Hubble-flow numbers that enter the approximate spectra are those of the solution. *)
From Coq Require Import Reals List String Lra Lia.
From Coquelicot Require Import Coquelicot.
From Verif Require Import Base Model.Potentials Model.Equations Model.Background Model.Float Model.Solution Model.Interp Model.State Model.ApproxPower
  Spec.PotentialSpec Spec.BackgroundSpec Spec.FlowSpec Proofs.BackgroundT Proofs.BackgroundN Proofs.BackgroundTN Proofs.BackgroundEx Proofs.Flow
  Properties.BackgroundProps.
Import ListNotations.
Open Scope R_scope.

(** what the code computes from the sample (N, H, phi, phi') of a solution at t *)
Definition T_flow K U te y (t : R) : flow := flow_of (mkaeqs AT K U) K (T_N te y t) (T_Hub K U te y t) (T_phi te y t) (T_dphi te y t).
Definition N_flow K U tt te y (n : R) : flow := flow_of (mkaeqs AN K U) K n (N_Hub K U tt te y n) (N_phi tt te y n) (N_dphi tt te y n).

Lemma T_Hub_sq K U te y a b t : T_background K U te y a b -> a < t < b -> T_Hub K U te y t ^ 2 = T_H2 K U te t (y t).
Proof. intros B I. unfold T_Hub. apply pow2_sqrt. apply Rlt_le, B, I. Qed.
Lemma N_Hub_sq K U tt te y a b t : N_background K U tt te y a b -> a < t < b -> N_Hub K U tt te y t ^ 2 = N_H2 K U tt te t (y t).
Proof. intros B I. unfold N_Hub. apply pow2_sqrt. apply Rlt_le, B, I. Qed.

(** successive d/dt = H d/dN of dphi/dt = H dphi/dN *)
Lemma N_chain (H h1 h2 h3 p q1 q2 q3 : R -> R) n :
  is_derive H n (h1 n) -> is_derive h1 n (h2 n) -> is_derive h2 n (h3 n) ->
  is_derive p n (q1 n) -> is_derive q1 n (q2 n) -> is_derive q2 n (q3 n) ->
  let v1 := fun s => H s * p s in
  let v2 := fun s => H s * (h1 s * p s + H s * q1 s) in
  let v3 := fun s => H s * (h1 s * (h1 s * p s + H s * q1 s) + H s * (h2 s * p s + 2 * h1 s * q1 s + H s * q2 s)) in
  is_derive v1 n (h1 n * p n + H n * q1 n) /\
  is_derive v2 n (h1 n * (h1 n * p n + H n * q1 n) + H n * (h2 n * p n + 2 * h1 n * q1 n + H n * q2 n)) /\
  is_derive v3 n
   (h1 n * (h1 n * (h1 n * p n + H n * q1 n) + H n * (h2 n * p n + 2 * h1 n * q1 n + H n * q2 n))
    + H n * (h2 n * (h1 n * p n + H n * q1 n) + h1 n * (h2 n * p n + 2 * h1 n * q1 n + H n * q2 n)
             + h1 n * (h2 n * p n + 2 * h1 n * q1 n + H n * q2 n)
             + H n * (h3 n * p n + 3 * h2 n * q1 n + 3 * h1 n * q2 n + H n * q3 n))).
Proof.
  intros DH DH1 DH2 DP DQ1 DQ2 v1 v2 v3. unfold v1, v2, v3.
  assert (ex_derive H n) by (eexists; exact DH). assert (ex_derive h1 n) by (eexists; exact DH1). assert (ex_derive h2 n) by (eexists; exact DH2).
  assert (ex_derive p n) by (eexists; exact DP). assert (ex_derive q1 n) by (eexists; exact DQ1). assert (ex_derive q2 n) by (eexists; exact DQ2).
  split; [|split]; (auto_derive; [repeat split; auto|]);
    change (Derive (fun x : R => H x) n) with (Derive H n); change (Derive (fun x : R => h1 x) n) with (Derive h1 n);
    change (Derive (fun x : R => h2 x) n) with (Derive h2 n); change (Derive (fun x : R => p x) n) with (Derive p n);
    change (Derive (fun x : R => q1 x) n) with (Derive q1 n); change (Derive (fun x : R => q2 x) n) with (Derive q2 n);
    rewrite ?(is_derive_unique _ _ _ DH), ?(is_derive_unique _ _ _ DH1), ?(is_derive_unique _ _ _ DH2), ?(is_derive_unique _ _ _ DP), ?(is_derive_unique _ _ _ DQ1), ?(is_derive_unique _ _ _ DQ2); ring.
Qed.
Theorem C99_efolds : forall K U tt te y a b n, N_background K U tt te y a b -> a < n < b ->
  let H := N_Hub K U tt te y in let f := N_flow K U tt te y in let v := fun s => H s * N_dphi tt te y s in
  0 < H n /\
  is_derive (fun s => ln (H s)) n (- fe1 (f n)) /\
  (fe1 (f n) <> 0 -> is_derive (fun s => fe1 (f s)) n (fe1 (f n) * fe2 (f n))) /\
  (fe1 (f n) <> 0 -> fe2 (f n) <> 0 -> is_derive (fun s => fe2 (f s)) n (fe2 (f n) * fe3 (f n))) /\
  is_derive (fun s => fe1 (f s)) n (fg2 (f n)) /\ is_derive (fun s => fg2 (f s) * H s) n (fg3 (f n) * H n) /\
  (N_dphi tt te y n <> 0 ->
     is_derive v n (fd1 (f n) * v n) /\ is_derive (fun s => fd1 (f s) * H s * v s) n (fd2 (f n) * H n * v n) /\
     is_derive (fun s => fd2 (f s) * H s ^ 2 * v s) n (fd3 (f n) * H n ^ 2 * v n)).
Proof.
  intros K U tt te y a b n B I H f v.
  assert (D := fun s J => C16_efold_derivatives K U tt te y a b s B J). cbv zeta in D.
  assert (HP : forall s, a < s < b -> 0 < H s) by (intros s J; unfold H, N_Hub; apply sqrt_lt_R0, B, J).
  assert (CH : chain3 H (N_dH K U tt te y) (N_d2H K U tt te y) (N_d3H K U tt te y) a b).
  { intros s J. destruct (D s J) as (_ & _ & _ & _ & _ & D1 & _ & D2 & D3 & _). auto. }
  destruct (C18_efolds _ _ _ _ a b CH HP n I) as (E1 & E2 & E3 & E4 & E5). cbv zeta in E1, E2, E3, E4, E5.
  assert (LOC : locally n (fun s => a < s < b)) by (apply (open_and _ _ (open_gt a) (open_lt b)); exact I).
  assert (F : forall s, a < s < b -> f s = mkflow (N_get_epsilon_1H (H s) (N_dH K U tt te y s))
      (N_get_epsilon_2H Standard (H s) (N_dH K U tt te y s) (N_d2H K U tt te y s))
      (N_get_epsilon_3H Standard (H s) (N_dH K U tt te y s) (N_d2H K U tt te y s) (N_d3H K U tt te y s))
      (N_get_delta_1 (H s) (N_dH K U tt te y s) (N_dphi tt te y s) (N_d2phi K U tt te y s))
      (N_get_delta_2 (H s) (N_dH K U tt te y s) (N_d2H K U tt te y s) (N_dphi tt te y s) (N_d2phi K U tt te y s) (N_d3phi K U tt te y s))
      (N_get_delta_3 (H s) (N_dH K U tt te y s) (N_d2H K U tt te y s) (N_d3H K U tt te y s) (N_dphi tt te y s) (N_d2phi K U tt te y s) (N_d3phi K U tt te y s) (N_d4phi K U tt te y s))
      (N_get_epsilon_2H Gong (H s) (N_dH K U tt te y s) (N_d2H K U tt te y s))
      (N_get_epsilon_3H Gong (H s) (N_dH K U tt te y s) (N_d2H K U tt te y s) (N_d3H K U tt te y s))).
  { intros s J. unfold f, N_flow, flow_of. cbn [a_kind a_U]. cbv zeta.
    rewrite (N_Hub_sq K U tt te y a b s B J). reflexivity. }
  assert (EX : forall (g h : R -> R) l, (forall s, a < s < b -> g s = h s) -> is_derive h n l -> is_derive g n l).
  { intros g h l EQ DH. apply (is_derive_ext_loc h); [|exact DH]. apply (filter_imp _ _ (fun s J => eq_sym (EQ s J)) LOC). }
  rewrite (F n I). cbn [fe1 fe2 fe3 fd1 fd2 fd3 fg2 fg3].
  assert (NZ : N_get_epsilon_1H (H n) (N_dH K U tt te y n) <> 0 -> N_dH K U tt te y n <> 0).
  { intros X Y. apply X. unfold N_get_epsilon_1H. rewrite Y. unfold Rdiv. ring. }
  split; [exact (HP n I)|]. split; [exact E1|].
  split. { intros X. eapply EX; [|exact (E2 (NZ X))]. intros s J. rewrite (F s J). reflexivity. }
  split. { intros X Y. eapply EX; [|exact (E3 (NZ X) Y)]. intros s J. rewrite (F s J). reflexivity. }
  split. { eapply EX; [|exact E4]. intros s J. rewrite (F s J). reflexivity. }
  split. { eapply EX; [|evar_last; [exact E5|]]. - intros s J. rewrite (F s J). reflexivity. - pose proof (HP n I). toR. field. lra. }
  intros NP. destruct (D n I) as (_ & DP & DP2 & DP3 & DP4 & DH & _ & DH2 & DH3 & _).
  pose proof (HP n I) as Hn.
  assert (PN : locally n (fun s => N_dphi tt te y s <> 0)).
  { assert (CT : continuous (N_dphi tt te y) n) by (apply (ex_derive_continuous (N_dphi tt te y)); eexists; exact DP2).
    exact (CT (fun x => x <> 0) (open_neq 0 _ NP)). }
  assert (LOC2 : locally n (fun s => (a < s < b) /\ N_dphi tt te y s <> 0)) by (apply filter_and; assumption).
  assert (EX2 : forall (g h : R -> R) l, (forall s, a < s < b -> N_dphi tt te y s <> 0 -> g s = h s) -> is_derive h n l -> is_derive g n l).
  { intros g h l EQ DH'. apply (is_derive_ext_loc h); [|exact DH']. apply (filter_imp _ _ (fun s J => eq_sym (EQ s (proj1 J) (proj2 J))) LOC2). }
  destruct (N_chain H _ _ _ _ _ _ _ n DH DH2 DH3 DP2 DP3 DP4) as (X1 & X2 & X3).
  split; [|split].
  - unfold v. evar_last; [exact X1|]. unfold N_get_delta_1. fold H. toR. field. lra.
  - eapply EX2; [|evar_last; [exact X2|]].
    + intros s J NJ. rewrite (F s J). cbn [fd1]. unfold v, N_get_delta_1. pose proof (HP s J). field. lra.
    + unfold v, N_get_delta_2. fold H. toR. field. lra.
  - eapply EX2; [|evar_last; [exact X3|]].
    + intros s J NJ. rewrite (F s J). cbn [fd2]. unfold v, N_get_delta_2. pose proof (HP s J). field. lra.
    + unfold v, N_get_delta_3. fold H. toR. field. lra.
Qed.

Theorem C99_time : forall K U te y a b t, T_background K U te y a b -> a < t < b ->
  let H := T_Hub K U te y in let f := T_flow K U te y in let v := T_dphi te y in
  0 < H t /\
  is_derive (fun s => ln (H s)) t (- fe1 (f t) * H t) /\
  (fe1 (f t) <> 0 -> is_derive (fun s => fe1 (f s)) t (fe1 (f t) * fe2 (f t) * H t)) /\
  is_derive (fun s => fe1 (f s)) t (fg2 (f t) * H t) /\
  (v t <> 0 -> is_derive v t (fd1 (f t) * H t * v t)) /\
  (** the second derivative is wrong in curved universes by the curvature density *)
  (v t <> 0 -> is_derive (fun s => fd1 (f s) * H s * v s) t ((fd2 (f t) - 3 * K * exp (-2 * T_N te y t) / H t ^ 2) * H t ^ 2 * v t)) /\
  (K = 0 ->
    (fe1 (f t) <> 0 -> fe2 (f t) <> 0 -> is_derive (fun s => fe2 (f s)) t (fe2 (f t) * fe3 (f t) * H t)) /\
    is_derive (fun s => fg2 (f s) * H s) t (fg3 (f t) * H t ^ 2) /\
    (v t <> 0 -> is_derive (fun s => fd2 (f s) * H s ^ 2 * v s) t (fd3 (f t) * H t ^ 3 * v t))).
Proof.
  intros K U te y a b t B I H f v.
  assert (HP : forall s, a < s < b -> 0 < H s) by (intros s J; unfold H, T_Hub; apply sqrt_lt_R0, B, J).
  destruct (C13_friedmann K U te) as [_ D13]. assert (D13' := fun s J => D13 y a b s B J). clear D13.
  assert (D15 := fun s J => C15_partial K U te y a b s B J).
  set (d3 := fun s => T_d3phi K U te y s - 3 * K * exp (-2 * T_N te y s) * T_dphi te y s).
  assert (D14 := C14_time_derivatives K U te y a b d3 B (fun s J => proj1 (D15 s J))). cbv zeta in D14.
  set (d3H := fun s => T_get_d3H (T_N te y s) (H s) (T_dH K U te y s) (T_d2H K U te y s) (v s) (T_d2phi K U te y s) (d3 s) K).
  assert (CH : chain3 H (T_dH K U te y) (T_d2H K U te y) d3H a b).
  { intros s J. destruct (D13' s J) as (_ & _ & _ & X1 & _). destruct (D14 s J) as (_ & X2 & X3 & _). split; [exact X1|]. split; [exact X2|exact X3]. }
  destruct (C18_time _ _ _ _ a b CH HP t I) as (E1 & E2 & E3 & E4 & E5). cbv zeta in E1, E2, E3, E4, E5.
  assert (LOC : locally t (fun s => a < s < b)) by (apply (open_and _ _ (open_gt a) (open_lt b)); exact I).
  assert (F : forall s, a < s < b -> f s = mkflow (T_get_epsilon_1H (H s) (T_dH K U te y s))
      (T_get_epsilon_2H Standard (H s) (T_dH K U te y s) (T_d2H K U te y s))
      (T_get_epsilon_3H Standard (H s) (T_dH K U te y s) (T_d2H K U te y s) (T_get_d3H (T_N te y s) (H s) (T_dH K U te y s) (T_d2H K U te y s) (v s) (T_d2phi K U te y s) (T_d3phi K U te y s) K))
      (T_get_delta_1 (H s) (T_dH K U te y s) (v s) (T_d2phi K U te y s))
      (T_get_delta_2 (H s) (T_dH K U te y s) (T_d2H K U te y s) (v s) (T_d2phi K U te y s) (T_d3phi K U te y s))
      (T_get_delta_3 (H s) (T_dH K U te y s) (T_d2H K U te y s) (T_get_d3H (T_N te y s) (H s) (T_dH K U te y s) (T_d2H K U te y s) (v s) (T_d2phi K U te y s) (T_d3phi K U te y s) K) (v s) (T_d2phi K U te y s) (T_d3phi K U te y s)
         (T_get_d4phi (H s) (T_dH K U te y s) (T_d2H K U te y s) (T_get_d3H (T_N te y s) (H s) (T_dH K U te y s) (T_d2H K U te y s) (v s) (T_d2phi K U te y s) (T_d3phi K U te y s) K) (v s) (T_d2phi K U te y s) (T_d3phi K U te y s)
           (pdV U (T_phi te y s)) (pd2V U (T_phi te y s)) (pd3V U (T_phi te y s))))
      (T_get_epsilon_2H Gong (H s) (T_dH K U te y s) (T_d2H K U te y s))
      (T_get_epsilon_3H Gong (H s) (T_dH K U te y s) (T_d2H K U te y s) (T_get_d3H (T_N te y s) (H s) (T_dH K U te y s) (T_d2H K U te y s) (v s) (T_d2phi K U te y s) (T_d3phi K U te y s) K))).
  { intros s J. unfold f, T_flow, flow_of. cbn [a_kind a_U]. cbv zeta.
    rewrite (T_Hub_sq K U te y a b s B J). reflexivity. }
  assert (EX : forall (g h : R -> R) l, (forall s, a < s < b -> g s = h s) -> is_derive h t l -> is_derive g t l).
  { intros g h l EQ DH. apply (is_derive_ext_loc h); [|exact DH]. apply (filter_imp _ _ (fun s J => eq_sym (EQ s J)) LOC). }
  rewrite (F t I). cbn [fe1 fe2 fe3 fd1 fd2 fd3 fg2 fg3].
  assert (NZ : T_get_epsilon_1H (H t) (T_dH K U te y t) <> 0 -> T_dH K U te y t <> 0).
  { intros X Y. apply X. unfold T_get_epsilon_1H. rewrite Y. unfold Rdiv. ring. }
  pose proof (HP t I) as Hn. destruct (D14 t I) as (DP2 & _ & _ & DP4). destruct (D15 t I) as [DP3 DP3'].
  split; [exact Hn|]. split; [exact E1|].
  split. { intros X. eapply EX; [|exact (E2 (NZ X))]. intros s J. rewrite (F s J). reflexivity. }
  split. { eapply EX; [|exact E4]. intros s J. rewrite (F s J). reflexivity. }
  assert (PN : v t <> 0 -> locally t (fun s => v s <> 0)).
  { intros NP. assert (CT : continuous v t) by (apply (ex_derive_continuous v); eexists; exact DP2).
    exact (CT (fun x => x <> 0) (open_neq 0 _ NP)). }
  assert (EX2 : v t <> 0 -> forall (g h : R -> R) l, (forall s, a < s < b -> v s <> 0 -> g s = h s) -> is_derive h t l -> is_derive g t l).
  { intros NP g h l EQ DH'. apply (is_derive_ext_loc h); [|exact DH']. apply (filter_imp _ _ (fun s J => eq_sym (EQ s (proj1 J) (proj2 J))) (filter_and _ _ LOC (PN NP))). }
  split. { intros NP. evar_last; [exact DP2|]. unfold T_get_delta_1, T_d2phi. fold (v t). toR. field. lra. }
  split. { intros NP. eapply (EX2 NP); [|evar_last; [exact DP3|]].
    - intros s J NJ. rewrite (F s J). cbn [fd1]. unfold T_get_delta_1. pose proof (HP s J). field. lra.
    - unfold T_get_delta_2. fold (v t). toR. field. lra. }
  intros K0.
  assert (Q : forall s, d3 s = T_d3phi K U te y s) by (intros s; unfold d3; rewrite K0; ring).
  split. { intros X Y. eapply EX; [|evar_last; [exact (E3 (NZ X) Y)|]]. - intros s J. rewrite (F s J). reflexivity. - unfold d3H. rewrite (Q t). reflexivity. }
  split. { eapply EX; [|evar_last; [exact E5|]]. - intros s J. rewrite (F s J). reflexivity. - unfold d3H. rewrite (Q t). reflexivity. }
  intros NP. eapply (EX2 NP); [|evar_last; [exact DP4|]].
  - intros s J NJ. rewrite (F s J). cbn [fd2]. unfold T_get_delta_2. pose proof (HP s J). rewrite (Q s). field. lra.
  - rewrite (Q t). unfold T_get_delta_3. fold (v t). fold (H t).
    match goal with |- _ = ?x / _ * _ * _ => match goal with |- ?z = _ => change z with x end end.
    toR. field. lra.
Qed.

(** the same numbers in both time variables, in flat space; in curved space the first-order ones *)
Theorem C99_same_numbers : forall U N H phi p, 0 < H -> p <> 0 ->
  (forall K, let f := flow_of (mkaeqs AT K U) K N H phi (H * p) in let g := flow_of (mkaeqs AN K U) K N H phi p in
     fe1 f = fe1 g /\ fd1 f = fd1 g /\ fg2 f = fg2 g /\ (fe1 f <> 0 -> fe2 f = fe2 g)) /\
  (fe2 (flow_of (mkaeqs AN 0 U) 0 N H phi p) <> 0 -> flow_of (mkaeqs AT 0 U) 0 N H phi (H * p) = flow_of (mkaeqs AN 0 U) 0 N H phi p).
Proof.
  intros U N H phi p HH Hp. split.
  - intros K f g. unfold f, g, flow_of. cbn [a_kind a_U fe1 fe2 fd1 fg2].
    assert (SQ : sqrt (H^2) = H) by (apply sqrt_pow2; lra).
    unfold T_get_epsilon_1H, N_get_epsilon_1H, T_get_delta_1, N_get_delta_1, T_get_epsilon_2H, N_get_epsilon_2H, T_get_d2H, N_get_d2H, T_get_d2phi, N_get_d2phi, T_get_dH, N_get_dH, N_get_dH_H. rewrite SQ.
    generalize (exp (-2 * N)). intros E. split; [field; lra|]. split; [field; lra|]. split; [field; lra|].
    intros NE. field. repeat split; try lra.
    intros X. apply NE. replace (- (- (H * p) ^ 2 / 2 + K * E) / H ^ 2) with (- (- p ^ 2 * H * H + K * E * 2) / (2 * H^2)) by (field; lra).
    rewrite X. field. lra.
  - unfold flow_of. cbn [a_kind a_U fe2]. intros NE.
    assert (SQ : sqrt (H^2) = H) by (apply sqrt_pow2; lra).
    set (dV := pdV U phi) in *. set (d2V := pd2V U phi) in *. set (d3V := pd3V U phi) in *. clearbody dV d2V d3V.
    set (q1 := N_get_d2phi (H ^ 2) (N_get_dH_H N (H ^ 2) p 0) p dV) in *.
    assert (EV : dV = - H^2 * (q1 + (3 - p^2/2) * p)). { unfold q1, N_get_d2phi, N_get_dH_H. field. lra. }
    clearbody q1. subst dV.
    assert (ET1 : T_get_dH N H (H * p) 0 = - H^2 * p^2 / 2) by (unfold T_get_dH; field).
    assert (EN1 : N_get_dH N H p 0 = - H * p^2 / 2) by (unfold N_get_dH; field; lra).
    rewrite ET1, EN1 in *. clear ET1 EN1.
    assert (EP2 : T_get_d2phi (H ^ 2) (H * p) (- H ^ 2 * (q1 + (3 - p ^ 2 / 2) * p)) = H^2 * (q1 - p^3/2)) by (unfold T_get_d2phi; rewrite SQ; field).
    rewrite EP2. clear EP2.
    assert (ET2 : forall x, T_get_d2H N H x (H * p) (H^2 * (q1 - p^3/2)) 0 = H^3 * (- q1 * p + p^4/2)) by (intros; unfold T_get_d2H; field).
    assert (EN2 : N_get_d2H N H (- H * p^2 / 2) p q1 0 = H * (- q1 * p + p^4/4)) by (unfold N_get_d2H; field; lra).
    rewrite ET2, EN2 in *. clear ET2 EN2.
    assert (Q0 : q1 <> 0). { intros X. apply NE. rewrite X. unfold N_get_epsilon_2H. field. lra. }
    set (q2 := N_get_d3phi H (- H * p^2 / 2) (H * (- q1 * p + p^4/4)) p q1 (- H ^ 2 * (q1 + (3 - p ^ 2 / 2) * p)) d2V) in *.
    assert (E2V : d2V = - H^2 / p * (q2 + (3 - p^2/2) * q1 + (- q1 * p + p^4/4 - p^4/4) * p - p^2 * (q1 + (3 - p ^ 2 / 2) * p))).
    { unfold q2, N_get_d3phi. field. lra. }
    clearbody q2. subst d2V.
    match goal with |- context [T_get_d3phi ?a ?b ?c ?d ?e ?f ?g] => assert (EP3 : T_get_d3phi a b c d e f g = H^3 * (q2 - 2 * q1 * p^2 + p^5 / 2 - p^2 / 2 * q1 )) by (unfold T_get_d3phi; field; lra) end.
    rewrite EP3. clear EP3.
    assert (ET3 : forall x z, T_get_d3H N H x z (H * p) (H^2 * (q1 - p^3/2)) (H^3 * (q2 - 2 * q1 * p^2 + p^5 / 2 - p^2 / 2 * q1)) 0
        = - H^4 * ((q2 - 2 * q1 * p^2 + p^5 / 2 - p^2 / 2 * q1) * p + (q1 - p^3/2)^2)) by (intros; unfold T_get_d3H; field).
    assert (EN3 : N_get_d3H N H (- H * p^2 / 2) (H * (- q1 * p + p^4/4)) p q1 q2 0 = - H * (q2 * p + q1^2 + p^2 * (- q1 * p + p^4/4) / 2 - q1 * p^3)) by (unfold N_get_d3H; field; lra).
    rewrite ET3, EN3. clear ET3 EN3.
    assert (AB : Rabs (H ^ 2 * (H * (- q1 * p + p ^ 4 / 4)) ^ 2 - 2 * H * (- H * p ^ 2 / 2) ^ 2 * (H * (- q1 * p + p ^ 4 / 4)) + (- H * p ^ 2 / 2) ^ 4) = (q1 * p * H^2)^2).
    { rewrite Rabs_pos_eq; [field|]. replace (H ^ 2 * (H * (- q1 * p + p ^ 4 / 4)) ^ 2 - 2 * H * (- H * p ^ 2 / 2) ^ 2 * (H * (- q1 * p + p ^ 4 / 4)) + (- H * p ^ 2 / 2) ^ 4) with ((q1 * p * H^2)^2) by field. apply pow2_ge_0. }
    unfold T_get_epsilon_1H, N_get_epsilon_1H, T_get_delta_1, N_get_delta_1, T_get_epsilon_2H, N_get_epsilon_2H, T_get_epsilon_3H, N_get_epsilon_3H,
      T_get_delta_2, N_get_delta_2, T_get_delta_3, N_get_delta_3, T_get_d4phi, N_get_d4phi. rewrite AB.
    f_equal; field; repeat split; try lra; try assumption.
    intros X. assert (Y : -8 * (H^4 * (q1 * p)) = 0) by (rewrite <- X; ring). assert (H4 : 0 < H^4) by (apply pow_lt; exact HH).
    assert (Z : H^4 * (q1 * p) = 0) by lra. apply Rmult_integral in Z as [Z|Z]; [lra|]. apply Rmult_integral in Z as [Z|Z]; contradiction.
Qed.

(** a power-law background with e1 = 1/2, and a sample with e2 <> 0 *)
Theorem C99_nonvacuous : T_background 0 (Vexp 10) true y_flat 1 3 /\ T_dphi true y_flat 2 <> 0 /\ fe1 (T_flow 0 (Vexp 10) true y_flat 2) = 1/2 /\
  exists y n0 n1, n0 < n1 /\ N_background 0 (Vexp 10) true true y n0 n1.
Proof.
  split; [exact flat_background|]. assert (D : T_dphi true y_flat 2 = 1) by (unfold T_dphi, y_flat; cbn; lra).
  split; [rewrite D; lra|]. split; [|exact C16_C17_nonvacuous].
  unfold T_flow, flow_of. cbn [a_kind fe1]. unfold T_get_epsilon_1H, T_get_dH. rewrite D.
  rewrite (T_Hub_sq _ _ _ _ 1 3 2 flat_background) by lra. rewrite flat_H2 by lra. field.
Qed.
Theorem C99_same_nonvacuous : fe2 (flow_of (mkaeqs AN 0 (mkpotfun (fun _ => 1) (fun _ => 1) (fun _ => 0) (fun _ => 0))) 0 0 1 0 1) <> 0.
Proof. unfold flow_of. cbn [a_kind a_U fe2 pdV]. unfold N_get_epsilon_2H, N_get_d2H, N_get_dH, N_get_d2phi, N_get_dH_H. intros X. field_simplify in X; lra. Qed.
