From Coq Require Import Reals ZArith Lra Lia List.
From Coquelicot Require Import Coquelicot.
From Verif Require Import Base Model.Potentials Model.Interp Model.SlowRoll Spec.PotentialSpec Spec.SlowRollSpec
  Proofs.BaseLemmas Proofs.PotentialDerivs Proofs.PotentialDerivsAll Proofs.PotentialEps Proofs.PotentialEps2 Proofs.InvV Proofs.PhiEnd
  Proofs.SRN.
Open Scope R_scope.

(* ---------- C09 ---------- *)
Lemma mono_ns1 p N : 0 < p -> 0 < N -> mono_ns2Nstar p (mono_Nstar2ns p N) = N.
Proof.
  intros Hp HN. unfold mono_ns2Nstar, mono_Nstar2ns.
  replace (1 - (1 - p / (2 * N) - 1 / N)) with ((p + 2) / (2 * N)) by (field; lra). field; splits; lra.
Qed.
Lemma mono_ns2 p ns : 0 < p -> ns < 1 -> 0 < mono_ns2Nstar p ns /\ mono_Nstar2ns p (mono_ns2Nstar p ns) = ns.
Proof.
  intros Hp H. unfold mono_ns2Nstar, mono_Nstar2ns. split; [apply Rdiv_lt_0_compat; lra|]. field; splits; lra.
Qed.
Lemma mono_r1 p N : 0 < p -> 0 < N -> mono_r2Nstar p (mono_Nstar2r p N) = N.
Proof. intros Hp HN. unfold mono_r2Nstar, mono_Nstar2r. field; splits; lra. Qed.
Lemma mono_r2 p r : 0 < p -> 0 < r -> mono_Nstar2r p (mono_r2Nstar p r) = r.
Proof. intros Hp HN. unfold mono_r2Nstar, mono_Nstar2r. field; splits; lra. Qed.
Lemma mono_r_exact p N : 0 < p -> 0 <= N -> mono_Nstar2r p N = 16 * mono_eps1 p (mono_N2phi p N).
Proof.
  intros Hp HN. unfold mono_Nstar2r, mono_eps1, mono_N2phi.
  replace (2 * (sqrt (2*p) * sqrt (4*N+p) / 2)^2) with ((sqrt (2*p) * sqrt (2*p)) * (sqrt (4*N+p) * sqrt (4*N+p)) / 2) by field.
  rewrite !sqrt_sqrt by lra. field; lra.
Qed.

Lemma star_ns1 N : 0 < N -> star_ns2Nstar (star_Nstar2ns N) = N.
Proof.
  intros HN. pose proof gamma_gt0 as Hg. pose proof sqrt2_gt0 as H2. pose proof sqrt2_sq as S.
  unfold star_ns2Nstar, star_Nstar2ns. set (g := gamma) in *. set (s := sqrt 2) in *.
  set (y := (2 * N * g^2 + s * g + 2) / (N * g * (N * g + s))).
  assert (HNg : 0 < N * g) by (apply Rmult_lt_0_compat; assumption). assert (Hsg : 0 < s * g) by (apply Rmult_lt_0_compat; assumption).
  assert (Hden : 0 < N * g * (N * g + s)) by (apply Rmult_lt_0_compat; lra).
  assert (HNg2 : 0 < N * g^2) by (replace (N * g^2) with (N * g * g) by ring; apply Rmult_lt_0_compat; lra).
  assert (Hy : 0 < y) by (apply Rdiv_lt_0_compat; lra).
  assert (Q : y * (N * g * (N * g + s)) = 2 * N * g^2 + s * g + 2) by (unfold y; field; lra).
  replace (1 - (1 - y)) with y by ring.
  assert (P : 0 < y * g * N + s * y - 2 * g).
  { apply Rmult_lt_reg_l with (N * g); [exact HNg|]. rewrite Rmult_0_r.
    replace (N * g * (y * g * N + s * y - 2 * g)) with (y * (N * g * (N * g + s)) - 2 * N * g^2) by ring. rewrite Q. lra. }
  assert (Hyn : 0 < y * g * N) by (apply Rmult_lt_0_compat; [apply Rmult_lt_0_compat|]; assumption).
  replace (2 * y^2 + 8 * y + 4 * g^2) with ((2 * y * g * N + s * y - 2 * g)^2).
  - rewrite sqrt_pow2 by lra. field; lra.
  - transitivity (4 * y * (y * (N * g * (N * g + s))) - 8 * y * N * g^2 + (s*s) * y^2 - 4 * s * y * g + 4 * g^2); [ring|].
    rewrite Q, S. ring.
Qed.
Lemma star_ns2 ns : ns < 1 -> 0 < star_ns2Nstar ns /\ star_Nstar2ns (star_ns2Nstar ns) = ns.
Proof.
  intros H. pose proof gamma_gt0 as Hg. pose proof sqrt2_gt0 as H2. pose proof sqrt2_sq as S.
  unfold star_ns2Nstar, star_Nstar2ns. set (g := gamma) in *. set (s := sqrt 2) in *.
  set (y := 1 - ns). assert (Hy : 0 < y) by (unfold y; lra).
  set (D := 2 * y^2 + 8 * y + 4 * g^2).
  assert (HD : 0 < D) by (unfold D; pose proof (pow2_ge_0 y); pose proof (pow2_ge_0 g); lra).
  set (q := sqrt D). assert (Hq : 0 < q) by (apply sqrt_lt_R0; exact HD). assert (Q : q * q = D) by (apply sqrt_sqrt; lra).
  assert (Hsg : 0 < s * g) by (apply Rmult_lt_0_compat; assumption).
  assert (Hsyg : 0 < y * (s * g)) by (apply Rmult_lt_0_compat; assumption).
  assert (Hyg : 0 < y * g) by (apply Rmult_lt_0_compat; assumption).
  assert (Hp : 0 < 2 * g - s * y + q).
  { destruct (Rlt_le_dec 0 (2*g - s*y)); [lra|]. 
    assert ((s*y - 2*g)*(s*y-2*g) < q*q); [|nra].
    rewrite Q. unfold D. replace ((s*y - 2*g)*(s*y-2*g)) with ((s*s)*y^2 - 4 * (y*(s*g)) + 4 * g^2) by ring.
    rewrite S. lra. }
  set (N := (2 * g - s * y + q) / (2 * g * y)).
  assert (HN : 0 < N) by (apply Rdiv_lt_0_compat; lra).
  split; [exact HN|].
  assert (HNg : 0 < N * g) by (apply Rmult_lt_0_compat; assumption).
  assert (E : q = 2 * y * g * N + s * y - 2 * g) by (unfold N; field; lra).
  assert (K : y * (N * g * (N * g + s)) = 2 * N * g^2 + s * g + 2).
  { rewrite E in Q. unfold D in Q.
    apply Rmult_eq_reg_l with (4 * y); [|lra].
    transitivity ((2 * y * g * N + s * y - 2 * g) * (2 * y * g * N + s * y - 2 * g) + 8 * y * N * g^2 - (s*s) * y^2 + 4 * s * y * g - 4 * g^2); [ring|].
    rewrite Q, S. ring. }
  assert (0 < N * g * (N * g + s)) by (apply Rmult_lt_0_compat; lra).
  rewrite <- K. unfold y. field. splits; lra.
Qed.
Lemma star_r1 N : 0 < N -> star_r2Nstar (star_Nstar2r N) = N.
Proof.
  intros HN. pose proof gamma_gt0 as Hg. pose proof sqrt2_gt0 as H2. pose proof sqrt2_sq as S.
  unfold star_r2Nstar, star_Nstar2r. set (g := gamma) in *. set (s := sqrt 2) in *.
  assert (HNg : 0 < N * g) by (apply Rmult_lt_0_compat; assumption).
  assert (E : sqrt (32 / (2 * N * g + s)^2) = 4 * s / (2 * N * g + s)).
  { replace (32 / (2 * N * g + s)^2) with ((4 * s / (2 * N * g + s))^2).
    - apply sqrt_pow2. apply Rdiv_le_0_compat; lra.
    - transitivity (16 * (s * s) / (2 * N * g + s)^2); [field; lra|rewrite S; field; lra]. }
  rewrite E. field. splits; lra.
Qed.
Lemma star_r2 r : 0 < r -> star_Nstar2r (star_r2Nstar r) = r.
Proof.
  intros Hr. pose proof gamma_gt0 as Hg. pose proof sqrt2_gt0 as H2. pose proof sqrt2_sq as S.
  unfold star_r2Nstar, star_Nstar2r. set (g := gamma) in *. set (s := sqrt 2) in *.
  assert (Hq : 0 < sqrt r) by (apply sqrt_lt_R0; exact Hr). assert (Q : sqrt r * sqrt r = r) by (apply sqrt_sqrt; lra).
  set (q := sqrt r) in *.
  replace (2 * (s * (4 - q) / (2 * g * q)) * g + s) with (4 * s / q) by (field; lra).
  replace ((4 * s / q)^2) with (16 * (s * s) / (q * q)) by (field; lra). rewrite S, Q. field; lra.
Qed.

Lemma nat_guard phi0 y : 0 < phi0 -> 0 < y -> (phi0 < PI / sqrt y <-> (phi0/PI)^2 * y < 1).
Proof.
  intros H0 Hy. pose proof PI_RGT_0. assert (Hq : 0 < sqrt y) by (apply sqrt_lt_R0; exact Hy).
  assert (Q : sqrt y * sqrt y = y) by (apply sqrt_sqrt; lra). set (q := sqrt y) in *.
  assert (E : (phi0/PI)^2 * y = (phi0 * q / PI)^2) by (rewrite <- Q; field; lra). rewrite E.
  assert (0 < phi0 * q / PI) by (apply Rdiv_lt_0_compat; [apply Rmult_lt_0_compat|]; lra).
  assert (A : phi0 < PI / q <-> phi0 * q / PI < 1).
  { split; intros Hx.
    - apply Rmult_lt_reg_r with (PI / q); [apply Rdiv_lt_0_compat; lra|]. replace (phi0 * q / PI * (PI / q)) with phi0 by (field; lra). lra.
    - apply Rmult_lt_reg_r with (q / PI); [apply Rdiv_lt_0_compat; lra|]. replace (PI / q * (q / PI)) with 1 by (field; lra).
      replace (phi0 * (q / PI)) with (phi0 * q / PI) by (field; lra). lra. }
  rewrite A. split; intros; nra.
Qed.
Lemma exp_gt1 x : 0 < x -> 1 < exp x.
Proof. intros. rewrite <- exp_0. apply exp_increasing; assumption. Qed.
Lemma f_pos phi0 : 0 < phi0 -> 0 < phi0 / PI.
Proof. intros. pose proof PI_RGT_0. apply Rdiv_lt_0_compat; lra. Qed.
Lemma nat_ns_key phi0 N : 0 < phi0 -> 0 < N -> let f := phi0 / PI in let E := exp (N / f^2) in let y := 1 - nat_Nstar2ns phi0 N in
  1 < E /\ 0 < y /\ 1 < f^2 * y /\ E * ((2*f^2+1) * (f^2 * y - 1)) = f^2 * (2*f^2*y + y + 2).
Proof.
  intros H0 HN f E y. pose proof (f_pos phi0 H0) as Hf. fold f in Hf.
  assert (Hf2 : 0 < f^2) by (apply pow_lt; exact Hf).
  assert (HE : 1 < E) by (apply exp_gt1, Rdiv_lt_0_compat; assumption).
  assert (Ey : y = (2 * f^2 + (2 * f^2 + 1) * E) / (f^2 * (2 * f^2 + 1) * (E - 1))).
  { unfold y, nat_Nstar2ns. fold f. fold E. ring. }
  assert (Hden : 0 < f^2 * (2 * f^2 + 1) * (E - 1)) by (pos).
  assert (Hy : 0 < y). { rewrite Ey. apply Rdiv_lt_0_compat; [|exact Hden]. assert (0 < (2*f^2+1)*E) by (apply Rmult_lt_0_compat; lra). lra. }
  splits; try assumption.
  - assert (Ef : f^2 * y - 1 = (4 * f^2 + 1) / ((2 * f^2 + 1) * (E - 1))) by (rewrite Ey; field; splits; lra).
    assert (0 < (4 * f^2 + 1) / ((2 * f^2 + 1) * (E - 1))) by (apply Rdiv_lt_0_compat; [lra|apply Rmult_lt_0_compat; lra]). lra.
  - rewrite Ey. field. splits; lra.
Qed.
Lemma nat_ns1 phi0 N : 0 < phi0 -> 0 < N -> nat_ns2Nstar phi0 (nat_Nstar2ns phi0 N) = Ok N.
Proof.
  intros H0 HN. pose proof (nat_ns_key phi0 N H0 HN) as (HE & Hy & Hg & K). cbv zeta in *.
  pose proof (f_pos phi0 H0) as Hf. unfold nat_ns2Nstar. set (y := 1 - nat_Nstar2ns phi0 N) in *. set (f := phi0/PI) in *.
  assert (Hf2 : 0 < f^2) by (apply pow_lt; exact Hf).
  destruct (Rlt_dec phi0 (PI / sqrt y)) as [Hl|_]; [apply nat_guard in Hl; [fold f in Hl; lra|assumption|assumption]|].
  f_equal. rewrite <- K.
  replace (exp (N / f^2) * ((2 * f ^ 2 + 1) * (f ^ 2 * y - 1)) / ((2 * f ^ 2 + 1) * (f ^ 2 * y - 1))) with (exp (N/f^2)).
  - rewrite ln_exp. field; lra.
  - set (EE := exp (N/f^2)). field. splits; lra.
Qed.
Lemma nat_ns2 phi0 ns : 0 < phi0 -> ns < 1 -> PI / sqrt (1 - ns) < phi0 ->
  exists N, nat_ns2Nstar phi0 ns = Ok N /\ 0 < N /\ nat_Nstar2ns phi0 N = ns.
Proof.
  intros H0 Hns Hg. pose proof (f_pos phi0 H0) as Hf. set (f := phi0/PI) in *. set (y := 1 - ns) in *.
  assert (Hy : 0 < y) by (unfold y; lra). assert (Hf2 : 0 < f^2) by (apply pow_lt; exact Hf).
  assert (Hg' : 1 < f^2 * y).
  { destruct (Rlt_le_dec 1 (f^2*y)) as [|Hle]; [assumption|exfalso].
    pose proof PI_RGT_0. assert (Hq : 0 < sqrt y) by (apply sqrt_lt_R0; exact Hy). assert (Q : sqrt y * sqrt y = y) by (apply sqrt_sqrt; lra).
    set (q := sqrt y) in *. assert (1 < f * q).
    { unfold f. apply Rmult_lt_reg_r with (PI / q); [apply Rdiv_lt_0_compat; lra|].
      replace (phi0 / PI * q * (PI / q)) with phi0 by (field; lra). lra. }
    assert (1 < (f*q)*(f*q)) by nra. replace ((f*q)*(f*q)) with (f^2*(q*q)) in H2 by ring. rewrite Q in H2. lra. }
  unfold nat_ns2Nstar. fold y. fold f. destruct (Rlt_dec phi0 (PI / sqrt y)); [lra|].
  eexists; split; [reflexivity|].
  set (E := f^2 * (2 * f^2 * y + y + 2) / ((2*f^2+1) * (f^2*y - 1))).
  assert (Hd : 0 < (2*f^2+1) * (f^2*y-1)) by (apply Rmult_lt_0_compat; lra).
  assert (HE : 1 < E).
  { apply Rmult_lt_reg_r with ((2*f^2+1) * (f^2*y-1)); [exact Hd|]. unfold E.
    replace (f ^ 2 * (2 * f ^ 2 * y + y + 2) / ((2 * f ^ 2 + 1) * (f ^ 2 * y - 1)) * ((2 * f ^ 2 + 1) * (f ^ 2 * y - 1)))
      with (f ^ 2 * (2 * f ^ 2 * y + y + 2)) by (field; splits; lra). nra. }
  assert (HlnE : 0 < ln E) by (rewrite <- ln_1; apply ln_increasing; lra).
  split; [apply Rmult_lt_0_compat; assumption|].
  unfold nat_Nstar2ns. fold f.
  replace (f^2 * ln E / f^2) with (ln E) by (field; lra). rewrite exp_ln by lra.
  replace ns with (1 - y) by (unfold y; ring). f_equal. unfold E at 1 2. unfold E in HE. field.
  splits; lra.
Qed.
(** on the boundary of the guard the code does not raise although no N_star > 0 gives this n_s *)
Lemma nat_ns_boundary phi0 ns : 0 < phi0 -> ns < 1 -> phi0 = PI / sqrt (1 - ns) ->
  (exists x, nat_ns2Nstar phi0 ns = Ok x) /\ forall N, 0 < N -> nat_Nstar2ns phi0 N <> ns.
Proof.
  intros H0 Hns Hb. split.
  - unfold nat_ns2Nstar. destruct (Rlt_dec phi0 (PI / sqrt (1 - ns))); [lra|eexists; reflexivity].
  - intros N HN He. pose proof (nat_ns_key phi0 N H0 HN) as (_ & Hy & Hg & _). cbv zeta in *. rewrite He in *.
    pose proof PI_RGT_0. assert (Hq : 0 < sqrt (1-ns)) by (apply sqrt_lt_R0; lra). assert (Q : sqrt (1-ns) * sqrt (1-ns) = 1-ns) by (apply sqrt_sqrt; lra).
    assert ((phi0/PI)^2 * (1-ns) = 1); [|lra]. rewrite Hb. rewrite <- Q at 2. field. lra.
Qed.
Lemma nat_r1 phi0 N : 0 < phi0 -> 0 < N -> 0 < nat_Nstar2r phi0 N /\ nat_r2Nstar phi0 (nat_Nstar2r phi0 N) = N.
Proof.
  intros H0 HN. pose proof (f_pos phi0 H0) as Hf. unfold nat_r2Nstar, nat_Nstar2r. set (f := phi0/PI) in *.
  assert (Hf2 : 0 < f^2) by (apply pow_lt; exact Hf).
  set (E := exp (N / f^2)). assert (HE : 1 < E) by (apply exp_gt1, Rdiv_lt_0_compat; assumption).
  assert (Hd : 0 < -2 * f^2 + (2*f^2+1) * E) by nra.
  split; [apply Rdiv_lt_0_compat; lra|].
  replace ((2 * f ^ 2 * (16 / (-2 * f ^ 2 + (2 * f ^ 2 + 1) * E)) + 16) / (16 / (-2 * f ^ 2 + (2 * f ^ 2 + 1) * E) * (2 * f ^ 2 + 1))) with E by (field; splits; lra).
  unfold E. rewrite ln_exp. field; lra.
Qed.
Lemma nat_r2 phi0 r : 0 < phi0 -> 0 < r -> nat_Nstar2r phi0 (nat_r2Nstar phi0 r) = r.
Proof.
  intros H0 Hr. pose proof (f_pos phi0 H0) as Hf. unfold nat_r2Nstar, nat_Nstar2r. set (f := phi0/PI) in *.
  assert (Hf2 : 0 < f^2) by (apply pow_lt; exact Hf).
  assert (0 < f^2 * r) by (apply Rmult_lt_0_compat; assumption).
  set (E := (2 * f^2 * r + 16) / (r * (2 * f^2 + 1))). 
  assert (HE : 0 < E) by (apply Rdiv_lt_0_compat; [lra|apply Rmult_lt_0_compat; lra]).
  replace (f^2 * ln E / f^2) with (ln E) by (field; lra). rewrite exp_ln by exact HE. unfold E. field. splits; lra.
Qed.
Lemma nat_r_exact phi0 N : 0 < phi0 -> 0 <= N -> nat_Nstar2r phi0 N = 16 * nat_eps1 phi0 (nat_N2phi phi0 N).
Proof.
  intros H0 HN. pose proof PI_RGT_0 as HPI. pose proof (nat_u_gt0 phi0 H0) as Hu. set (u := nat_u phi0) in *.
  pose proof (atan_pos u Hu) as Hat. set (a := atan u) in *.
  assert (Hc : 0 < cos a) by (apply cos_gt_0; lra). assert (Ht : tan a = u) by apply tan_atan.
  assert (Hu2 : 0 < u^2) by (apply pow_lt; exact Hu).
  assert (Hcc : 1 + cos (2 * a) = 2 / (1 + u^2)).
  { rewrite cos_2a_cos. rewrite <- Ht. unfold tan. pose proof (sin2_cos2 a) as S. unfold Rsqr in S.
    transitivity (2 * (cos a * cos a)); [ring|].
    replace (1 + (sin a / cos a)^2) with ((sin a * sin a + cos a * cos a) / (cos a * cos a)) by (field; lra).
    rewrite S. field; lra. }
  set (X := exp (PI^2*N/phi0^2)).
  assert (HX : 1 <= X).
  { unfold X. rewrite <- exp_0. assert (0 <= PI^2*N/phi0^2).
    { apply Rdiv_le_0_compat; [apply Rmult_le_pos; [apply pow_le; lra|exact HN]|apply pow_lt; exact H0]. }
    destruct H as [H| <-]; [left; apply exp_increasing; exact H|right; reflexivity]. }
  assert (Hq : (2 * X - cos (PI*nat_phi_end phi0/phi0) - 1) / (cos (PI*nat_phi_end phi0/phi0) + 1) = X * (1 + u^2) - 1).
  { rewrite nat_full by exact H0. fold u. fold a. 
    replace (2 * X - cos (2 * a) - 1) with (2 * X - (1 + cos (2*a))) by ring.
    replace (cos (2 * a) + 1) with (1 + cos (2*a)) by ring. rewrite Hcc. field. lra. }
  unfold nat_N2phi. fold X. rewrite Hq. set (s2 := X * (1 + u^2) - 1). assert (Hs2 : 0 < s2) by (unfold s2; nra).
  set (s := sqrt s2). assert (Hs : 0 < s) by (apply sqrt_lt_R0; exact Hs2). assert (S2 : s * s = s2) by (apply sqrt_sqrt; lra).
  pose proof (atan_pos s Hs) as Has. set (b := atan s) in *. assert (Htb : tan b = s) by apply tan_atan.
  assert (Hcb : 0 < cos b) by (apply cos_gt_0; lra).
  assert (Hsb : sin b = s * cos b) by (rewrite <- Htb; unfold tan; field; lra).
  assert (Hsb0 : 0 < sin b) by (rewrite Hsb; apply Rmult_lt_0_compat; assumption).
  unfold nat_eps1. replace (PI * (2 * phi0 / PI * b) / phi0) with (2 * b) by (field; lra).
  rewrite sin_2a, cos_2a_sin.
  replace (2 * phi0 ^ 2 * (1 - 2 * sin b * sin b - 1) ^ 2) with (8 * phi0^2 * (sin b)^4) by ring.
  replace (PI ^ 2 * (2 * sin b * cos b) ^ 2 / (8 * phi0 ^ 2 * (sin b)^4)) with (PI^2 * (cos b)^2 / (2 * phi0^2 * (sin b)^2)) by (field; splits; lra).
  rewrite Hsb. replace (PI ^ 2 * cos b ^ 2 / (2 * phi0 ^ 2 * (s * cos b) ^ 2)) with (PI^2 / (2 * phi0^2 * (s * s))) by (field; splits; lra).
  rewrite S2. unfold nat_Nstar2r.
  replace (N / (phi0/PI)^2) with (PI^2*N/phi0^2) by (field; lra). fold X.
  assert (U2 : u^2 = PI^2 / (2 * phi0^2)).
  { unfold u, nat_u. transitivity (sqrt 2 * sqrt 2 * PI^2 / (4 * phi0^2)); [field; lra|rewrite sqrt2_sq; field; lra]. }
  unfold s2. rewrite U2. field. splits; try lra.
  - unfold s2 in Hs2. rewrite U2 in Hs2. intros Z. 
    replace (X * (1 + PI ^ 2 / (2 * phi0 ^ 2)) - 1) with ((X * (2 * phi0^2 + PI^2) - 2 * phi0^2) / (2 * phi0^2)) in Hs2 by (field; lra).
    rewrite Z in Hs2. unfold Rdiv in Hs2. lra.
Qed.

(* ---------- C10 ---------- *)
Lemma bind_inv {A B} (m : res A) (f : A -> res B) y : bind m f = Ok y -> exists x, m = Ok x /\ f x = Ok y.
Proof. destruct m; simpl; intros H; [eexists; split; [reflexivity|exact H]|discriminate]. Qed.
Lemma V_scale P c L phi : V P (c * L) phi = c^4 * V P L phi.
Proof.
  destruct P; simpl; unfold mono_V, quad_V, star_V, nat_V, dw_V, tm_V, rg_V, feat_V; try ring;
  unfold star_V; try ring; unfold Rdiv; ring.
Qed.
Lemma fourth_root x : 0 < x -> (pypow x (1/4))^4 = x.
Proof.
  intros H. rewrite <- (pyp_pow x (1/4) 4 1); [|exact H|simpl; field]. rewrite pypow_pos by exact H. apply Rpower_1; exact H.
Qed.
Lemma As2Lambda_exact root W P L A phi_star N_star Lam phi N :
  0 < L -> 0 < A -> sr_As2Lambda root W P L A phi_star N_star = Ok (Lam, phi, N) ->
  0 < V P L phi -> 0 < eps1V P phi ->
  0 < Lam /\ V P Lam phi / (24 * PI^2 * eps1V P phi) = A.
Proof.
  intros HL HA H HV He. unfold sr_As2Lambda in H.
  apply bind_inv in H. destruct H as [[phi1 N1] [Hp H]].
  simpl in H. injection H as <- <- <-. pose proof PI_RGT_0. assert (HP2 : 0 < PI^2) by (apply pow_lt; assumption).
  set (As0 := V P L phi1 / 3 / (8 * PI^2 * eps1V P phi1)).
  assert (HP3 : 0 < PI * (PI * 1)) by (simpl in HP2; exact HP2).
  assert (H8 : 0 < 8 * PI^2 * eps1V P phi1) by (pos).
  assert (H0 : 0 < As0) by (apply Rdiv_lt_0_compat; [lra|exact H8]).
  change (8 * (PI * (PI * 1)) * eps1V P phi1) with (8 * PI^2 * eps1V P phi1). fold As0.
  assert (Hq : 0 < A / As0) by (apply Rdiv_lt_0_compat; assumption).
  split; [apply Rmult_lt_0_compat; [exact HL|apply pypow_gt0; exact Hq]|].
  rewrite Rmult_comm. rewrite V_scale, fourth_root by exact Hq. unfold As0. field. splits; lra.
Qed.
Lemma rg_inv_indep p alpha L L' d : L <> 0 -> L' <> 0 -> 0 < d < 1 ->
  rg_inv_V p alpha L (L^4 * (1-d)) = rg_inv_V p alpha L' (L'^4 * (1-d)).
Proof.
  intros HL HL' Hd. unfold rg_inv_V. do 3 f_equal. field. splits; try lra; assumption.
Qed.
Lemma phi_end_indep root P L L' : L <> 0 -> L' <> 0 -> phi_end root P L = phi_end root P L'.
Proof.
  intros HL HL'. destruct P; lazymatch goal with |- context [RadionGauge] => idtac | _ => reflexivity end. unfold phi_end. f_equal. apply rg_inv_indep; try assumption. apply EPS_pos.
Qed.
Lemma phi2N_indep root P L L' phi : L <> 0 -> L' <> 0 -> sr_phi2N root P L phi = sr_phi2N root P L' phi.
Proof.
  intros HL HL'. destruct P; lazymatch goal with |- context [RadionGauge] => idtac | _ => reflexivity end. unfold sr_phi2N. rewrite (phi_end_indep root _ L L' HL HL'). reflexivity.
Qed.
Lemma N2phi_indep root W P L L' N : L <> 0 -> L' <> 0 -> sr_N2phi root W P L N = sr_N2phi root W P L' N.
Proof.
  intros HL HL'. destruct P; lazymatch goal with |- context [RadionGauge] => idtac | _ => unfold sr_N2phi, phi_end; reflexivity end. unfold sr_N2phi. rewrite (phi_end_indep root _ L L' HL HL').
  destruct (phi_end root (RadionGauge p alpha) L'); [|reflexivity]. unfold bind. f_equal. apply rg_inv_indep; try assumption.
  assert (1 < 10^15) by (apply Rlt_pow_R1; [lra|lia]). split; [apply Rinv_0_lt_compat; lra|]. rewrite <- Rinv_1. apply Rinv_lt_contravar; lra.
Qed.
Lemma As_tail P L L' A phi1 : 0 < L -> 0 < L' -> 0 < A -> 0 < V P L phi1 -> 0 < eps1V P phi1 ->
  L' * pypow (A / (V P L' phi1 / 3 / (8 * PI^2 * eps1V P phi1))) (1/4) = L * pypow (A / (V P L phi1 / 3 / (8 * PI^2 * eps1V P phi1))) (1/4).
Proof.
  intros HL HL' HA HV He.
  pose proof PI_RGT_0. assert (HP2 : 0 < PI^2) by (apply pow_lt; assumption).
  assert (HV' : V P L' phi1 = (L'/L)^4 * V P L phi1).
  { rewrite <- V_scale. f_equal. field; lra. }
  rewrite HV'. set (x := A / (V P L phi1 / 3 / (8 * PI^2 * eps1V P phi1))).
  assert (H8 : 0 < 8 * PI^2 * eps1V P phi1) by pos.
  assert (Hx : 0 < x) by (apply Rdiv_lt_0_compat; [exact HA|apply Rdiv_lt_0_compat; [lra|exact H8]]).
  set (q := L/L'). assert (Hq : 0 < q) by (apply Rdiv_lt_0_compat; assumption).
  replace (A / ((L' / L) ^ 4 * V P L phi1 / 3 / (8 * PI ^ 2 * eps1V P phi1))) with (q^4 * x) by (unfold x, q; field; splits; lra).
  assert (Hq4 : 0 < q^4) by (apply pow_lt; exact Hq).
  assert (E : pypow (q^4 * x) (1/4) = q * pypow x (1/4)).
  { assert (Hqx : 0 < q^4 * x) by (apply Rmult_lt_0_compat; assumption).
    rewrite (pypow_pos (q^4*x)), (pypow_pos x) by assumption. rewrite <- (Rpower_mult_distr (q^4) x) by assumption.
    assert (Z : Rpower (q^4) (1/4) = q); [|rewrite Z; reflexivity].
    rewrite <- (Rpower_pow 4 q Hq). rewrite Rpower_mult. replace (INR 4 * (1/4)) with 1 by (simpl; field). apply Rpower_1; exact Hq. }
  rewrite E. unfold q. field; lra.
Qed.
Lemma As2Lambda_indep root W P L L' A phi_star N_star Lam phi N :
  0 < L -> 0 < L' -> 0 < A -> sr_As2Lambda root W P L A phi_star N_star = Ok (Lam, phi, N) ->
  0 < V P L phi -> 0 < eps1V P phi ->
  sr_As2Lambda root W P L' A phi_star N_star = Ok (Lam, phi, N).
Proof.
  intros HL HL' HA H HV He. unfold sr_As2Lambda in *. 
  assert (R2 := phi2N_indep root P L' L). assert (R3 := N2phi_indep root W P L' L).
  destruct N_star as [n|], phi_star as [f|]; try discriminate H;
  [rewrite R3 by lra|rewrite R2 by lra]; clear R2 R3.
  all: apply bind_inv in H; destruct H as [[phi1 N1] [Hp H]];
  rewrite Hp; cbn [bind] in *; injection H as <- <- <-; do 3 f_equal; exact (As_tail P L L' A phi1 HL HL' HA HV He).
Qed.
