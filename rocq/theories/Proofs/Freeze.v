(** Energy estimate for damped oscillators f'' + 2 gam f' + (kap/A^2) f = 0 with A' = A g, g <= 2 gam. *)
From Coq Require Import Reals List String Lra Lia.
From Coquelicot Require Import Coquelicot.
From Verif Require Import Base Model.Potentials Model.Equations Model.Background Model.Perturbations
  Spec.BackgroundSpec Spec.PerturbationSpec Proofs.BackgroundT Properties.DynProps.
Import ListNotations.
Open Scope R_scope.

Lemma osc_Derive gam om f a b : oscillator gam om f a b ->
  forall x, a < x < b -> is_derive f x (Derive f x) /\ is_derive (Derive f) x (- (2 * gam x * Derive f x + om x * f x)).
Proof.
  intros [f1 F] x Hx. destruct (F x Hx) as [F1 F2].
  assert (E : Derive f x = f1 x) by (apply is_derive_unique; exact F1). split; [rewrite E; exact F1|].
  rewrite E. apply (is_derive_ext_loc f1); [|exact F2].
  assert (L : locally x (fun s => a < s < b)).
  { apply locally_interval with a b; [exact (proj1 Hx)|exact (proj2 Hx)|]. intros s S1 S2. split; assumption. }
  revert L. apply filter_imp. intros s Hs. symmetry. apply is_derive_unique. apply (F s Hs).
Qed.

Lemma energy_real (A ff hh f1 h1 : R -> R) (kap g gam om x : R) : 0 < A x -> om = kap / (A x)^2 ->
  is_derive A x (A x * g) -> is_derive ff x (f1 x) -> is_derive f1 x (- (2 * gam * f1 x + om * ff x)) ->
  is_derive hh x (h1 x) -> is_derive h1 x (- (2 * gam * h1 x + om * hh x)) ->
  is_derive (fun s => (A s)^2 * ((f1 s)^2 + (h1 s)^2) + kap * ((ff s)^2 + (hh s)^2)) x (- 2 * (A x)^2 * (2 * gam - g) * ((f1 x)^2 + (h1 x)^2)).
Proof.
  intros PA EO DA F1 F2 H1 H2. evar_last; [auto_derive; [repeat split; exd|reflexivity]|].
  undd. rewrite EO. toR. field. lra.
Qed.
Lemma comb_derive (ff hh X : R -> R) (c d e f1 h1 dX x : R) : is_derive ff x f1 -> is_derive hh x h1 -> is_derive X x dX ->
  is_derive (fun s => e * X s - (c * ff s + d * hh s)) x (e * dX - (c * f1 + d * h1)).
Proof. intros F1 H1 DX. evar_last; [auto_derive; [repeat split; exd|reflexivity]|]. undd. toR. ring. Qed.

Section Energy.
Variables (A g gam om : R -> R) (kap a b : R).
Hypothesis AP : forall x, a < x < b -> 0 < A x.
Hypothesis AD : forall x, a < x < b -> is_derive A x (A x * g x).
Hypothesis GL : forall x, a < x < b -> g x <= 2 * gam x.
Hypothesis OM : forall x, a < x < b -> om x = kap / (A x)^2.
Variable u : R -> C.
Hypothesis M : complex_mode gam om u a b.
Notation f := (fun x => fst (u x)). Notation h := (fun x => snd (u x)).

Definition energy (x : R) : R := (A x)^2 * speed2 u x + kap * (Cmod (u x))^2.

Lemma Cmod2 z : Cmod z ^ 2 = fst z ^ 2 + snd z ^ 2.
Proof. unfold Cmod. rewrite pow2_sqrt; [reflexivity|]. pose proof (pow2_ge_0 (fst z)). pose proof (pow2_ge_0 (snd z)). lra. Qed.

Lemma energy_derive x : a < x < b -> is_derive energy x (- 2 * (A x)^2 * (2 * gam x - g x) * speed2 u x).
Proof.
  intros Hx. destruct M as [M1 M2]. destruct (osc_Derive _ _ _ _ _ M1 x Hx) as [F1 F2]. destruct (osc_Derive _ _ _ _ _ M2 x Hx) as [H1 H2].
  pose proof (AD x Hx) as DA. pose proof (AP x Hx) as PA. pose proof (OM x Hx) as EO.
  apply (is_derive_ext (V := R_NormedModule) (fun s => (A s)^2 * ((Derive f s)^2 + (Derive h s)^2) + kap * ((f s)^2 + (h s)^2))).
  { intros s. unfold energy, speed2. rewrite Cmod2. reflexivity. }
  exact (energy_real A f h (Derive f) (Derive h) kap (g x) (gam x) (om x) x PA EO DA F1 F2 H1 H2).
Qed.

Lemma energy_decreases x1 x2 : a < x1 -> x1 <= x2 -> x2 < b -> energy x2 <= energy x1.
Proof.
  intros H1 H12 H2. apply (mono_ge energy (fun x => - 2 * (A x)^2 * (2 * gam x - g x) * speed2 u x)); [| |exact H12].
  - intros s Hs. apply energy_derive. lra.
  - intros s Hs. assert (Hs' : a < s < b) by lra. pose proof (GL s Hs') as G. pose proof (AP s Hs') as PA.
    assert (S2 : 0 <= speed2 u s) by (unfold speed2; pose proof (pow2_ge_0 (Derive f s)); pose proof (pow2_ge_0 (Derive h s)); lra).
    pose proof (pow2_ge_0 (A s)) as PA2.
    assert (X : 0 <= (A s)^2 * (2 * gam s - g s) * speed2 u s); [|lra].
    apply Rmult_le_pos; [apply Rmult_le_pos; lra|exact S2].
Qed.

(** any X whose derivative dominates 1/A bounds the change of the mode *)
Lemma mode_change (X dX : R -> R) x1 x2 : a < x1 -> x1 <= x2 -> x2 < b -> 0 <= kap ->
  (forall s, x1 <= s <= x2 -> is_derive X s (dX s) /\ / A s <= dX s) ->
  Cmod (u x2 - u x1)%C <= sqrt (energy x1) * (X x2 - X x1).
Proof.
  intros H1 H12 H2 KP DX. set (E1 := energy x1). set (D := Cmod (u x2 - u x1)%C).
  set (df := fst (u x2) - fst (u x1)). set (dh := snd (u x2) - snd (u x1)).
  assert (D2 : D ^ 2 = df^2 + dh^2) by (unfold D; rewrite Cmod2; reflexivity).
  assert (DP : 0 <= D) by apply Cmod_ge_0.
  assert (SE : 0 <= sqrt E1) by apply sqrt_pos.
  destruct M as [M1 M2].
  assert (SP : forall s, x1 <= s <= x2 -> df * Derive f s + dh * Derive h s <= D * sqrt E1 * dX s).
  { intros s Hs. assert (Hs' : a < s < b) by lra. destruct (DX s Hs) as [_ LX]. pose proof (AP s Hs') as PA.
    pose proof (energy_decreases x1 s H1 ltac:(lra) ltac:(lra)) as EL. fold E1 in EL. unfold energy in EL.
    assert (PC : 0 <= kap * Cmod (u s) ^ 2) by (apply Rmult_le_pos; [exact KP|apply pow2_ge_0]).
    assert (V2 : speed2 u s <= E1 * (/ A s)^2).
    { apply (Rmult_le_reg_l ((A s)^2)); [apply pow_lt; exact PA|]. replace (A s ^ 2 * (E1 * (/ A s)^2)) with E1 by (field; lra). lra. }
    set (v := Derive f s) in *. set (w := Derive h s) in *. assert (SV : speed2 u s = v^2 + w^2) by reflexivity.
    assert (E1P : 0 <= E1).
    { apply Rle_trans with (2 := EL). apply Rplus_le_le_0_compat; [|exact PC]. rewrite SV. apply Rmult_le_pos; [apply pow2_ge_0|]. pose proof (pow2_ge_0 v). pose proof (pow2_ge_0 w). lra. }
    assert (Q : df * v + dh * w <= D * sqrt E1 * / A s).
    { apply Rsqr_incr_0_var; cycle 1.
      - apply Rmult_le_pos; [apply Rmult_le_pos; assumption|]. left. apply Rinv_0_lt_compat, PA.
      - rewrite !Rsqr_pow2. replace ((D * sqrt E1 * / A s)^2) with (D^2 * ((sqrt E1)^2 * (/ A s)^2)) by ring. rewrite pow2_sqrt by exact E1P.
        rewrite D2. apply Rle_trans with ((df^2 + dh^2) * (v^2 + w^2)).
        + pose proof (pow2_ge_0 (df * w - dh * v)) as CS. nra.
        + apply Rmult_le_compat_l; [pose proof (pow2_ge_0 df); pose proof (pow2_ge_0 dh); lra|]. rewrite <- SV. exact V2. }
    apply Rle_trans with (1 := Q). apply Rmult_le_compat_l; [apply Rmult_le_pos; assumption|exact LX]. }
  assert (G : (fun s => D * sqrt E1 * X s - (df * f s + dh * h s)) x1 <= (fun s => D * sqrt E1 * X s - (df * f s + dh * h s)) x2).
  { apply (mono_le (fun s => D * sqrt E1 * X s - (df * f s + dh * h s)) (fun s => D * sqrt E1 * dX s - (df * Derive f s + dh * Derive h s))); [| |exact H12].
    - intros s Hs. assert (Hs' : a < s < b) by lra. destruct (DX s Hs) as [DXs _].
      destruct (osc_Derive _ _ _ _ _ M1 s Hs') as [F1 _]. destruct (osc_Derive _ _ _ _ _ M2 s Hs') as [F2 _].
      exact (comb_derive f h X df dh (D * sqrt E1) _ _ _ s F1 F2 DXs).
    - intros s Hs. pose proof (SP s Hs). lra. }
  cbv beta in G.
  assert (Q : D * D <= D * (sqrt E1 * (X x2 - X x1))).
  { replace (D * D) with (D^2) by ring. rewrite D2. unfold df at 1, dh at 1. unfold df, dh in *. lra. }
  destruct (Req_dec D 0) as [Z|NZ].
  - rewrite Z. apply Rmult_le_pos; [exact SE|].
    assert (X x1 <= X x2); [|lra]. apply (mono_le X dX); [|  |exact H12]; intros s Hs; destruct (DX s Hs) as [D1 D3]; [exact D1|].
    apply Rle_trans with (2 := D3). left. apply Rinv_0_lt_compat, AP. lra.
  - apply (Rmult_le_reg_l D); [lra|exact Q].
Qed.
End Energy.
