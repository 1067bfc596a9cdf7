(** C90: global behaviour along background solutions (monotonicity), and its consequence for C79. *)
From Coq Require Import Reals List String Lra Lia.
From Coquelicot Require Import Coquelicot.
From Verif Require Import Base Model.Potentials Model.Equations Model.Background Model.Perturbations Model.Oscode
  Spec.BackgroundSpec Spec.OscodeSpec Proofs.BackgroundT Proofs.BackgroundN Proofs.BackgroundEx Properties.OscodeProps.
Import ListNotations.
Open Scope R_scope.
Open Scope string_scope.

(** sign of the derivative gives monotonicity *)
Lemma mono_le (f df : R -> R) x z : (forall s, x <= s <= z -> is_derive f s (df s)) -> (forall s, x <= s <= z -> 0 <= df s) -> x <= z -> f x <= f z.
Proof.
  intros D P L. destruct (Req_dec x z) as [->|N]; [lra|].
  destruct (MVT_gen f x z df) as (c & C1 & C2).
  - intros s Hs. rewrite Rmin_left, Rmax_right in Hs by lra. apply D. lra.
  - intros s Hs. rewrite Rmin_left, Rmax_right in Hs by lra. apply continuity_pt_filterlim.
    apply (ex_derive_continuous f). exists (df s). apply D. lra.
  - rewrite Rmin_left, Rmax_right in C1 by lra. pose proof (P c ltac:(lra)). nra.
Qed.
Lemma mono_lt (f df : R -> R) x z : (forall s, x <= s <= z -> is_derive f s (df s)) -> (forall s, x <= s <= z -> 0 < df s) -> x < z -> f x < f z.
Proof.
  intros D P L. destruct (MVT_gen f x z df) as (c & C1 & C2).
  - intros s Hs. rewrite Rmin_left, Rmax_right in Hs by lra. apply D. lra.
  - intros s Hs. rewrite Rmin_left, Rmax_right in Hs by lra. apply continuity_pt_filterlim.
    apply (ex_derive_continuous f). exists (df s). apply D. lra.
  - rewrite Rmin_left, Rmax_right in C1 by lra. pose proof (P c ltac:(lra)). nra.
Qed.
Lemma mono_ge (f df : R -> R) x z : (forall s, x <= s <= z -> is_derive f s (df s)) -> (forall s, x <= s <= z -> df s <= 0) -> x <= z -> f z <= f x.
Proof.
  intros D P L. pose proof (mono_le (fun s => - f s) (fun s => - df s) x z) as M.
  assert (- f x <= - f z); [|lra]. apply M; [|intros s Hs; pose proof (P s Hs); lra|exact L].
  intros s Hs. apply is_derive_opp with (f := f). apply D, Hs.
Qed.

(** log(aH) along a solution *)
Definition T_logaH K U te (y : R -> list R) : R -> R := fun s => T_N te y s + ln (T_Hub K U te y s).
Definition N_logaH K U tt te (y : R -> list R) : R -> R := fun s => s + ln (N_Hub K U tt te y s).

Section Time.
Variables (K : R) (U : potfun) (te : bool) (y : R -> list R) (a b : R).
Hypothesis B : T_background K U te y a b.
Notation phi := (T_phi te y). Notation p := (T_dphi te y). Notation Nf := (T_N te y). Notation H := (T_Hub K U te y).

Lemma T_rho_derive t : a < t < b -> is_derive (fun s => (p s)^2 / 2 + pV U (phi s)) t (-3 * H t * (p t)^2).
Proof.
  intros Ht. destruct (T_comps K U te y a b B t Ht) as (D1 & D2 & _). destruct (T_smooth K U te y a b B t Ht) as [V1 _].
  evar_last; [auto_derive; [repeat split; exd|reflexivity]|]. undd. rewrite T_d2phi_eq. toR. simpl. field.
Qed.
Lemma T_logaH_derive t : a < t < b -> is_derive (T_logaH K U te y) t (T_inflating U te t (y t) / (3 * H t)).
Proof.
  intros Ht. destruct (T_comps K U te y a b B t Ht) as (_ & _ & D3 & _). pose proof (T_H_derive K U te y a b B t Ht) as DH.
  destruct (T_pos K U te y a b B t Ht) as [HP HE]. unfold T_logaH. set (N := T_N te y) in *. set (Hb := T_Hub K U te y) in *.
  evar_last; [auto_derive; [repeat split; try exd; exact HP|reflexivity]|]. undd. toR.
  unfold T_dH, T_get_dH. fold N Hb. unfold T_get_H2 in HE.
  apply (Rmult_eq_reg_r (3 * Hb t)); [|lra]. replace (T_inflating U te t (y t)) with (pV U (phi t) - (p t)^2) by reflexivity.
  field_simplify; lra.
Qed.

(** C90, cosmic time: along every solution and between any two of its instants, the expansion goes on
    and the energy density never grows; without positive curvature the Hubble rate never grows; conformal
    time runs forward; and the comoving horizon shrinks (grows) as long as the inflating diagnostic is
    positive (negative). *)
Theorem C90_time : forall t1 t2, a < t1 -> t1 <= t2 -> t2 < b ->
  (t1 < t2 -> Nf t1 < Nf t2) /\
  (p t2)^2 / 2 + pV U (phi t2) <= (p t1)^2 / 2 + pV U (phi t1) /\
  (K <= 0 -> H t2 <= H t1) /\
  (te = true -> t1 < t2 -> T_eta te y t1 < T_eta te y t2) /\
  ((forall t, t1 <= t <= t2 -> 0 <= T_inflating U te t (y t)) -> Nf t1 + ln (H t1) <= Nf t2 + ln (H t2)) /\
  ((forall t, t1 <= t <= t2 -> T_inflating U te t (y t) <= 0) -> Nf t2 + ln (H t2) <= Nf t1 + ln (H t1)).
Proof.
  intros t1 t2 H1 H12 H2. assert (I : forall s, t1 <= s <= t2 -> a < s < b) by (intros; lra).
  assert (HP : forall s, t1 <= s <= t2 -> 0 < H s) by (intros s Hs; apply (T_pos K U te y a b B s (I s Hs))).
  split; [|split; [|split; [|split; [|split]]]].
  - apply (mono_lt Nf H); [|exact HP]. intros s Hs. apply (T_comps K U te y a b B s (I s Hs)).
  - apply (mono_ge (fun s => (p s)^2 / 2 + pV U (phi s)) (fun s => -3 * H s * (p s)^2)); [| |exact H12].
    + intros s Hs. apply T_rho_derive, I, Hs.
    + intros s Hs. pose proof (HP s Hs) as HPs. pose proof (pow2_ge_0 (p s)) as P2. nra.
  - intros HK. apply (mono_ge H (T_dH K U te y)); [| |exact H12].
    + intros s Hs. apply T_H_derive with a b; [exact B|apply I, Hs].
    + intros s Hs. unfold T_dH, T_get_dH. pose proof (pow2_ge_0 (p s)) as P2. pose proof (exp_pos (-2 * Nf s)) as EP. nra.
  - intros Hte. apply (mono_lt (T_eta te y) (fun s => exp (- Nf s))).
    + intros s Hs. apply (T_comps K U te y a b B s (I s Hs)). exact Hte.
    + intros s Hs. apply exp_pos.
  - intros IN. apply (mono_le (T_logaH K U te y) (fun s => T_inflating U te s (y s) / (3 * H s))); [| |exact H12].
    + intros s Hs. apply T_logaH_derive, I, Hs.
    + intros s Hs. pose proof (HP s Hs) as HPs. unfold Rdiv. apply Rmult_le_pos; [apply IN, Hs|]. left. apply Rinv_0_lt_compat. lra.
  - intros IN. apply (mono_ge (T_logaH K U te y) (fun s => T_inflating U te s (y s) / (3 * H s))); [| |exact H12].
    + intros s Hs. apply T_logaH_derive, I, Hs.
    + intros s Hs. pose proof (HP s Hs) as HPs. pose proof (IN s Hs) as INs. unfold Rdiv. assert (XX : 0 < / (3 * H s)) by (apply Rinv_0_lt_compat; lra). nra.
Qed.
End Time.

Section Efolds.
Variables (K : R) (U : potfun) (tt te : bool) (y : R -> list R) (a b : R).
Hypothesis B : N_background K U tt te y a b.
Notation phi := (N_phi tt te y). Notation p := (N_dphi tt te y). Notation H := (N_Hub K U tt te y).

Lemma N_rho_derive t : a < t < b -> is_derive (fun s => 3 * (H s)^2 + 3 * K * exp (-2 * s)) t (-3 * (H t * p t)^2).
Proof.
  intros Ht. pose proof (N_H_derive K U tt te y a b B t Ht) as DH. destruct (N_pos K U tt te y a b B t Ht) as (HP & _).
  set (Hb := N_Hub K U tt te y) in *.
  evar_last; [auto_derive; [repeat split; exd|reflexivity]|]. undd. unfold N_dH, N_get_dH. fold Hb. toR. field. lra.
Qed.
Lemma N_infl t : a < t < b -> N_inflating K U tt te t (y t) = pV U (phi t) - (H t * p t)^2.
Proof.
  intros Ht. destruct (N_pos K U tt te y a b B t Ht) as (HP & HE & _). unfold N_inflating.
  change (N_H2 K U tt te t (y t)) with (N_get_H2 t (p t) (pV U (phi t)) K). rewrite <- HE. unfold N_phi, N_dphi. ring.
Qed.
Lemma N_logaH_derive t : a < t < b -> is_derive (N_logaH K U tt te y) t (N_inflating K U tt te t (y t) / (3 * (H t)^2)).
Proof.
  intros Ht. pose proof (N_H_derive K U tt te y a b B t Ht) as DH.
  destruct (N_pos K U tt te y a b B t Ht) as (HP & _). rewrite N_infl, (N_V K U tt te y a b B t Ht) by exact Ht.
  unfold N_logaH. set (Hb := N_Hub K U tt te y) in *.
  evar_last; [auto_derive; [repeat split; try exd; exact HP|reflexivity]|]. undd. toR.
  unfold N_dH, N_get_dH. fold Hb. field. lra.
Qed.

(** C90, e-folds *)
Theorem C90_efolds : forall n1 n2, a < n1 -> n1 <= n2 -> n2 < b ->
  (tt = true -> n1 < n2 -> N_t tt te y n1 < N_t tt te y n2) /\
  (H n2 * p n2)^2 / 2 + pV U (phi n2) <= (H n1 * p n1)^2 / 2 + pV U (phi n1) /\
  (K <= 0 -> H n2 <= H n1) /\
  (te = true -> n1 < n2 -> N_eta tt te y n1 < N_eta tt te y n2) /\
  ((forall n, n1 <= n <= n2 -> 0 <= N_inflating K U tt te n (y n)) -> n1 + ln (H n1) <= n2 + ln (H n2)) /\
  ((forall n, n1 <= n <= n2 -> N_inflating K U tt te n (y n) <= 0) -> n2 + ln (H n2) <= n1 + ln (H n1)).
Proof.
  intros t1 t2 H1 H12 H2. assert (I : forall s, t1 <= s <= t2 -> a < s < b) by (intros; lra).
  assert (HP : forall s, t1 <= s <= t2 -> 0 < H s) by (intros s Hs; apply (N_pos K U tt te y a b B s (I s Hs))).
  split; [|split; [|split; [|split; [|split]]]].
  - intros Htt. apply (mono_lt (N_t tt te y) (fun s => 1 / H s)).
    + intros s Hs. apply (N_comps K U tt te y a b B s (I s Hs)). exact Htt.
    + intros s Hs. apply Rdiv_lt_0_compat; [lra|apply HP, Hs].
  - rewrite (N_V K U tt te y a b B t1), (N_V K U tt te y a b B t2) by (apply I; lra).
    assert (M : 3 * (H t2)^2 + 3 * K * exp (-2 * t2) <= 3 * (H t1)^2 + 3 * K * exp (-2 * t1)); [|lra].
    apply (mono_ge (fun s => 3 * (H s)^2 + 3 * K * exp (-2 * s)) (fun s => -3 * (H s * p s)^2)); [| |exact H12].
    + intros s Hs. apply N_rho_derive, I, Hs.
    + intros s Hs. pose proof (pow2_ge_0 (H s * p s)) as P2. lra.
  - intros HK. apply (mono_ge H (N_dH K U tt te y)); [| |exact H12].
    + intros s Hs. apply N_H_derive with a b; [exact B|apply I, Hs].
    + intros s Hs. unfold N_dH, N_get_dH. pose proof (HP s Hs) as HPs. pose proof (pow2_ge_0 (p s)) as P2. pose proof (exp_pos (-2 * s)) as EP.
      assert (XX : 0 < exp (-2 * s) / H s) by (apply Rdiv_lt_0_compat; [apply exp_pos|exact HPs]).
      replace (- p s ^ 2 * H s / 2 + K * exp (-2 * s) / H s) with (- (p s ^ 2 * H s / 2) + K * (exp (-2 * s) / H s)) by (field; lra).
      set (e := exp (-2 * s) / H s) in *. nra.
  - intros Hte. apply (mono_lt (N_eta tt te y) (fun s => exp (- s) / H s)).
    + intros s Hs. apply (N_comps K U tt te y a b B s (I s Hs)). exact Hte.
    + intros s Hs. apply Rdiv_lt_0_compat; [apply exp_pos|apply HP, Hs].
  - intros IN. apply (mono_le (N_logaH K U tt te y) (fun s => N_inflating K U tt te s (y s) / (3 * (H s)^2))); [| |exact H12].
    + intros s Hs. apply N_logaH_derive, I, Hs.
    + intros s Hs. pose proof (HP s Hs) as HPs. unfold Rdiv. apply Rmult_le_pos; [apply IN, Hs|]. left. apply Rinv_0_lt_compat. assert (XX : 0 < H s ^ 2) by (apply pow_lt; exact HPs). lra.
  - intros IN. apply (mono_ge (N_logaH K U tt te y) (fun s => N_inflating K U tt te s (y s) / (3 * (H s)^2))); [| |exact H12].
    + intros s Hs. apply N_logaH_derive, I, Hs.
    + intros s Hs. pose proof (HP s Hs) as HPs. pose proof (IN s Hs) as INs. unfold Rdiv. assert (XX : 0 < / (3 * H s ^ 2)).
      { apply Rinv_0_lt_compat. assert (X2 : 0 < H s ^ 2) by (apply pow_lt; exact HPs). lra. } nra.
Qed.
End Efolds.

(** the example power law a = t^2, which inflates throughout *)
Theorem C90_nonvacuous : T_background 0 (Vexp 10) true y_flat 1 3 /\
  forall t, 1 < t < 3 -> 0 < T_inflating (Vexp 10) true t (y_flat t).
Proof.
  split; [exact flat_background|]. intros t Ht. unfold T_inflating, y_flat, Vexp. cbn.
  replace (- (2 * ln t)) with (-2 * ln t) by ring.
  assert (E : exp (-2 * ln t) = / t ^ 2) by (replace (-2 * ln t) with (- (ln t + ln t)) by ring; rewrite exp_Ropp, exp_plus, exp_ln by lra; f_equal; ring).
  rewrite E. replace (10 * / t ^ 2 - 2 / t * (2 / t * 1)) with (6 * / t ^ 2) by (field; lra).
  apply Rmult_lt_0_compat; [lra|]. apply Rinv_0_lt_compat, pow_lt. lra.
Qed.

(** ** C79 for backgrounds that inflate from the first sample on *)
Lemma nth_map_d {A} (f : A -> R) l i d : (i < List.length l)%nat -> nth i (map f l) 0 = f (nth i l d).
Proof. intros L. rewrite (nth_indep _ 0 (f d)) by (rewrite map_length; exact L). apply map_nth. Qed.

(** cosmic time: the samples ts of a solution that inflates between the first and the last of them *)
Theorem C79_inflating_time : forall K U te y a b ts k fac_beg fac_end i j,
  T_background K U te y a b -> increasing ts -> List.Forall (fun t => a < t < b) ts ->
  (forall t, nth 0 ts 0 <= t <= last ts 0 -> 0 <= T_inflating U te t (y t)) ->
  0 < k -> 0 <= fac_beg -> 0 < fac_end ->
  let logaH := map (fun t => T_N te y t + ln (T_Hub K U te y t)) ts in
  window logaH (map (T_N te y) ts) k fac_beg fac_end = Ok (i, j) -> outside_by logaH k fac_end j.
Proof.
  intros K U te y a b ts k fb fe i j B INC IN INF Hk Hfb Hfe la W. rewrite List.Forall_forall in IN.
  assert (INN : forall n, (n < List.length ts)%nat -> a < nth n ts 0 < b) by (intros n L; apply IN, nth_In; exact L).
  assert (LE : forall m n, (m <= n < List.length ts)%nat -> nth m ts 0 <= nth n ts 0).
  { intros m n L. destruct (Nat.eq_dec m n) as [->|N]; [lra|]. left. apply INC. lia. }
  assert (LA : last ts 0 = nth (List.length ts - 1) ts 0).
  { clear. induction ts as [|x [|z ts] IH]; [reflexivity|reflexivity|]. change (last (x :: z :: ts) 0) with (last (z :: ts) 0). rewrite IH. cbn [List.length]. replace (S (S (List.length ts)) - 1)%nat with (S (S (List.length ts) - 1)) by lia. reflexivity. }
  apply (C79_stops_outside_horizon_partial la (map (T_N te y) ts) k fb fe i j); try assumption.
  - unfold la. rewrite !map_length. reflexivity.
  - intros m n L. rewrite map_length in L. rewrite !(nth_map_d _ _ _ 0) by lia.
    destruct (C90_time K U te y a b B (nth m ts 0) (nth n ts 0)) as [M _]; [apply INN; lia|apply LE; lia|apply INN; lia|]. apply M, INC, L.
  - intros m n L. unfold la in *. rewrite map_length in L. rewrite !(nth_map_d _ _ _ 0) by lia.
    destruct (C90_time K U te y a b B (nth m ts 0) (nth n ts 0)) as (_ & _ & _ & _ & M & _); [apply INN; lia|apply LE; lia|apply INN; lia|].
    apply M. intros t Ht. apply INF. pose proof (LE 0%nat m ltac:(lia)). pose proof (LE n (List.length ts - 1)%nat ltac:(lia)). rewrite LA. lra.
Qed.
(** e-folds *)
Theorem C79_inflating_efolds : forall K U tt te y a b ns k fac_beg fac_end i j,
  N_background K U tt te y a b -> increasing ns -> List.Forall (fun n => a < n < b) ns ->
  (forall n, nth 0 ns 0 <= n <= last ns 0 -> 0 <= N_inflating K U tt te n (y n)) ->
  0 < k -> 0 <= fac_beg -> 0 < fac_end ->
  let logaH := map (fun n => n + ln (N_Hub K U tt te y n)) ns in
  window logaH ns k fac_beg fac_end = Ok (i, j) -> outside_by logaH k fac_end j.
Proof.
  intros K U tt te y a b ts k fb fe i j B INC IN INF Hk Hfb Hfe la W. rewrite List.Forall_forall in IN.
  assert (INN : forall n, (n < List.length ts)%nat -> a < nth n ts 0 < b) by (intros n L; apply IN, nth_In; exact L).
  assert (LE : forall m n, (m <= n < List.length ts)%nat -> nth m ts 0 <= nth n ts 0).
  { intros m n L. destruct (Nat.eq_dec m n) as [->|N]; [lra|]. left. apply INC. lia. }
  assert (LA : last ts 0 = nth (List.length ts - 1) ts 0).
  { clear. induction ts as [|x [|z ts] IH]; [reflexivity|reflexivity|]. change (last (x :: z :: ts) 0) with (last (z :: ts) 0). rewrite IH. cbn [List.length]. replace (S (S (List.length ts)) - 1)%nat with (S (S (List.length ts) - 1)) by lia. reflexivity. }
  apply (C79_stops_outside_horizon_partial la ts k fb fe i j); try assumption.
  - unfold la. rewrite !map_length. reflexivity.
  - intros m n L. unfold la in *. rewrite map_length in L. rewrite !(nth_map_d _ _ _ 0) by lia.
    destruct (C90_efolds K U tt te y a b B (nth m ts 0) (nth n ts 0)) as (_ & _ & _ & _ & M & _); [apply INN; lia|apply LE; lia|apply INN; lia|].
    apply M. intros t Ht. apply INF. pose proof (LE 0%nat m ltac:(lia)). pose proof (LE n (List.length ts - 1)%nat ltac:(lia)). rewrite LA. lra.
Qed.
