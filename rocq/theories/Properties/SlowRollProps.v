(** Properties C03, C05 (features), C07-C10, C74 (/repo/primpy/potentials.py). *)
From Coq Require Import Reals ZArith Lra Lia.
From Coquelicot Require Import Coquelicot.
From Verif Require Import Base Model.Potentials Model.SlowRoll Spec.PotentialSpec Spec.SlowRollSpec
  Proofs.BaseLemmas Proofs.PotentialDerivs Proofs.PotentialDerivsAll Proofs.PotentialEpsAll Proofs.InvV Proofs.PhiEnd
  Proofs.Feature4 Proofs.SRN Proofs.N2phi Proofs.SRConv.
Open Scope R_scope.

(** C03 full statement: forall P L phi, in_domain P phi -> is_derive_n (V P L) 4 phi (d4V P L phi).
    It is false for feature potentials, because FeaturePotential does not override d4V. *)
Theorem C03_refuted :
  ~ (forall P L phi, in_domain P phi -> is_derive_n (V P L) 4 phi (d4V P L phi)).
Proof. intros H. apply dip_d4V_wrong. apply H. simpl. lra. Qed.
(** What holds: the fourth derivative is right when the feature is switched off (height 0). *)
Theorem C03_partial : forall f b L phi, b <> 0 ->
  is_derive_n (V (StarobinskyGaussianDip f 0 b) L) 4 phi (d4V (StarobinskyGaussianDip f 0 b) L phi) /\
  is_derive_n (V (StarobinskyTanhStep f 0 b) L) 4 phi (d4V (StarobinskyTanhStep f 0 b) L phi).
Proof.
  intros f b L phi Hb. split.
  - pose proof (dip_fourth f 0 b L phi Hb) as H. simpl d4V.
    match type of H with is_derive_n _ _ _ ?l => replace l with (star_d4V L phi) in H; [exact H|] end.
    unfold gd_F, gd_dF, gd_d2F, gd_d3F, gd_d4F_true. field; exact Hb.
  - pose proof (step_fourth f 0 b L phi Hb) as H. simpl d4V.
    match type of H with is_derive_n _ _ _ ?l => replace l with (star_d4V L phi) in H; [exact H|] end.
    unfold ts_F, ts_dF, ts_d2F, ts_d3F, ts_d4F_true. field; exact Hb.
Qed.

(** the feature factor: V = V_base * (1 + F), potentials.py:1353-1412 *)
Definition feature_F (P : pot) (x : R) : R :=
  match P with StarobinskyGaussianDip f a b => gd_F x f a b | StarobinskyTanhStep f a b => ts_F x f a b | _ => 0 end.
(** What is missing otherwise: the code returns the base potential's fourth derivative, the true one has in
    addition the fourth derivative of (base potential) * (feature). *)
Lemma feature_fourth P L phi : ~ featureless P -> in_domain P phi -> exists l, is_derive_n (V P L) 4 phi l.
Proof.
  destruct P; cbn [featureless in_domain]; intros NF D; try tauto.
  - eexists. apply dip_fourth. exact D.
  - eexists. apply step_fourth. exact D.
Qed.
Lemma feature_domain P : ~ featureless P -> forall x y, in_domain P x -> in_domain P y.
Proof. destruct P; cbn [featureless in_domain]; intros NF x y; tauto. Qed.
Theorem C03_missing_term : forall P L phi, ~ featureless P -> in_domain P phi ->
  is_derive_n (V P L) 4 phi (d4V P L phi + Derive_n (fun x => V Starobinsky L x * feature_F P x) 4 phi) /\
  (is_derive_n (V P L) 4 phi (d4V P L phi) <-> Derive_n (fun x => V Starobinsky L x * feature_F P x) 4 phi = 0).
Proof.
  intros P L phi NF D.
  assert (SM : forall y k, (k <= 4)%nat -> ex_derive_n (V P L) k y /\ ex_derive_n (V Starobinsky L) k y).
  { intros y k Hk. pose proof (feature_domain P NF phi y D) as Dy.
    destruct (potential_derivatives Starobinsky L y I I) as (S1 & S2 & S3 & S4).
    destruct (feature_derivatives P L y NF Dy) as (F1 & F2 & F3). destruct (feature_fourth P L y NF Dy) as (l & F4).
    destruct k as [|[|[|[|[|k] ] ] ] ]; [| | | | |lia].
    - split; exact I.
    - split; eexists; [exact F1|exact S1].
    - split; eexists; [exact F2|exact S2].
    - split; eexists; [exact F3|exact S3].
    - split; eexists; [exact F4|exact S4]. }
  destruct (feature_fourth P L phi NF D) as (l & F4).
  destruct (potential_derivatives Starobinsky L phi I I) as (_ & _ & _ & S4).
  assert (M : is_derive_n (fun x => V P L x - V Starobinsky L x) 4 phi (l - d4V Starobinsky L phi)).
  { apply (is_derive_n_minus (V P L) (V Starobinsky L) 4 phi); [| |exact F4|exact S4].
    - apply filter_forall. intros y k Hk. apply SM. exact Hk.
    - apply filter_forall. intros y k Hk. apply SM. exact Hk. }
  assert (E : forall x, V P L x - V Starobinsky L x = V Starobinsky L x * feature_F P x).
  { intros x. destruct P; cbn [featureless] in NF; try tauto; cbn [V feature_F]; unfold feat_V; ring. }
  assert (Q : Derive_n (fun x => V Starobinsky L x * feature_F P x) 4 phi = l - d4V P L phi).
  { rewrite <- (Derive_n_ext _ _ 4 phi E). rewrite (is_derive_n_unique _ _ _ _ M).
    destruct P; cbn [featureless] in NF; try tauto; reflexivity. }
  rewrite Q. replace (d4V P L phi + (l - d4V P L phi)) with l by ring. split; [exact F4|]. split.
  - intros X. apply is_derive_n_unique in X. apply is_derive_n_unique in F4. lra.
  - intros X. replace (d4V P L phi) with l by lra. exact F4.
Qed.
Theorem C03_nonvacuous : ~ featureless (StarobinskyGaussianDip 5 (1/100) (1/10)) /\ in_domain (StarobinskyGaussianDip 5 (1/100) (1/10)) 4.
Proof. cbn. split; [tauto|lra]. Qed.

(** C07: sr_phi2N counts slow-roll e-folds. [P <> DoubleWell 1 (sqrt 2)] excludes the one
    degenerate potential whose epsilon_1V = 1 root is the hilltop itself. *)
Theorem C07_sr_phi2N : forall root P L e phi,
  root_spec root -> featureless P -> valid P -> L <> 0 -> P <> DoubleWell 1 (sqrt 2) ->
  phi_end root P L = Ok e -> branch P phi ->
  exists N : R -> R,
    (forall x, sr_phi2N root P L x = Ok (N x)) /\ N e = 0 /\
    is_derive N phi (V P L phi / dV P L phi) /\
    is_RInt (fun x => V P L x / dV P L x) e phi (N phi).
Proof.
  intros root P L e phi HR HF HV HL HD HE HB. exists (Nfun P e). splits.
  - intros x. exact (Nfun_ok root P L e x HE).
  - exact (Nfun_end root P L e HF HV HE).
  - exact (Nfun_derive P L e phi HF HV HL HB).
  - exact (Nfun_RInt root P L e phi HR HF HV HL HD HE HB).
Qed.
Theorem C07_nonvacuous : featureless (Tmodel (3/2) 2) /\ valid (Tmodel (3/2) 2) /\
  (exists e, phi_end (fun _ _ _ => Raise ValueError) (Tmodel (3/2) 2) 1 = Ok e) /\ branch (Tmodel (3/2) 2) 4.
Proof. simpl. splits; try exact I; try lra. eexists; reflexivity. Qed.

(** C08: round trips for every class with an exact inverse (all but the double wells). *)
Theorem C08_right : forall root W P L N phi,
  root_spec root -> lambert_spec W -> featureless P -> ~ double_well P -> valid P -> L <> 0 ->
  0 <= N -> sr_N2phi root W P L N = Ok phi -> branch P phi /\ sr_phi2N root P L phi = Ok N.
Proof.
  intros root W P L N phi HR HW HF HD HV HL HN HQ.
  assert (exists e, phi_end root P L = Ok e) as [e HE].
  { destruct P; simpl in HD; try tauto; try (eexists; reflexivity).
    unfold sr_N2phi in HQ. apply bind_inv in HQ as [e [He _]]. exists e; exact He. }
  destruct (N2phi_right root W P L e N phi HR HW HF HD HV HL HE HN HQ) as [HB HNf].
  split; [exact HB|]. rewrite (Nfun_ok root P L e phi HE), HNf. reflexivity.
Qed.
Theorem C08_left : forall root W P L N phi phi',
  root_spec root -> lambert_spec W -> featureless P -> ~ double_well P -> valid P -> L <> 0 ->
  branch P phi -> sr_phi2N root P L phi = Ok N -> 0 <= N -> sr_N2phi root W P L N = Ok phi' -> phi' = phi.
Proof.
  intros root W P L N phi phi' HR HW HF HD HV HL HB HQ HN HQ'.
  assert (exists e, phi_end root P L = Ok e) as [e HE].
  { destruct P; simpl in HD; try tauto; try (eexists; reflexivity).
    unfold sr_N2phi in HQ'. apply bind_inv in HQ' as [e [He _]]. exists e; exact He. }
  rewrite (Nfun_ok root P L e phi HE) in HQ. injection HQ as <-.
  exact (N2phi_left root W P L e phi phi' HR HW HF HD HV HL HE HB HN HQ').
Qed.
(** the closed forms return for every N (RadionGauge with general p needs the root finder) *)
Theorem C08_total : forall root W P L N,
  featureless P -> ~ double_well P -> (forall p alpha, P <> RadionGauge p alpha) ->
  exists phi, sr_N2phi root W P L N = Ok phi.
Proof.
  intros root W P L N HF HD HP.
  assert (exists e, phi_end root P L = Ok e) as [e HE].
  { destruct P; simpl in HD; try tauto; try (eexists; reflexivity). exfalso; eapply HP; reflexivity. }
  pose proof (N2phi_total root W P L e N HF HD HE) as H. destruct P; try exact H. exfalso; eapply HP; reflexivity.
Qed.
Theorem C08_nonvacuous : featureless (Natural 5) /\ ~ double_well (Natural 5) /\ valid (Natural 5) /\
  (exists phi, sr_N2phi (fun _ _ _ => Raise ValueError) (fun x => x) (Natural 5) 1 60 = Ok phi) /\
  root_spec (fun _ _ _ => Raise ValueError).
Proof. simpl. splits; try exact I; try lra; try tauto. eexists; reflexivity. intros f a b r H; discriminate H. Qed.
(** Double wells interpolate a table of 99999 nodes: exact at the nodes, within one grid
    step phi0/100000 between them, ValueError outside (so the exact round trip is only partial). *)
Theorem C08_double_well_partial : forall root W P L e phi phi0,
  double_well P -> phi0 = snd (dwP P) -> valid P -> phi_end root P L = Ok e -> branch P phi ->
  (phi0 / 100000 <= phi <= phi0 * (99999/100000) ->
     exists N phi', sr_phi2N root P L phi = Ok N /\ sr_N2phi root W P L N = Ok phi' /\
       Rabs (phi' - phi) <= phi0 / 100000 /\
       (forall k, (1 <= k <= 99999)%Z -> phi = IZR k * (phi0 / 100000) -> phi' = phi)) /\
  (phi < phi0 / 100000 \/ phi0 * (99999/100000) < phi ->
     exists N, sr_phi2N root P L phi = Ok N /\ sr_N2phi root W P L N = Raise ValueError).
Proof.
  intros root W P L e phi phi0 HD -> HV HE HB. split; intros H.
  - destruct (dw_N2phi_close root W P L e phi HD HV HE H) as [phi' [Hq Ha]].
    exists (Nfun P e phi), phi'. splits; auto; [exact (Nfun_ok root P L e phi HE)|].
    intros k Hk ->. pose proof (dw_N2phi_node root W P L e k HD HV HE Hk) as Hn. rewrite Hn in Hq. congruence.
  - exists (Nfun P e phi). split; [exact (Nfun_ok root P L e phi HE)|].
    exact (dw_N2phi_outside root W P L e phi HD HV HE HB H).
Qed.
Theorem C08_double_well_nonvacuous : double_well (DoubleWell2 10) /\ valid (DoubleWell2 10) /\
  (exists e, phi_end (fun _ _ _ => Raise ValueError) (DoubleWell2 10) 1 = Ok e) /\ branch (DoubleWell2 10) 3 /\
  10 / 100000 <= 3 <= 10 * (99999/100000).
Proof. simpl. splits; try exact I; try lra. eexists; reflexivity. Qed.

(** C09: n_s and r conversions are mutually inverse. *)
Theorem C09_monomial : forall p N x, 0 < p -> 0 < N -> x < 1 ->
  mono_ns2Nstar p (mono_Nstar2ns p N) = N /\
  (0 < mono_ns2Nstar p x /\ mono_Nstar2ns p (mono_ns2Nstar p x) = x) /\
  mono_r2Nstar p (mono_Nstar2r p N) = N /\
  (0 < x -> mono_Nstar2r p (mono_r2Nstar p x) = x).
Proof.
  intros. splits; [apply mono_ns1|apply mono_ns2|apply mono_ns2|apply mono_r1|intros; apply mono_r2]; assumption.
Qed.
Theorem C09_starobinsky : forall N x, 0 < N -> x < 1 ->
  star_ns2Nstar (star_Nstar2ns N) = N /\
  (0 < star_ns2Nstar x /\ star_Nstar2ns (star_ns2Nstar x) = x) /\
  star_r2Nstar (star_Nstar2r N) = N /\
  (0 < x -> star_Nstar2r (star_r2Nstar x) = x).
Proof.
  intros. splits; [apply star_ns1|apply star_ns2|apply star_ns2|apply star_r1|intros; apply star_r2]; assumption.
Qed.
(** for natural inflation the spectral index determines N_star only below 1-(PI/phi0)^2;
    at the boundary the code returns a number although no N_star has that index *)
Theorem C09_natural : forall phi0 N x, 0 < phi0 -> 0 < N -> x < 1 ->
  nat_ns2Nstar phi0 (nat_Nstar2ns phi0 N) = Ok N /\
  (PI / sqrt (1 - x) < phi0 -> exists M, nat_ns2Nstar phi0 x = Ok M /\ 0 < M /\ nat_Nstar2ns phi0 M = x) /\
  (phi0 < PI / sqrt (1 - x) -> nat_ns2Nstar phi0 x = Raise PrimpyError /\ forall M, 0 < M -> nat_Nstar2ns phi0 M <> x) /\
  (0 < nat_Nstar2r phi0 N /\ nat_r2Nstar phi0 (nat_Nstar2r phi0 N) = N) /\
  (0 < x -> nat_Nstar2r phi0 (nat_r2Nstar phi0 x) = x).
Proof.
  intros phi0 N x Hp HN Hx. splits.
  - apply nat_ns1; assumption.
  - intros; apply nat_ns2; assumption.
  - intros Hlt. split; [unfold nat_ns2Nstar; destruct (Rlt_dec _ _); [reflexivity|lra]|].
    intros M HM E. pose proof (nat_ns1 phi0 M Hp HM) as H'. rewrite E in H'.
    unfold nat_ns2Nstar in H'. destruct (Rlt_dec _ _); [discriminate|lra].
  - apply (nat_r1 phi0 N); assumption.
  - apply (nat_r1 phi0 N); assumption.
  - intros; apply nat_r2; assumption.
Qed.
Theorem C09_natural_boundary : forall phi0 ns, 0 < phi0 -> ns < 1 -> phi0 = PI / sqrt (1 - ns) ->
  (exists x, nat_ns2Nstar phi0 ns = Ok x) /\ forall N, 0 < N -> nat_Nstar2ns phi0 N <> ns.
Proof. exact nat_ns_boundary. Qed.
(** the r conversions are consistent with epsilon_1V and sr_N2phi: r = 16 epsilon_1V *)
Theorem C09_r_is_16_epsilon : forall N, 0 <= N ->
  (forall p, 0 < p -> mono_Nstar2r p N = 16 * eps1V (Monomial p) (mono_N2phi p N)) /\
  (forall phi0, 0 < phi0 -> nat_Nstar2r phi0 N = 16 * eps1V (Natural phi0) (nat_N2phi phi0 N)).
Proof. intros N HN. split; intros; [apply mono_r_exact|apply nat_r_exact]; assumption. Qed.

(** C10: the amplitude returned by sr_As2Lambda reproduces A_s at leading order, independently
    of the previous amplitude. [phi], [N] are the returned phi_star, N_star. *)
Theorem C10_amplitude : forall root W P L A phi_star N_star Lam phi N,
  0 < L -> 0 < A -> sr_As2Lambda root W P L A phi_star N_star = Ok (Lam, phi, N) ->
  0 < V P L phi -> 0 < eps1V P phi ->
  0 < Lam /\ V P Lam phi / (24 * PI^2 * eps1V P phi) = A /\
  (forall phi_s, phi_star = Some phi_s -> phi = phi_s) /\ (forall N_s, N_star = Some N_s -> N = N_s) /\
  (forall L', 0 < L' -> sr_As2Lambda root W P L' A phi_star N_star = Ok (Lam, phi, N)).
Proof.
  intros root W P L A phi_star N_star Lam phi N HL HA HQ HV HE.
  destruct (As2Lambda_exact _ _ _ _ _ _ _ _ _ _ HL HA HQ HV HE) as [H1 H2]. splits; auto.
  - intros phi_s ->. unfold sr_As2Lambda in HQ. apply bind_inv in HQ as [[a b] [Hm HQ]].
    destruct N_star; [discriminate|]. apply bind_inv in Hm as [x [_ Hm]]. injection Hm as -> ->. congruence.
  - intros N_s ->. unfold sr_As2Lambda in HQ. apply bind_inv in HQ as [[a b] [Hm HQ]].
    destruct phi_star; [discriminate|]. apply bind_inv in Hm as [x [_ Hm]]. injection Hm as -> ->. congruence.
  - intros L' HL'. exact (As2Lambda_indep root W P L L' A phi_star N_star Lam phi N HL HL' HA HQ HV HE).
Qed.
Theorem C10_nonvacuous : exists Lam phi N,
  sr_As2Lambda (fun _ _ _ => Raise ValueError) (fun x => x) Quadratic 1 2 (Some 1) None = Ok (Lam, phi, N)
  /\ phi = 1 /\ 0 < V (Quadratic) 1 phi /\ 0 < eps1V Quadratic phi.
Proof. do 3 eexists. split; [reflexivity|]. simpl. unfold quad_V, mono_eps1. lra. Qed.

(** C74 full statement: with a feature, inv_V and get_epsilon_1V refer to the V of the same object,
    i.e. V(inv_V v) = v and epsilon_1V = (dV/V)^2/2. Both are inherited from the featureless class;
    the exact discrepancy: *)
Theorem C74_inv_V_partial : forall P L v, ~ featureless P -> L <> 0 -> 0 <= v < L^4 ->
  V P L (inv_V P L v) = v * (1 + feature_F P (inv_V P L v)).
Proof.
  intros P L v HF HL Hv.
  destruct P; simpl in HF; try tauto; unfold V, inv_V, feature_F, feat_V; rewrite star_inv1 by assumption; reflexivity.
Qed.
Theorem C74_epsilon_1_partial : forall P L phi, ~ featureless P -> L <> 0 -> 0 < phi -> 1 + feature_F P phi <> 0 ->
  in_domain P phi ->
  exists dF, is_derive (feature_F P) phi dF /\
    dV P L phi / V P L phi = dV Starobinsky L phi / V Starobinsky L phi + dF / (1 + feature_F P phi) /\
    eps1V P phi = (dV Starobinsky L phi / V Starobinsky L phi)^2 / 2.
Proof.
  intros P L phi HF HL Hp H1 HD.
  assert (HV : V Starobinsky L phi <> 0).
  { destruct (branch_pos Starobinsky L phi) as [h _]; try exact I; try assumption. lra. }
  assert (HE : eps1V Starobinsky phi = (dV Starobinsky L phi / V Starobinsky L phi)^2 / 2).
  { destruct (branch_pos Starobinsky L phi) as [h1 h2]; try exact I; try assumption.
    apply eps1_all; try exact I; apply Rgt_not_eq; assumption. }
  destruct P as [p| | | | | | phi0 | p phi0 | phi0 | phi0 | p al | p al | al | f a b | f a b]; simpl in HF; try tauto; unfold in_domain in HD; unfold feature_F in *.
  - exists (gd_dF phi f a b). split; [|split; [|exact HE]].
    + apply gd_D1; assumption.
    + unfold V, dV in *. unfold feat_V, feat_dV. field. split; assumption.
  - exists (ts_dF phi f a b). split; [|split; [|exact HE]].
    + apply ts_D1; assumption.
    + unfold V, dV in *. unfold feat_V, feat_dV. field. split; assumption.
Qed.
Theorem C74_refuted :
  ~ (forall P L v, valid P -> attainable P L v -> V P L (inv_V P L v) = v).
Proof.
  intros H. assert (HA : attainable (StarobinskyGaussianDip 0 1 1) 1 (1/2)) by (simpl; lra).
  assert (HV : valid (StarobinskyGaussianDip 0 1 1)) by (simpl; lra).
  pose proof (H _ _ _ HV HA) as E. rewrite C74_inv_V_partial in E; [|simpl; tauto|lra|lra].
  unfold feature_F, gd_F in E.
  match type of E with context [exp ?z] => pose proof (exp_pos z) end. lra.
Qed.

