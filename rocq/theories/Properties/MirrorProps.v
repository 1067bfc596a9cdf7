(** C106: the origin of field space and the sign of the field are conventions. *)
From Coq Require Import Reals List String ZArith Bool Lra Lia FunctionalExtensionality.
From Coquelicot Require Import Coquelicot Complex.
From Verif Require Import Base Model.Potentials Model.SlowRoll Model.Equations Model.Background Model.Float Model.Solution
  Model.State Model.ApproxPower Model.Perturbations Model.Oscode Spec.BackgroundSpec Spec.MirrorSpec Proofs.BaseLemmas Proofs.BackgroundT Proofs.BackgroundN
  Proofs.BackgroundEx Properties.BackgroundProps Properties.OscodeProps Properties.ScaleProps Properties.ScaleProps2.
Import ListNotations.
Open Scope R_scope.
Open Scope string_scope.

Section Sign.
Variables (g c : R).
Hypothesis HG : is_sign g.
Lemma g_sq : g * g = 1. Proof. destruct HG as [-> | ->]; ring. Qed.
Lemma g_2 p : (g * p) ^ 2 = p ^ 2. Proof. destruct HG as [-> | ->]; ring. Qed.
Lemma g_0 : g <> 0. Proof. destruct HG as [-> | ->]; lra. Qed.
Lemma g_inv : / g = g. Proof. destruct HG as [-> | ->]; [apply Rinv_1|]. field. Qed.
Lemma g_inv_mult p : / (g * p) = g * / p. Proof. rewrite Rinv_mult, g_inv. reflexivity. Qed.
Lemma g_back phi : g * (g * phi + c - c) = phi.
Proof. replace (g * (g * phi + c - c)) with (g * g * phi) by ring. rewrite g_sq. ring. Qed.
Lemma g_quot a b : g * a / (g * b) = a / b. Proof. apply quot. exact g_0. Qed.
Lemma smooth_moved U x : smooth_pot U x -> smooth_pot (pot_moved g c U) (g * x + c).
Proof.
  intros (D1 & D2 & D3). unfold smooth_pot, pot_moved. cbn [pV pdV pd2V pd3V]. rewrite g_back.
  assert (X : forall f l, is_derive f x l -> is_derive (fun u => f (g * (u - c))) (g * x + c) (g * l)).
  { intros f l D. apply (@is_derive_comp R_AbsRing R_NormedModule f (fun u => g * (u - c)) (g * x + c) l g).
    - rewrite g_back. exact D.
    - auto_derive; [exact I|ring]. }
  split; [apply X; exact D1|]. split.
  - apply (is_derive_eq _ _ _ (g * (g * pd2V U x))); [apply is_derive_scal, X; exact D2|]. toR. rewrite <- Rmult_assoc, g_sq. ring.
  - apply X. exact D3.
Qed.

(** ** The equations of motion commute with the change of coordinate *)
Section Eqs.
Variables (K : R) (U : potfun).
Let U' := pot_moved g c U.
Lemma T_parts te y : List.length y = List.length (T_idx te) ->
  var (T_idx te) "phi" (state_moved g c y) = g * var (T_idx te) "phi" y + c /\
  var (T_idx te) "dphidt" (state_moved g c y) = g * var (T_idx te) "dphidt" y /\
  var (T_idx te) "_N" (state_moved g c y) = var (T_idx te) "_N" y /\
  (te = true -> var (T_idx te) "eta" (state_moved g c y) = var (T_idx te) "eta" y).
Proof. destruct te; destruct y as [|a [|b y] ]; intros L; cbn in L; try lia; repeat split; intros; try discriminate; reflexivity. Qed.
Lemma N_parts tt te y : List.length y = List.length (N_idx tt te) ->
  var (N_idx tt te) "phi" (state_moved g c y) = g * var (N_idx tt te) "phi" y + c /\
  var (N_idx tt te) "dphidN" (state_moved g c y) = g * var (N_idx tt te) "dphidN" y /\
  (tt = true -> var (N_idx tt te) "t" (state_moved g c y) = var (N_idx tt te) "t" y) /\
  (te = true -> var (N_idx tt te) "eta" (state_moved g c y) = var (N_idx tt te) "eta" y).
Proof. destruct tt, te; destruct y as [|a [|b y] ]; intros L; cbn in L; try lia; repeat split; intros; try discriminate; reflexivity. Qed.
Theorem C106_time : forall te x y, List.length y = List.length (T_idx te) ->
  T_H2 K U' te x (state_moved g c y) = T_H2 K U te x y /\
  T_w U' te x (state_moved g c y) = T_w U te x y /\
  T_inflating U' te x (state_moved g c y) = T_inflating U te x y /\
  T_call K U' te x (state_moved g c y) = rate_moved g (T_call K U te x y).
Proof.
  intros te x y L. destruct (T_parts te y L) as (E1 & E2 & E3 & _).
  assert (EH : T_H2 K U' te x (state_moved g c y) = T_H2 K U te x y).
  { unfold T_H2, T_get_H2. rewrite E1, E2, E3. unfold U'. cbn [pV pot_moved]. rewrite g_back, g_2. reflexivity. }
  split; [exact EH|]. split; [|split].
  - unfold T_w. cbv zeta. rewrite E1, E2. unfold U'. cbn [pV pot_moved]. rewrite g_back, g_2. reflexivity.
  - unfold T_inflating. rewrite E1, E2. unfold U'. cbn [pV pot_moved]. rewrite g_back, g_2. reflexivity.
  - assert (ED : T_get_d2phi (T_H2 K U te x y) (g * var (T_idx te) "dphidt" y) (pdV U' (g * var (T_idx te) "phi" y + c))
      = g * T_get_d2phi (T_H2 K U te x y) (var (T_idx te) "dphidt" y) (pdV U (var (T_idx te) "phi" y))).
    { unfold U', T_get_d2phi. cbn [pdV pot_moved]. rewrite g_back. ring. }
    unfold T_call. cbv zeta. rewrite EH, E1, E2, E3, ED. set (dd := T_get_d2phi _ _ _). set (h := sqrt _).
    destruct te; destruct y as [|a [|b [|n y] ] ]; cbn in L; try lia; reflexivity.
Qed.
Theorem C106_efolds : forall tt te x y, List.length y = List.length (N_idx tt te) ->
  N_H2 K U' tt te x (state_moved g c y) = N_H2 K U tt te x y /\
  N_w K U' tt te x (state_moved g c y) = N_w K U tt te x y /\
  N_inflating K U' tt te x (state_moved g c y) = N_inflating K U tt te x y /\
  N_call K U' tt te x (state_moved g c y) = rate_moved g (N_call K U tt te x y).
Proof.
  intros tt te x y L. destruct (N_parts tt te y L) as (E1 & E2 & _).
  assert (EH : N_H2 K U' tt te x (state_moved g c y) = N_H2 K U tt te x y).
  { unfold N_H2, N_get_H2. rewrite E1, E2. unfold U'. cbn [pV pot_moved]. rewrite g_back, g_2. reflexivity. }
  split; [exact EH|]. split; [|split].
  - unfold N_w. cbv zeta. rewrite EH, E1, E2. unfold U'. cbn [pV pot_moved]. rewrite g_back, g_2. reflexivity.
  - unfold N_inflating. rewrite EH, E1, E2. unfold U'. cbn [pV pot_moved]. rewrite g_back, g_2. reflexivity.
  - unfold N_call. cbv zeta. rewrite EH, E1, E2.
    assert (EDH : N_get_dH_H x (N_H2 K U tt te x y) (g * var (N_idx tt te) "dphidN" y) K = N_get_dH_H x (N_H2 K U tt te x y) (var (N_idx tt te) "dphidN" y) K).
    { unfold N_get_dH_H. rewrite g_2. reflexivity. }
    rewrite EDH. set (dHH := N_get_dH_H _ _ _ _).
    assert (ED : N_get_d2phi (N_H2 K U tt te x y) dHH (g * var (N_idx tt te) "dphidN" y) (pdV U' (g * var (N_idx tt te) "phi" y + c))
      = g * N_get_d2phi (N_H2 K U tt te x y) dHH (var (N_idx tt te) "dphidN" y) (pdV U (var (N_idx tt te) "phi" y))).
    { unfold U', N_get_d2phi. cbn [pdV pot_moved]. rewrite g_back. unfold Rdiv. ring. }
    rewrite ED. set (dd := N_get_d2phi _ _ _ _). set (h := N_H2 K U tt te x y).
    destruct tt, te; destruct y as [|a [|b y] ]; cbn in L; try lia; reflexivity.
Qed.
(** the derivative of the moved state is the moved rate *)
Lemma moved_rate (y : R -> list R) (d : list R) x n :
  (2 <= n)%nat -> locally x (fun u => List.length (y u) = n) -> List.length d = n ->
  (forall i, (i < n)%nat -> is_derive (fun s => nth i (y s) 0) x (nth i d 0)) ->
  forall i, (i < n)%nat -> is_derive (fun s => nth i (state_moved g c (y s)) 0) x (nth i (rate_moved g d) 0).
Proof.
  intros N2 L LX D i Hi.
  destruct i as [|[|i] ].
  - apply (is_derive_ext_loc (fun s => g * nth 0 (y s) 0 + c)).
    { refine (filter_imp (F := locally x) _ _ _ L). intros u Lu. destruct (y u) as [|a [|b z] ]; cbn in Lu |- *; [lia|lia|reflexivity]. }
    apply (is_derive_eq _ _ _ (g * nth 0 d 0 + 0)).
    + apply (@is_derive_plus R_AbsRing R_NormedModule); [apply is_derive_scal, D; lia|apply (@is_derive_const R_AbsRing R_NormedModule)].
    + destruct d as [|a [|b z] ]; cbn in LX |- *; try lia. toR. ring.
  - apply (is_derive_ext_loc (fun s => g * nth 1 (y s) 0)).
    { refine (filter_imp (F := locally x) _ _ _ L). intros u Lu. destruct (y u) as [|a [|b z] ]; cbn in Lu |- *; [lia|lia|reflexivity]. }
    apply (is_derive_eq _ _ _ (g * nth 1 d 0)).
    + apply is_derive_scal, D; lia.
    + destruct d as [|a [|b z] ]; cbn in LX |- *; try lia. reflexivity.
  - apply (is_derive_ext_loc (fun s => nth (S (S i)) (y s) 0)).
    { refine (filter_imp (F := locally x) _ _ _ L). intros u Lu. destruct (y u) as [|a [|b z] ]; cbn in Lu |- *; [lia|lia|reflexivity]. }
    apply (is_derive_eq _ _ _ (nth (S (S i)) d 0)); [apply D; exact Hi|].
    destruct d as [|a [|b z] ]; cbn in LX |- *; try lia. reflexivity.
Qed.
Lemma moved_solution f f' n y a b : (2 <= n)%nat -> (forall x z, List.length z = n -> List.length (f x z) = n) ->
  (forall x z, List.length z = n -> f' x (state_moved g c z) = rate_moved g (f x z)) ->
  is_solution f n y a b -> is_solution f' n (fun x => state_moved g c (y x)) a b.
Proof.
  intros N2 LF E S x Hx. destruct (S x Hx) as [L D]. split.
  - destruct (y x) as [|p [|q z] ]; exact L.
  - rewrite E by exact L. apply (moved_rate y (f x (y x)) x n N2); [|apply LF; exact L|exact D].
    assert (0 < Rmin (x - a) (b - x)) as P by (apply Rmin_pos; lra).
    exists (mkposreal _ P). intros u Hu. apply S. unfold ball in Hu. cbn in Hu. unfold AbsRing_ball, abs, minus, plus, opp in Hu. cbn in Hu.
    pose proof (Rmin_l (x - a) (b - x)). pose proof (Rmin_r (x - a) (b - x)). apply Rabs_def2 in Hu. lra.
Qed.
Lemma set_nth_length {A} i (v : A) l : List.length (set_nth i v l) = List.length l.
Proof. revert i. induction l as [|h l IH]; intros [|i]; cbn; congruence. Qed.
(** hence: the same history, in the other coordinate, is a solution for the moved potential *)
Theorem C106_time_background : forall te y a b, T_background K U te y a b -> T_background K U' te (fun t => state_moved g c (y t)) a b.
Proof.
  intros te y a b [S P]. split.
  - apply (moved_solution (T_call K U te)); [destruct te; cbn; lia| |intros; apply C106_time; assumption|exact S].
    intros x z L. unfold T_call. cbv zeta. destruct te; rewrite ?set_nth_length, repeat_length; exact L.
  - intros t Ht. destruct (S t Ht) as [L _]. destruct (P t Ht) as [P1 P2]. destruct (C106_time te t (y t) L) as (-> & _). split; [exact P1|].
    unfold T_phi. destruct (T_parts te (y t) L) as (-> & _). apply smooth_moved. exact P2.
Qed.
Theorem C106_efolds_background : forall tt te y a b, N_background K U tt te y a b -> N_background K U' tt te (fun n => state_moved g c (y n)) a b.
Proof.
  intros tt te y a b [S P]. split.
  - apply (moved_solution (N_call K U tt te)); [destruct tt, te; cbn; lia| |intros; apply C106_efolds; assumption|exact S].
    intros x z L. unfold N_call. cbv zeta. destruct tt, te; rewrite ?set_nth_length, repeat_length; exact L.
  - intros t Ht. destruct (S t Ht) as [L _]. destruct (P t Ht) as (P1 & P2 & P3). destruct (C106_efolds tt te t (y t) L) as (-> & _). split; [exact P1|].
    unfold N_phi, N_dphi in *. destruct (N_parts tt te (y t) L) as (-> & -> & _). rewrite g_2. split; [exact P2|]. apply smooth_moved. exact P3.
Qed.
(** every event function has the same value; a Phi0Event must be asked for the same place, and after a reflection
    its function has the opposite sign (so its direction must be reversed) *)
Theorem C106_events : (forall te e x y, List.length y = List.length (T_idx te) -> (forall d t v, e <> Phi0 d t v) ->
    event_call (T_eqs K U' te) e x (state_moved g c y) = event_call (T_eqs K U te) e x y) /\
  (forall tt te e x y, List.length y = List.length (N_idx tt te) -> (forall d t v, e <> Phi0 d t v) -> (tt = true \/ forall v, e <> UntilT v) ->
    event_call (N_eqs K U' tt te) e x (state_moved g c y) = event_call (N_eqs K U tt te) e x y) /\
  (forall te d t v x y, List.length y = List.length (T_idx te) ->
    event_call (T_eqs K U' te) (Phi0 d t (g * v + c)) x (state_moved g c y) = g * event_call (T_eqs K U te) (Phi0 d t v) x y) /\
  (forall tt te d t v x y, List.length y = List.length (N_idx tt te) ->
    event_call (N_eqs K U' tt te) (Phi0 d t (g * v + c)) x (state_moved g c y) = g * event_call (N_eqs K U tt te) (Phi0 d t v) x y).
Proof.
  split; [|split; [|split] ].
  - intros te e x y L NP. destruct (C106_time te x y L) as (E1 & E2 & E3 & _). destruct (T_parts te y L) as (_ & _ & P3 & _).
    destruct e; try (exfalso; eapply NP; reflexivity); cbn [event_call T_eqs e_t e_N e_inflating e_w e_H2]; rewrite ?E1, ?E2, ?E3, ?P3; reflexivity.
  - intros tt te e x y L NP NT. destruct (C106_efolds tt te x y L) as (E1 & E2 & E3 & _). destruct (N_parts tt te y L) as (_ & _ & P3 & _).
    destruct e; try (exfalso; eapply NP; reflexivity); cbn [event_call N_eqs e_t e_N e_inflating e_w e_H2]; rewrite ?E1, ?E2, ?E3; try reflexivity.
    destruct NT as [TT|X]; [rewrite (P3 TT); reflexivity|exfalso; eapply X; reflexivity].
  - intros te d t v x y L. destruct (T_parts te y L) as (P1 & _). cbn [event_call T_eqs e_phi]. rewrite P1. ring.
  - intros tt te d t v x y L. destruct (N_parts tt te y L) as (P1 & _). cbn [event_call N_eqs e_phi]. rewrite P1. ring.
Qed.

(** ** Hubble-flow numbers: what the approximate spectra and n_s, r, alpha_s are made of *)
Theorem C106_flow : forall kind N H phi p,
  flow_of (mkaeqs kind K U') K N H (g * phi + c) (g * p) = flow_of (mkaeqs kind K U) K N H phi p.
Proof.
  intros kind N H phi p. unfold flow_of, U'. cbn [a_kind a_U pot_moved pdV pd2V pd3V]. rewrite g_back. cbv zeta.
  set (v1 := pdV U phi). set (v2 := pd2V U phi). set (v3 := pd3V U phi). clearbody v1 v2 v3. destruct kind.
  - assert (A1 : T_get_dH N H (g * p) K = T_get_dH N H p K) by (unfold T_get_dH; destruct HG as [-> | ->]; field). rewrite A1. set (dH := T_get_dH N H p K).
    assert (A2 : T_get_d2phi (H ^ 2) (g * p) (g * v1) = g * T_get_d2phi (H ^ 2) p v1) by (unfold T_get_d2phi; ring). rewrite A2. set (d2p := T_get_d2phi _ _ _).
    assert (A3 : T_get_d2H N H dH (g * p) (g * d2p) K = T_get_d2H N H dH p d2p K) by (unfold T_get_d2H; destruct HG as [-> | ->]; ring). rewrite A3. set (d2H := T_get_d2H _ _ _ _ _ _).
    assert (A4 : T_get_d3phi H dH d2H (g * p) (g * d2p) (g * v1) v2 = g * T_get_d3phi H dH d2H p d2p v1 v2) by (unfold T_get_d3phi; destruct HG as [-> | ->]; unfold Rdiv; ring). rewrite A4. set (d3p := T_get_d3phi _ _ _ _ _ _ _).
    assert (A5 : T_get_d3H N H dH d2H (g * p) (g * d2p) (g * d3p) K = T_get_d3H N H dH d2H p d2p d3p K) by (unfold T_get_d3H; destruct HG as [-> | ->]; ring). rewrite A5. set (d3H := T_get_d3H _ _ _ _ _ _ _ _).
    assert (A6 : T_get_d4phi H dH d2H d3H (g * p) (g * d2p) (g * d3p) (g * v1) v2 (g * v3) = g * T_get_d4phi H dH d2H d3H p d2p d3p v1 v2 v3) by (unfold T_get_d4phi; destruct HG as [-> | ->]; unfold Rdiv; ring). rewrite A6. set (d4p := T_get_d4phi _ _ _ _ _ _ _ _ _ _).
    unfold T_get_delta_1, T_get_delta_2, T_get_delta_3. 
    assert (Q : forall a b, g * a / (b * (g * p)) = a / (b * p)) by (intros a b; replace (b * (g * p)) with (g * (b * p)) by ring; apply g_quot).
    rewrite !Q. reflexivity.
  - assert (A1 : N_get_dH N H (g * p) K = N_get_dH N H p K) by (unfold N_get_dH; rewrite g_2; reflexivity). rewrite A1. set (dH := N_get_dH N H p K).
    assert (A0 : N_get_dH_H N (H ^ 2) (g * p) K = N_get_dH_H N (H ^ 2) p K) by (unfold N_get_dH_H; rewrite g_2; reflexivity). rewrite A0. set (dHH := N_get_dH_H _ _ _ _).
    assert (A2 : N_get_d2phi (H ^ 2) dHH (g * p) (g * v1) = g * N_get_d2phi (H ^ 2) dHH p v1) by (unfold N_get_d2phi, Rdiv; ring). rewrite A2. set (d2p := N_get_d2phi _ _ _ _).
    assert (A3 : N_get_d2H N H dH (g * p) (g * d2p) K = N_get_d2H N H dH p d2p K) by (unfold N_get_d2H, Rdiv; destruct HG as [-> | ->]; ring). rewrite A3. set (d2H := N_get_d2H _ _ _ _ _ _).
    assert (A4 : N_get_d3phi H dH d2H (g * p) (g * d2p) (g * v1) v2 = g * N_get_d3phi H dH d2H p d2p v1 v2) by (unfold N_get_d3phi, Rdiv; ring). rewrite A4. set (d3p := N_get_d3phi _ _ _ _ _ _ _).
    assert (A5 : N_get_d3H N H dH d2H (g * p) (g * d2p) (g * d3p) K = N_get_d3H N H dH d2H p d2p d3p K) by (unfold N_get_d3H, Rdiv; destruct HG as [-> | ->]; ring). rewrite A5. set (d3H := N_get_d3H _ _ _ _ _ _ _ _).
    assert (A6 : N_get_d4phi H dH d2H d3H (g * p) (g * d2p) (g * d3p) (g * v1) v2 (g * v3) = g * N_get_d4phi H dH d2H d3H p d2p d3p v1 v2 v3) by (unfold N_get_d4phi, Rdiv; destruct HG as [-> | ->]; ring). rewrite A6. set (d4p := N_get_d4phi _ _ _ _ _ _ _ _ _ _).
    unfold N_get_delta_1, N_get_delta_2, N_get_delta_3. rewrite !g_quot.
    assert (Q : forall a b, a * (g * b) / (g * p) = a * b / p) by (intros a b; replace (a * (g * b)) with (g * (a * b)) by ring; apply g_quot).
    rewrite !Q. reflexivity.
Qed.
End Eqs.

(** ** Exact spectra *)
Section Pert.
Variables (K k : R) (U : potfun) (x : sample).
Let U' := pot_moved g c U.
Let x' := sample_moved g c x.
Lemma moved_coeffs (time tensor : bool) ss : mode_coeffs time tensor K k U' (map (sample_moved g c) ss) = mode_coeffs time tensor K k U ss.
Proof.
  unfold mode_coeffs. rewrite !map_map.
  assert (X1 : forall s, Ns_damping2 K k U' (sample_moved g c s) = Ns_damping2 K k U s).
  { intros s. unfold Ns_damping2, Ns_xi, U'. cbn [sample_moved s_N s_H s_phi s_dphidt s_dphidN s_OmK pot_moved pdV]. rewrite g_back, g_2. f_equal. f_equal. f_equal.
    replace (s_H s ^ 2 * (g * s_dphidN s)) with (g * (s_H s ^ 2 * s_dphidN s)) by ring. apply g_quot. }
  assert (X2 : forall s, Ts_shared K k (sample_moved g c s) = Ts_shared K k s).
  { intros s. unfold Ts_shared. cbn [sample_moved s_N s_H s_phi s_dphidt s_dphidN s_OmK]. rewrite g_2. reflexivity. }
  assert (X3 : forall s, Ts_terms K U' (sample_moved g c s) = Ts_terms K U s).
  { intros s. unfold Ts_terms, U'. cbn [sample_moved s_N s_H s_phi s_dphidt s_dphidN s_OmK pot_moved pdV]. rewrite g_back, g_2. f_equal. f_equal.
    replace (s_H s * (g * s_dphidt s)) with (g * (s_H s * s_dphidt s)) by ring. apply g_quot. }
  f_equal; [f_equal|]; apply map_ext; intros s; destruct time, tensor; unfold Ts_frequency2, Ts_damping, Tt_frequency2, Tt_damping, Ns_frequency2, Ns_damping, Nt_frequency2, Nt_damping, Ns_xi;
    rewrite ?X1, ?X2, ?X3; cbn [sample_moved s_N s_H s_phi s_dphidt s_dphidN s_OmK]; rewrite ?g_2; reflexivity.
Qed.
Lemma moved_wk : Ts_HD_wk K k U' x' = Ts_HD_wk K k U x /\ Ns_HD_wk K k U' x' = Ns_HD_wk K k U x /\ Tt_HD_wk K k x' = Tt_HD_wk K k x /\ Nt_HD_wk K k x' = Nt_HD_wk K k x.
Proof.
  unfold Ts_HD_wk, Ns_HD_wk, Tt_HD_wk, Nt_HD_wk, U', x'. cbv zeta. cbn [sample_moved s_N s_H s_phi s_dphidt s_dphidN s_OmK pot_moved pdV pd2V]. rewrite g_back.
  set (v1 := pdV U _). set (v2 := pd2V U _). set (N := s_N x). set (H := s_H x). set (pt := s_dphidt x). set (pN := s_dphidN x). clearbody v1 v2 N H pt pN.
  assert (B1 : T_get_dH N H (g * pt) K = T_get_dH N H pt K) by (unfold T_get_dH; destruct HG as [-> | ->]; field).
  assert (B2 : T_get_dH_H N (H ^ 2) (g * pt) K = T_get_dH_H N (H ^ 2) pt K) by (unfold T_get_dH_H, Rdiv; destruct HG as [-> | ->]; ring).
  assert (B3 : T_get_d2phi (H ^ 2) (g * pt) (g * v1) = g * T_get_d2phi (H ^ 2) pt v1) by (unfold T_get_d2phi; ring).
  assert (B4 : forall d e, T_get_d2H N H d (g * pt) (g * e) K = T_get_d2H N H d pt e K) by (intros; unfold T_get_d2H; destruct HG as [-> | ->]; ring).
  assert (B5 : forall d e f, T_get_d3phi H d e (g * pt) (g * f) (g * v1) v2 = g * T_get_d3phi H d e pt f v1 v2) by (intros; unfold T_get_d3phi, Rdiv; destruct HG as [-> | ->]; ring).
  assert (C1 : N_get_dH N H (g * pN) K = N_get_dH N H pN K) by (unfold N_get_dH; rewrite g_2; reflexivity).
  assert (C2 : N_get_dH_H N (H ^ 2) (g * pN) K = N_get_dH_H N (H ^ 2) pN K) by (unfold N_get_dH_H; rewrite g_2; reflexivity).
  assert (C3 : forall h, N_get_d2phi (H ^ 2) h (g * pN) (g * v1) = g * N_get_d2phi (H ^ 2) h pN v1) by (intros; unfold N_get_d2phi, Rdiv; ring).
  assert (C4 : forall d e, N_get_d2H N H d (g * pN) (g * e) K = N_get_d2H N H d pN e K) by (intros; unfold N_get_d2H, Rdiv; destruct HG as [-> | ->]; ring).
  assert (C5 : forall d e f, N_get_d3phi H d e (g * pN) (g * f) (g * v1) v2 = g * N_get_d3phi H d e pN f v1 v2) by (intros; unfold N_get_d3phi, Rdiv; ring).
  assert (Q : forall a b d, a * (g * b) / (g * d) = a * b / d) by (intros a b d; replace (a * (g * b)) with (g * (a * b)) by ring; apply g_quot).
  rewrite B1, B2, B3, C1, C2, C3, B4, C4, B5, C5. rewrite !g_quot. rewrite !Q.
  assert (Q2 : forall b d h, 2 * (g * b) * h / (g * d) = 2 * b * h / d) by (intros b d h; replace (2 * (g * b) * h) with (g * (2 * b * h)) by ring; apply g_quot).
  rewrite ?Q2. repeat split; reflexivity.
Qed.
(** scalar vacua are multiplied by g, tensor vacua do not change *)
Definition cpair_sign (gg : R) (z : C * C) : C * C := ((RtoC gg * fst z)%C, (RtoC gg * snd z)%C).
Lemma cd_sign w a d r : cderiv w a d (g * r) = (RtoC g * cderiv w a d r)%C.
Proof. unfold cderiv. rewrite RtoC_mult. ring. Qed.
Lemma moved_vac (time : bool) vac : vacuum_ic time false K k U' vac x' = ScalingSpec.res_map (cpair_sign g) (vacuum_ic time false K k U vac x).
Proof.
  destruct moved_wk as (W1 & W2 & _).
  assert (RZ : forall n w a p, n / w / (a * (g * p)) = g * (n / w / (a * p))).
  { intros n w a p. replace (a * (g * p)) with (g * (a * p)) by ring. unfold Rdiv. rewrite (g_inv_mult (a * p)). ring. }
  assert (RT : forall n w a p H, n / w / (a * (g * p) / H) = g * (n / w / (a * p / H))).
  { intros n w a p H. replace (a * (g * p) / H) with (g * (a * p / H)) by (unfold Rdiv; ring). unfold Rdiv at 1 2 4 5. rewrite (g_inv_mult (a * p / H)). ring. }
  unfold vacuum_ic. destruct (String.eqb vac "k"); [|destruct (String.eqb vac "HD"); [|destruct (String.eqb vac "RST"); [|reflexivity] ] ];
    (destruct time; cbn [ScalingSpec.res_map]; f_equal; unfold cpair_sign, Ts_vac_k, Ts_vac_HD, Ts_vac_RST, Ns_vac_k, Ns_vac_HD, Ns_vac_RST; cbv zeta; rewrite ?W1, ?W2;
     unfold U', x'; cbn [sample_moved s_N s_H s_phi s_dphidt s_dphidN s_OmK pot_moved pdV fst snd]; rewrite ?g_back).
  1: assert (B2 : T_get_dH_H (s_N x) (s_H x ^ 2) (g * s_dphidt x) K = T_get_dH_H (s_N x) (s_H x ^ 2) (s_dphidt x) K) by (unfold T_get_dH_H, Rdiv; destruct HG as [-> | ->]; ring).
  1: assert (B3 : T_get_d2phi (s_H x ^ 2) (g * s_dphidt x) (g * pdV U (s_phi x)) = g * T_get_d2phi (s_H x ^ 2) (s_dphidt x) (pdV U (s_phi x))) by (unfold T_get_d2phi; ring).
  1: rewrite B2, B3, g_quot, RT, cd_sign, RtoC_mult; reflexivity.
  1: rewrite RZ; assert (C2 : N_get_dH_H (s_N x) (s_H x ^ 2) (g * s_dphidN x) K = N_get_dH_H (s_N x) (s_H x ^ 2) (s_dphidN x) K) by (unfold N_get_dH_H; rewrite g_2; reflexivity).
  1: assert (C3 : forall h, N_get_d2phi (s_H x ^ 2) h (g * s_dphidN x) (g * pdV U (s_phi x)) = g * N_get_d2phi (s_H x ^ 2) h (s_dphidN x) (pdV U (s_phi x))) by (intros; unfold N_get_d2phi, Rdiv; ring).
  1: rewrite C2, C3, g_quot, cd_sign, RtoC_mult; reflexivity.
  1: assert (B2 : T_get_dH_H (s_N x) (s_H x ^ 2) (g * s_dphidt x) K = T_get_dH_H (s_N x) (s_H x ^ 2) (s_dphidt x) K) by (unfold T_get_dH_H, Rdiv; destruct HG as [-> | ->]; ring).
  1: assert (B3 : T_get_d2phi (s_H x ^ 2) (g * s_dphidt x) (g * pdV U (s_phi x)) = g * T_get_d2phi (s_H x ^ 2) (s_dphidt x) (pdV U (s_phi x))) by (unfold T_get_d2phi; ring).
  1: rewrite B2, B3, g_quot, RT, cd_sign, RtoC_mult; reflexivity.
  1: rewrite RZ; assert (C2 : N_get_dH_H (s_N x) (s_H x ^ 2) (g * s_dphidN x) K = N_get_dH_H (s_N x) (s_H x ^ 2) (s_dphidN x) K) by (unfold N_get_dH_H; rewrite g_2; reflexivity).
  1: assert (C3 : forall h, N_get_d2phi (s_H x ^ 2) h (g * s_dphidN x) (g * pdV U (s_phi x)) = g * N_get_d2phi (s_H x ^ 2) h (s_dphidN x) (pdV U (s_phi x))) by (intros; unfold N_get_d2phi, Rdiv; ring).
  1: rewrite C2, C3, g_quot, cd_sign, RtoC_mult; reflexivity.
  - rewrite RT, RtoC_mult. f_equal. ring.
  - rewrite RZ, RtoC_mult. f_equal. ring.
Qed.
Lemma moved_vac_t (time : bool) vac : vacuum_ic time true K k U' vac x' = vacuum_ic time true K k U vac x.
Proof.
  destruct moved_wk as (_ & _ & W3 & W4). unfold vacuum_ic, Tt_vac_HD, Nt_vac_HD. rewrite W3, W4. reflexivity.
Qed.
End Pert.

Section Solve.
Variable oscode : list R -> R -> R -> list C -> list R -> R -> R -> list C * list C.
Variable nanmedian : list C -> C.
Lemma combine_sign norm vac y1 dy1 y2 dy2 : combine_solutions nanmedian norm (cpair_sign g vac) y1 dy1 y2 dy2 = combine_solutions nanmedian norm vac y1 dy1 y2 dy2.
Proof.
  destruct y1 as [|a1 l1]; [reflexivity|]. destruct dy1 as [|b1 l2]; [reflexivity|]. destruct y2 as [|a2 l3]; [reflexivity|]. destruct dy2 as [|b2 l4]; [reflexivity|].
  unfold combine_solutions. cbv zeta. f_equal. f_equal. unfold cpair_sign, coefficients_a_b. cbn [fst snd].
  set (A := nanmedian (last_five (a1 :: l1))). set (B := nanmedian (last_five (a2 :: l3))). destruct vac as [u du]. cbn [fst snd].
  unfold Cdiv.
  replace ((RtoC g * u * b2 - RtoC g * du * a2) * / (a1 * b2 - b1 * a2) * A + (RtoC g * u * b1 - RtoC g * du * a1) * / (a2 * b1 - b2 * a1) * B)%C
    with (RtoC g * ((u * b2 - du * a2) * / (a1 * b2 - b1 * a2) * A + (u * b1 - du * a1) * / (a2 * b1 - b2 * a1) * B))%C by ring.
  rewrite Cmod_mult, Cmod_R. set (z := Cmod _). replace (Rabs g) with 1; [rewrite Rmult_1_l; reflexivity|].
  destruct HG as [-> | ->]; [rewrite Rabs_R1; reflexivity|]. rewrite Rabs_left by lra. ring.
Qed.
Lemma powers_ext norm ic ic' r1 r2 vacuum : (forall v, ic' v = ScalingSpec.res_map (cpair_sign g) (ic v)) ->
  mode_powers nanmedian norm ic' r1 r2 vacuum = mode_powers nanmedian norm ic r1 r2 vacuum.
Proof.
  intros HI. unfold mode_powers. generalize (Ok [] : res (list (string * R))). induction vacuum as [|v vac IH]; intros d; [reflexivity|]. cbn [fold_left]. rewrite <- IH. f_equal.
  destruct d as [d|e]; [|reflexivity]. cbn [bind]. rewrite HI. destruct (ic v) as [w|e]; [|reflexivity]. cbn [ScalingSpec.res_map bind].
  rewrite combine_sign. reflexivity.
Qed.
Variable b : obg.
Theorem C106_mode : forall vacuum drop fb fe y0 k,
  solve_mode oscode nanmedian (bg_moved g c b) vacuum drop fb fe y0 k = solve_mode oscode nanmedian b vacuum drop fb fe y0 k.
Proof.
  intros vacuum drop fb fe y0 k. unfold solve_mode. cbn [ob_logaH ob_s ob_indep ob_x ob_K ob_U bg_moved].
  rewrite map_map. change (map (fun x => s_N (sample_moved g c x)) (ob_s b)) with (map s_N (ob_s b)).
  destruct (window (ob_logaH b) (map s_N (ob_s b)) k fb fe) as [[i j]|e]; cbn [bind fst snd]; [|reflexivity].
  destruct (if String.eqb (ob_indep b) "t" then _ else _) as [time|e]; cbn [bind]; [|reflexivity].
  rewrite !at_index_map. destruct (at_index (ob_x b) i) as [ti|e]; cbn [bind]; [|reflexivity]. destruct (at_index (ob_x b) j) as [tf|e]; cbn [bind]; [|reflexivity].
  destruct (at_index (ob_s b) i) as [s0|e]; cbn [bind ScalingSpec.res_map]; [|reflexivity]. rewrite !slice_map. cbv zeta. rewrite !moved_coeffs.
  destruct (at_index y0 (2 * 0)) as [x0|e]; cbn [bind]; [|reflexivity]. destruct (at_index y0 (2 * 0 + 1)) as [x1|e]; cbn [bind]; [|reflexivity].
  destruct (at_index y0 (2 * 1)) as [x2|e]; cbn [bind]; [|reflexivity]. destruct (at_index y0 (2 * 1 + 1)) as [x3|e]; cbn [bind]; [|reflexivity].
  rewrite (powers_ext _ (fun v => vacuum_ic time false (ob_K b) k (ob_U b) v s0)) by (intros v; apply moved_vac).
  set (MP := mode_powers _ _ _ _ _ _). destruct MP as [Ps|e]; cbn [bind]; [|reflexivity].
  assert (ET : forall r1 r2, mode_powers nanmedian (tensor_pps_norm k) (fun v => vacuum_ic time true (ob_K b) k (pot_moved g c (ob_U b)) v (sample_moved g c s0)) r1 r2 vacuum
    = mode_powers nanmedian (tensor_pps_norm k) (fun v => vacuum_ic time true (ob_K b) k (ob_U b) v s0) r1 r2 vacuum).
  { intros r1 r2. unfold mode_powers. generalize (Ok [] : res (list (string * R))). clear - HG. induction vacuum as [|v vac IH]; intros d; [reflexivity|]. cbn [fold_left]. rewrite <- IH. f_equal.
    rewrite moved_vac_t. reflexivity. }
  rewrite ET. reflexivity.
Qed.
(** ... and so is the whole result of solve_oscode, in cosmic time and in e-folds, whatever the ODE solver returns *)
Theorem C106_oscode : forall k vacuum drop fb fe y0 tol,
  solve_oscode oscode nanmedian (bg_moved g c b) k vacuum drop fb fe y0 tol = solve_oscode oscode nanmedian b k vacuum drop fb fe y0 tol.
Proof.
  intros k vacuum drop fb fe y0 tol. unfold solve_oscode. destruct tol; [reflexivity|]. cbv zeta.
  set (vac := match vacuum with None => ["RST"] | Some v => v end). set (ks := match k with KScalar k => [k] | KArray ks => ks end) in *.
  change (init_pps (bg_moved g c b) ks vac) with (init_pps b ks vac). change (ob_ic (bg_moved g c b)) with (ob_ic b).
  destruct (init_pps b ks vac) as [S0|e]; cbn [bind]; [|reflexivity].
  set (y := match y0 with None => ob_ic b | Some y => y end).
  assert (G : forall l i S p, k_loop (solve_mode oscode nanmedian (bg_moved g c b) vac drop fb fe y) vac i l S p
    = k_loop (solve_mode oscode nanmedian b vac drop fb fe y) vac i l S p).
  { induction l as [|u l IH]; intros i S p; [reflexivity|]. cbn [k_loop]. rewrite C106_mode. destruct (solve_mode oscode nanmedian b vac drop fb fe y u) as [z|e]; cbn [bind]; [|reflexivity].
    destruct (store i z S vac) as [S1|e]; cbn [bind]; [|reflexivity]. apply IH. }
  rewrite G. reflexivity.
Qed.
End Solve.
End Sign.

(** ** The package's symmetric potentials *)
Lemma m1_even z : powerRZ (-1) (2 * z) = 1.
Proof.
  replace (2 * z)%Z with (z + z)%Z by lia. rewrite powerRZ_add by lra. rewrite <- powerRZ_mult. replace (-1 * -1) with 1 by ring.
  destruct z as [|q|q]; cbn; rewrite ?pow1, ?Rinv_1; reflexivity.
Qed.
Lemma m1_odd z : powerRZ (-1) (2 * z + 1) = -1.
Proof. rewrite powerRZ_add by lra. rewrite m1_even, powerRZ_1. ring. Qed.
Lemma pypow_opp x z : pypow (- x) (IZR z) = powerRZ (-1) z * pypow x (IZR z).
Proof.
  destruct (Rtotal_order x 0) as [H|[-> |H] ].
  - rewrite pypow_pos by lra. rewrite pypow_neg by exact H. rewrite <- powerRZ_Rpower by lra. rewrite <- powerRZ_mult. f_equal. ring.
  - rewrite Ropp_0. unfold pypow. destruct (Rlt_dec 0 0); [lra|]. destruct (Req_EM_T 0 0); [|lra]. destruct (Req_EM_T (IZR z) 0) as [E|E]; [|ring].
    apply eq_IZR in E. subst z. cbn. ring.
  - rewrite pypow_neg by lra. rewrite pypow_pos by exact H. rewrite <- powerRZ_Rpower by exact H. rewrite <- powerRZ_mult. f_equal. ring.
Qed.
Lemma even_pow x p z : p = IZR (2 * z) -> pypow (- x) p = pypow x p.
Proof. intros ->. rewrite pypow_opp, m1_even. ring. Qed.
Lemma odd_pow x p z : p = IZR (2 * z + 1) -> pypow (- x) p = - pypow x p.
Proof. intros ->. rewrite pypow_opp, m1_odd. ring. Qed.
Lemma np_sign_opp x : np_sign (- x) = - np_sign x.
Proof. unfold np_sign. repeat match goal with |- context [Rlt_dec ?a ?b] => destruct (Rlt_dec a b) end; lra. Qed.
Lemma tanh_opp x : tanh (- x) = - tanh x.
Proof. unfold tanh, sinh, cosh. rewrite Ropp_involutive. unfold Rdiv. rewrite (Rplus_comm (exp (- x))). ring. Qed.

(** [o] is a centre of symmetry of the potential *)
Definition centre (P : pot) (o : R) : Prop :=
  match P with
  | Monomial _ | Linear | Quadratic | Cubic | Quartic => o = 0
  | Natural phi0 => phi0 <> 0 /\ (o = 0 \/ o = phi0)   (* minimum and maximum *)
  | DoubleWell p phi0 => phi0 <> 0 /\ o = phi0 /\ exists z : Z, p = IZR (2 * z)
  | DoubleWell2 phi0 | DoubleWell4 phi0 => phi0 <> 0 /\ o = phi0
  | Tmodel p _ => o = 0 /\ exists z : Z, p = IZR z
  | RadionGauge p _ => o = 0 /\ exists z : Z, p = IZR (2 * z)
  | RadionGauge2 _ => o = 0
  | Starobinsky | StarobinskyGaussianDip _ _ _ | StarobinskyTanhStep _ _ _ => False
  end.
Lemma dw_sym p phi0 L x : phi0 <> 0 -> (exists z : Z, p = IZR (2 * z)) ->
  dw_V p phi0 L (2 * phi0 - x) = dw_V p phi0 L x /\ dw_dV p phi0 L (2 * phi0 - x) = - dw_dV p phi0 L x /\
  dw_d2V p phi0 L (2 * phi0 - x) = dw_d2V p phi0 L x /\ dw_d3V p phi0 L (2 * phi0 - x) = - dw_d3V p phi0 L x.
Proof.
  intros H0 [z Hz]. assert (EX : dw_x phi0 (2 * phi0 - x) = - dw_x phi0 x) by (unfold dw_x; field; exact H0).
  unfold dw_V, dw_dV, dw_d2V, dw_d3V. cbv zeta. rewrite EX. set (w := dw_x phi0 x).
  rewrite (even_pow w p z Hz).
  rewrite (odd_pow w (p - 1) (z - 1)) by (rewrite Hz, plus_IZR, !mult_IZR, minus_IZR; ring).
  rewrite (even_pow w (p - 2) (z - 1)) by (rewrite Hz, !mult_IZR, minus_IZR; ring).
  rewrite (odd_pow w (p - 3) (z - 2)) by (rewrite Hz, plus_IZR, !mult_IZR, minus_IZR; ring).
  unfold Rdiv. repeat split; ring.
Qed.
Lemma mono_sym p L x : mono_V p L (- x) = mono_V p L x /\ mono_dV p L (- x) = - mono_dV p L x /\ mono_d2V p L (- x) = mono_d2V p L x /\ mono_d3V p L (- x) = - mono_d3V p L x.
Proof.
  unfold mono_V, mono_dV, mono_d2V, mono_d3V. rewrite Rabs_Ropp, np_sign_opp. replace ((- x) ^ 2) with (x ^ 2) by ring. repeat split; ring.
Qed.
Lemma rg_sym p al L x : (exists z : Z, p = IZR (2 * z)) -> rg_V p al L (- x) = rg_V p al L x /\ rg_dV p al L (- x) = - rg_dV p al L x /\ rg_d2V p al L (- x) = rg_d2V p al L x /\ rg_d3V p al L (- x) = - rg_d3V p al L x.
Proof.
  intros [z Hz]. unfold rg_V, rg_dV, rg_d2V, rg_d3V. cbv zeta.
  rewrite (even_pow x p z Hz).
  rewrite (even_pow x (2 * p) (2 * z)) by (rewrite Hz, !mult_IZR; ring).
  rewrite (odd_pow x (p - 1) (z - 1)) by (rewrite Hz, plus_IZR, !mult_IZR, minus_IZR; ring).
  rewrite (even_pow x (p - 2) (z - 1)) by (rewrite Hz, !mult_IZR, minus_IZR; ring).
  rewrite (odd_pow x (p - 3) (z - 2)) by (rewrite Hz, plus_IZR, !mult_IZR, minus_IZR; ring).
  unfold Rdiv. repeat split; ring.
Qed.
Lemma tm_sym p al L x : (exists z : Z, p = IZR z) -> tm_V p al L (- x) = tm_V p al L x /\ tm_dV p al L (- x) = - tm_dV p al L x /\ tm_d2V p al L (- x) = tm_d2V p al L x /\ tm_d3V p al L (- x) = - tm_d3V p al L x.
Proof.
  intros [z Hz]. assert (EC : tm_C al (- x) = - tm_C al x).
  { unfold tm_C, Rdiv. rewrite Ropp_mult_distr_l_reverse. apply tanh_opp. }
  unfold tm_V, tm_dV, tm_d2V, tm_d3V. cbv zeta. rewrite EC. set (w := tm_C al x).
  rewrite (even_pow w (2 * p) z) by (rewrite Hz, !mult_IZR; ring).
  rewrite (even_pow w (2 * p + 0) z) by (rewrite Hz, !mult_IZR; ring).
  rewrite (even_pow w (2 * p + 2) (z + 1)) by (rewrite Hz, !mult_IZR, plus_IZR; ring).
  rewrite (even_pow w (2 * p - 2) (z - 1)) by (rewrite Hz, !mult_IZR, minus_IZR; ring).
  rewrite (odd_pow w (2 * p - 1) (z - 1)) by (rewrite Hz, plus_IZR, !mult_IZR, minus_IZR; ring).
  rewrite (odd_pow w (2 * p + 1) z) by (rewrite Hz, plus_IZR, !mult_IZR; ring).
  rewrite (odd_pow w (2 * p - 3) (z - 2)) by (rewrite Hz, plus_IZR, !mult_IZR, minus_IZR; ring).
  rewrite (odd_pow w (2 * p + 3) (z + 1)) by (rewrite Hz, plus_IZR, !mult_IZR, plus_IZR; ring).
  unfold Rdiv. repeat split; ring.
Qed.
Lemma nat_sym phi0 L x : phi0 <> 0 -> nat_V phi0 L (2 * phi0 - x) = nat_V phi0 L x /\ nat_dV phi0 L (2 * phi0 - x) = - nat_dV phi0 L x /\ nat_d2V phi0 L (2 * phi0 - x) = nat_d2V phi0 L x /\ nat_d3V phi0 L (2 * phi0 - x) = - nat_d3V phi0 L x.
Proof.
  intros H0. unfold nat_V, nat_dV, nat_d2V, nat_d3V.
  assert (E : PI * (2 * phi0 - x) / phi0 = - (PI * x / phi0) + 2 * PI) by (field; exact H0). rewrite E.
  rewrite sin_plus, cos_plus, sin_2PI, cos_2PI, sin_neg, cos_neg. unfold Rdiv. repeat split; ring.
Qed.
Lemma nat_sym0 phi0 L x : nat_V phi0 L (- x) = nat_V phi0 L x /\ nat_dV phi0 L (- x) = - nat_dV phi0 L x /\ nat_d2V phi0 L (- x) = nat_d2V phi0 L x /\ nat_d3V phi0 L (- x) = - nat_d3V phi0 L x.
Proof.
  unfold nat_V, nat_dV, nat_d2V, nat_d3V.
  assert (E : PI * - x / phi0 = - (PI * x / phi0)) by (unfold Rdiv; ring). rewrite E, sin_neg, cos_neg. unfold Rdiv. repeat split; ring.
Qed.
Lemma quad_sym L x : quad_V L (- x) = quad_V L x /\ quad_dV L (- x) = - quad_dV L x /\ quad_d2V L (- x) = quad_d2V L x /\ quad_d3V (- x) = - quad_d3V x.
Proof. unfold quad_V, quad_dV, quad_d2V, quad_d3V. repeat split; ring. Qed.
(** The symmetric potentials of the package are their own mirror images ... *)
Theorem C106_symmetric : forall P L o, centre P o -> forall x,
  V P L (2 * o - x) = V P L x /\ dV P L (2 * o - x) = - dV P L x /\ d2V P L (2 * o - x) = d2V P L x /\ d3V P L (2 * o - x) = - d3V P L x.
Proof.
  intros P L o HC x.
  assert (Z : o = 0 -> 2 * o - x = - x) by (intros ->; ring).
  destruct P; cbn [centre] in HC; cbn [V dV d2V d3V].
  1-5: rewrite (Z HC); first [apply mono_sym|apply quad_sym].
  - contradiction.
  - destruct HC as [H0 [HO|HO] ]; [rewrite (Z HO); apply nat_sym0|]. subst o. apply nat_sym. exact H0.
  - destruct HC as (H0 & -> & HP). apply dw_sym; assumption.
  - destruct HC as (H0 & ->). apply dw_sym; [exact H0|]. exists 1%Z. reflexivity.
  - destruct HC as (H0 & ->). apply dw_sym; [exact H0|]. exists 2%Z. reflexivity.
  - destruct HC as (HO & HP). rewrite (Z HO). apply tm_sym. exact HP.
  - destruct HC as (HO & HP). rewrite (Z HO). apply rg_sym. exact HP.
  - rewrite (Z HC). apply rg_sym. exists 1%Z. reflexivity.
  - contradiction.
  - contradiction.
Qed.
Lemma own_image P L o : centre P o -> pot_moved (-1) (2 * o) (potfun_of P L) = potfun_of P L.
Proof.
  intros HC. unfold pot_moved, potfun_of. cbn [pV pdV pd2V pd3V].
  f_equal; apply functional_extensionality; intros x; destruct (C106_symmetric P L o HC x) as (E1 & E2 & E3 & E4);
    replace (-1 * (x - 2 * o)) with (2 * o - x) by ring; rewrite ?E1, ?E2, ?E3, ?E4; ring.
Qed.
(** ... so starting on the other side of the hill (or of the valley) gives the mirrored history with the same spectra *)
Theorem C106_other_side : forall P L o, centre P o ->
  (forall K te y a b, T_background K (potfun_of P L) te y a b -> T_background K (potfun_of P L) te (fun t => state_moved (-1) (2 * o) (y t)) a b) /\
  (forall K tt te y a b, N_background K (potfun_of P L) tt te y a b -> N_background K (potfun_of P L) tt te (fun n => state_moved (-1) (2 * o) (y n)) a b) /\
  (forall K kind N H phi p, flow_of (mkaeqs kind K (potfun_of P L)) K N H (2 * o - phi) (- p) = flow_of (mkaeqs kind K (potfun_of P L)) K N H phi p) /\
  (forall oscode nanmedian K x ss la ls ind ic k vacuum drop fb fe y0 tol,
     solve_oscode oscode nanmedian (mkobg K (potfun_of P L) x (map (sample_moved (-1) (2 * o)) ss) la ls ind ic) k vacuum drop fb fe y0 tol
     = solve_oscode oscode nanmedian (mkobg K (potfun_of P L) x ss la ls ind ic) k vacuum drop fb fe y0 tol).
Proof.
  intros P L o HC. pose proof (own_image P L o HC) as E. assert (S : is_sign (-1)) by (right; reflexivity).
  split; [|split; [|split] ].
  - intros K te y a b B. rewrite <- E. apply C106_time_background; assumption.
  - intros K tt te y a b B. rewrite <- E. apply C106_efolds_background; assumption.
  - intros K kind N H phi p. rewrite <- (C106_flow (-1) (2 * o) S K (potfun_of P L) kind N H phi p). rewrite E.
    replace (2 * o - phi) with (-1 * phi + 2 * o) by ring. replace (- p) with (-1 * p) by ring. reflexivity.
  - intros oscode nanmedian K x ss la ls ind ic k vacuum drop fb fe y0 tol.
    rewrite <- (C106_oscode (-1) (2 * o) S oscode nanmedian (mkobg K (potfun_of P L) x ss la ls ind ic)). unfold bg_moved. cbn [ob_K ob_U ob_x ob_s ob_logaH ob_logaH_star ob_indep ob_ic].
    rewrite E. reflexivity.
Qed.
(** concrete: an expanding background, its mirror image, and a positive power that is the same for both *)
Theorem C106_nonvacuous : (exists y, T_background 0 (pot_moved (-1) 3 (Vexp 10)) true y 1 3) /\
  (exists p P, solve_oscode osc_const med_hd (bg_moved (-1) 3 bg_flat_ex) (KScalar (1/2)) (Some ["k"]) true 0 100 (Some [1; 0; 0; 1]) false = Ok (RetMode (Some p)) /\
     dget "k" (pP_s p) = Ok P /\ 0 < P) /\
  s_dphidN (hd (mksample 0 0 0 0 0 0) (ob_s (bg_moved (-1) 3 bg_flat_ex))) = -1 /\
  centre (Natural 5) 5 /\ centre (Tmodel 2 1) 0.
Proof.
  assert (S : is_sign (-1)) by (right; reflexivity). split; [|split; [|split; [|split] ] ].
  - exists (fun t => state_moved (-1) 3 (y_flat t)). apply C106_time_background; [exact S|exact flat_background].
  - destruct bg_flat_run as (p & E & P & EP & LP). exists p, P. rewrite C106_oscode by exact S. split; [exact E|]. split; [exact EP|exact LP].
  - cbn. ring.
  - split; [lra|right; reflexivity].
  - split; [reflexivity|]. exists 2%Z. reflexivity.
Qed.
