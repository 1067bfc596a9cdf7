(** C121: on every background, every mode that solve_oscode is asked for exists, is determined by the vacuum,
    and an exact integrator as C89/C115 assume exists; slow-roll starts have modes for every wavenumber. *)
From Coq Require Import Reals List String Lra Lia.
From Coquelicot Require Import Coquelicot.
From Verif Require Import Base Model.Potentials Model.SlowRoll Model.Equations Model.Background Model.Float Model.Solution Model.InitCond Model.Perturbations Model.Oscode
  Spec.PotentialSpec Spec.SlowRollSpec Spec.BackgroundSpec Spec.PerturbationSpec Spec.SpectrumSpec
  Proofs.PhiEnd Proofs.SRN Proofs.Bracket Proofs.BackgroundT Proofs.BackgroundN Proofs.Unique Proofs.SlowRollBound Proofs.Roll Proofs.BackgroundEx Proofs.LinearODE
  Properties.InitProps Properties.PertProps Properties.ModeProps Properties.ModeUniqueProps Properties.SpectrumProps Properties.SlowRollBoundProps Properties.BracketProps Properties.EndNonvacuity Properties.OpenRollProps Properties.OpenEndProps Properties.OpenNonvacuity.
Import ListNotations.
Open Scope R_scope.

Lemma mode_exists (g w : R -> R) a b (vac : C * C) x0 : (forall x, a < x < b -> continuous g x /\ continuous w x) -> a < x0 < b ->
  exists u, complex_mode g w u a b /\ starts_from vac u x0.
Proof.
  intros CO H0. destruct (osc_exists g w a b x0 1 0 H0 CO) as (f & OF & F0 & F1). destruct (osc_exists g w a b x0 0 1 H0 CO) as (h & OH & H00 & H1).
  eexists. exact (superposition_mode g w f h a b vac x0 OF OH F0 F1 H00 H1).
Qed.
(** every initial value and derivative, at every moment of a background, belongs to exactly one mode *)
Theorem C121_time : forall tensor K k U te y a b vac t0, T_background K U te y a b -> regular_T tensor K k U te y a b -> a < t0 < b ->
  exists u, T_mode tensor K k U te y u a b /\ starts_from vac u t0 /\
    forall v, T_mode tensor K k U te y v a b -> starts_from vac v t0 -> forall t, a < t < b -> v t = u t.
Proof.
  intros tensor K k U te y a b vac t0 B RG H0. destruct (mode_exists _ _ a b vac t0 (T_coef_cont tensor K k U te y a b B RG) H0) as (u & MU & SU).
  exists u. split; [exact MU|]. split; [exact SU|]. intros v MV SV. exact (C112_unique_time tensor K k U te y a b v u vac t0 B RG H0 MV MU SV SU).
Qed.
Theorem C121_efolds : forall tensor K k U tt te y a b vac n0, N_background K U tt te y a b -> regular_N tensor K k tt te y a b -> a < n0 < b ->
  exists u, N_mode tensor K k U tt te y u a b /\ starts_from vac u n0 /\
    forall v, N_mode tensor K k U tt te y v a b -> starts_from vac v n0 -> forall n, a < n < b -> v n = u n.
Proof.
  intros tensor K k U tt te y a b vac n0 B RG H0. destruct (mode_exists _ _ a b vac n0 (N_coef_cont tensor K k U tt te y a b B RG) H0) as (u & MU & SU).
  exists u. split; [exact MU|]. split; [exact SU|]. intros v MV SV. exact (C112_unique_efolds tensor K k U tt te y a b v u vac n0 B RG H0 MV MU SV SU).
Qed.

(** ** the exact integrator *)
Lemma Ceq_dec' (x y : C) : {x = y} + {x <> y}.
Proof. destruct x as [p q], y as [r s]. destruct (Req_EM_T p r) as [->|N]; [destruct (Req_EM_T q s) as [->|N]|]; [left; reflexivity|right; congruence|right; congruence]. Qed.
Lemma two_exact (g w : bool -> R -> R) a b xs xi xj : (forall tensor x, a < x < b -> continuous (g tensor) x /\ continuous (w tensor) x) -> a < xi < b ->
  (map (w false) xs, map (g false) xs) <> (map (w true) xs, map (g true) xs) ->
  exists osc, forall tensor, integrates_exactly osc (g tensor) (w tensor) a b xs xi xj.
Proof.
  intros CO Hi NE.
  destruct (osc_exists (g false) (w false) a b xi 1 0 Hi (CO false)) as (f0 & OF0 & F00 & F01). destruct (osc_exists (g false) (w false) a b xi 0 1 Hi (CO false)) as (h0 & OH0 & H00 & H01).
  destruct (osc_exists (g true) (w true) a b xi 1 0 Hi (CO true)) as (f1 & OF1 & F10 & F11). destruct (osc_exists (g true) (w true) a b xi 0 1 Hi (CO true)) as (h1 & OH1 & H10 & H11).
  set (isS := fun (ws : list C) (gs : list R) => if list_eq_dec Ceq_dec' (map (fun z => Cmult z z) ws) (map RtoC (map (w false) xs)) then (if list_eq_dec Req_EM_T gs (map (g false) xs) then true else false) else false).
  exists (fun _ _ _ ws gs x0 d0 => let P := if isS ws gs then frozen (f0 xj) (h0 xj) else frozen (f1 xj) (h1 xj) in (run (RtoC x0) (RtoC d0) (fst P), run (RtoC x0) (RtoC d0) (snd P))).
  intros [|].
  - exists f1, h1. repeat (split; [assumption|]). intros ws Hws x0 d0. exists (fst (frozen (f1 xj) (h1 xj))), (snd (frozen (f1 xj) (h1 xj))). split; [apply frozen_ok|].
    replace (isS ws (map (g true) xs)) with false; [reflexivity|]. unfold isS. symmetry.
    destruct (list_eq_dec Ceq_dec' _ _) as [E|]; [|reflexivity]. destruct (list_eq_dec Req_EM_T _ _) as [E'|]; [|reflexivity]. exfalso. apply NE. rewrite Hws in E.
    assert (INJ : forall l l', map RtoC l = map RtoC l' -> l = l').
    { induction l as [|c l IH]; intros [|c' l'] X; try discriminate; [reflexivity|]. cbn [map] in X. injection X as X1 X2. f_equal; [exact X1|apply IH, X2]. }
    apply INJ in E. rewrite E, E'. reflexivity.
  - exists f0, h0. repeat (split; [assumption|]). intros ws Hws x0 d0. exists (fst (frozen (f0 xj) (h0 xj))), (snd (frozen (f0 xj) (h0 xj))). split; [apply frozen_ok|].
    replace (isS ws (map (g false) xs)) with true; [reflexivity|]. unfold isS. symmetry.
    destruct (list_eq_dec Ceq_dec' _ _) as [E|X]; [|contradiction]. destruct (list_eq_dec Req_EM_T _ _) as [E'|X]; [reflexivity|contradiction X; reflexivity].
Qed.
(** what C89 and C115 ask of the integrator can always be met, for scalar and tensor modes at once, when the
    sampled coefficients tell the two apart *)
Theorem C121_integrator_time : forall K k U te y a b xs ti tj, T_background K U te y a b -> regular_T false K k U te y a b -> a < ti < b ->
  (map (fun t => freq2 true false K k U (T_sample K U te y t)) xs, map (fun t => damp true false K k U (T_sample K U te y t)) xs)
    <> (map (fun t => freq2 true true K k U (T_sample K U te y t)) xs, map (fun t => damp true true K k U (T_sample K U te y t)) xs) ->
  exists osc, forall tensor, integrates_exactly osc (fun t => damp true tensor K k U (T_sample K U te y t)) (fun t => freq2 true tensor K k U (T_sample K U te y t)) a b xs ti tj.
Proof.
  intros K k U te y a b xs ti tj B RG Hi NE.
  apply (two_exact (fun tensor t => damp true tensor K k U (T_sample K U te y t)) (fun tensor t => freq2 true tensor K k U (T_sample K U te y t)) a b xs ti tj); [|exact Hi|exact NE].
  intros tensor. apply (T_coef_cont tensor K k U te y a b B). intros ->. exact (RG eq_refl).
Qed.
Theorem C121_integrator_efolds : forall K k U tt te y a b xs ni nj, N_background K U tt te y a b -> regular_N false K k tt te y a b -> a < ni < b ->
  (map (fun n => freq2 false false K k U (N_sample K U tt te y n)) xs, map (fun n => damp false false K k U (N_sample K U tt te y n)) xs)
    <> (map (fun n => freq2 false true K k U (N_sample K U tt te y n)) xs, map (fun n => damp false true K k U (N_sample K U tt te y n)) xs) ->
  exists osc, forall tensor, integrates_exactly osc (fun n => damp false tensor K k U (N_sample K U tt te y n)) (fun n => freq2 false tensor K k U (N_sample K U tt te y n)) a b xs ni nj.
Proof.
  intros K k U tt te y a b xs ni nj B RG Hi NE.
  apply (two_exact (fun tensor n => damp false tensor K k U (N_sample K U tt te y n)) (fun tensor n => freq2 false tensor K k U (N_sample K U tt te y n)) a b xs ni nj); [|exact Hi|exact NE].
  intros tensor. apply (N_coef_cont tensor K k U tt te y a b B). intros ->. exact (RG eq_refl).
Qed.

(** ** modes on a slow-roll run *)
(** In a flat or open universe started by SlowRollIC, from the start to the end of inflation inclusive, every
    wavenumber k > 0, scalar or tensor, and every vacuum imposed at any moment has exactly one mode *)
Theorem C121_slow_roll : forall root P L K tm te phi_i t_i eta_i x_end N_i e ic y0 y1,
  let U := potfun_of P L in
  root_spec root -> featureless P -> valid P -> (forall p phi0, P = DoubleWell p phi0 -> 1 <= p) -> P <> DoubleWell 1 (sqrt 2) ->
  L <> 0 -> K = 0 \/ K = -1 -> branch P phi_i -> phi_end root P L = Ok e -> e < phi_i ->
  sr_init (IN K U tm te) phi_i t_i eta_i x_end (kw_of (InN N_i)) = Ok ic ->
  List.length y0 = List.length (N_idx tm te) -> sr_call ic y0 = Ok (map Fin y1) ->
  exists y a b N_end, a < N_i < N_end /\ N_end < b /\ N_background K U tm te y a b /\ y N_i = y1 /\
    (forall n, N_i <= n < N_end -> 0 < N_inflating K U tm te n (y n)) /\ N_inflating K U tm te N_end (y N_end) = 0 /\
    forall tensor k vac n0, 0 < k -> N_i <= n0 <= N_end ->
      exists u, N_mode tensor K k U tm te y u a b /\ starts_from vac u n0 /\
        forall v, N_mode tensor K k U tm te y v a b -> starts_from vac v n0 -> forall n, a < n < b -> v n = u n.
Proof.
  intros root P L K tm te phi_i t_i eta_i x_end N_i e ic y0 y1 U HR HF HV HD HN HL HK' HB HE LE SI LY SC.
  assert (HK : K <= 0) by lra.
  destruct (C120_open_efolds root P L K tm te phi_i t_i eta_i x_end N_i e ic y0 y1 HR HF HV HD HN HL HK HB HE LE SI LY SC) as (y & a & b & N_end & N_sr & A1 & A2 & B & Ey & I & Z & _).
  destruct (branch_pos P L phi_i HF HV HL HB) as [V0 V1].
  destruct (srK_start_N K U tm te phi_i t_i eta_i x_end N_i ic y0 y1 V0 HK SI LY SC) as (E1 & E2 & L1).
  unfold U, potfun_of in E2. cbn [pV pdV] in E2.
  pose proof (phi_end_branch root P L e HR HF HV HL HN HE) as Be. destruct (phi_end_spec root P L e HR HF HV HL HE) as [_ Ee].
  pose proof (Rdiv_lt_0_compat _ _ V1 V0) as LP.
  assert (KP : 0 <= - K * exp (-2 * N_i)) by (pose proof (exp_pos (-2 * N_i)); apply Rmult_le_pos; lra).
  set (v_i := - dV P L phi_i / (3 * (V P L phi_i / 3 - K * exp (-2 * N_i)))) in *.
  set (kk := - K * exp (-2 * N_i)) in *.
  assert (VE : v_i = - dV P L phi_i / (3 * (V P L phi_i / 3 + kk))) by (unfold v_i, kk; do 2 f_equal; ring).
  assert (VI : - (dV P L phi_i / V P L phi_i) <= v_i < 0).
  { rewrite VE. set (w := 3 * (V P L phi_i / 3 + kk)). assert (W : V P L phi_i <= w) by (unfold w; lra).
    assert (X : 0 < dV P L phi_i / w) by (apply Rdiv_lt_0_compat; lra).
    assert (Y : dV P L phi_i / w <= dV P L phi_i / V P L phi_i) by (apply Rmult_le_compat_l; [lra|apply Rinv_le_contravar; lra]).
    replace (- dV P L phi_i / w) with (- (dV P L phi_i / w)) by (field; lra). lra. }
  assert (LM : (dV P L phi_i / V P L phi_i)^2 < 2) by (rewrite (branch_lam2 P L HF HV HL phi_i HB); pose proof (eps1_decr P e phi_i HF HV HD Be HB LE); lra).
  assert (L2 : v_i^2 < 2) by (set (lm := dV P L phi_i / V P L phi_i) in *; nra).
  pose proof (ok_dl P L K tm te HF HV HL HK phi_i v_i N_i y1 HB E1 E2 VI L2) as (_ & DL & _).
  pose proof (ost_rate P L K tm te HF HV HL HD HK phi_i v_i N_i y1 HB E1 E2 VI L2 y a b B ltac:(lra) Ey) as RATE.
  pose proof (ost_v2 P L K tm te HF HV HL HD HK phi_i v_i N_i y1 HB E1 E2 VI y a b B ltac:(lra) Ey) as V2.
  pose proof (orun_infl P L K tm te y a b B) as RI. cbv beta in RI.
  set (dl := Rmin (- v_i) _) in *. clearbody dl.
  assert (INF : forall n, N_i <= n < N_end -> forall s, N_i <= s <= n -> 0 < V P L (N_phi tm te y s) - (N_Hub K U tm te y s * N_dphi tm te y s)^2).
  { intros n Hn s Hs. unfold U. rewrite <- RI by lra. apply I. lra. }
  assert (RT : forall n, N_i <= n < N_end -> - sqrt 2 <= N_dphi tm te y n <= - dl).
  { intros n Hn. split; [apply (V2 n ltac:(lra) (INF n Hn))|apply (RATE n ltac:(lra) (INF n Hn)); lra]. }
  (* the same at the end of inflation, and slightly beyond both ends *)
  assert (CD : forall n, a < n < b -> continuous (N_dphi tm te y) n).
  { intros n Hn. destruct (N_comps K U tm te y a b B n Hn) as (_ & D & _). apply (ex_derive_continuous (N_dphi tm te y)). eexists. exact D. }
  assert (RE : - sqrt 2 - dl / 4 <= N_dphi tm te y N_end <= - dl / 2).
  { pose proof (CD N_end ltac:(lra)) as C. apply continuity_pt_filterlim in C. destruct (C (dl / 4) ltac:(lra)) as (r & Hr & X).
    set (n := N_end - Rmin r (N_end - N_i) / 2). assert (RM : 0 < Rmin r (N_end - N_i) <= r) by (split; [apply Rmin_glb_lt; lra|apply Rmin_l]). pose proof (Rmin_r r (N_end - N_i)) as RM2.
    assert (Hn : N_i <= n < N_end) by (unfold n; lra). pose proof (RT n Hn) as Y.
    assert (Q : Rabs (N_dphi tm te y n - N_dphi tm te y N_end) < dl / 4).
    { apply X. split; [split; [exact Coq.Init.Logic.I|unfold n; lra]|]. simpl. unfold R_dist. unfold n. apply Rabs_def1; lra. }
    apply Rabs_def2 in Q. lra. }
  assert (NEAR : forall m, a < m < b -> - sqrt 2 - dl / 4 <= N_dphi tm te y m <= - dl / 2 -> exists r, 0 < r /\ forall n, Rabs (n - m) < r -> a < n < b -> - sqrt 2 - dl / 2 <= N_dphi tm te y n < 0).
  { intros m Hm Hv. pose proof (CD m Hm) as C. apply continuity_pt_filterlim in C. destruct (C (dl / 4) ltac:(lra)) as (r & Hr & X). exists r. split; [exact Hr|]. intros n Hn Hab.
    destruct (Req_dec n m) as [->|NE]; [lra|]. assert (Q : Rabs (N_dphi tm te y n - N_dphi tm te y m) < dl / 4) by (apply X; split; [split; [exact Coq.Init.Logic.I|congruence]|exact Hn]).
    apply Rabs_def2 in Q. lra. }
  pose proof (RT N_i ltac:(lra)) as RI0.
  destruct (NEAR N_i ltac:(lra) ltac:(lra)) as (r1 & Hr1 & X1). destruct (NEAR N_end ltac:(lra) ltac:(lra)) as (r2 & Hr2 & X2).
  set (a' := Rmax a (N_i - r1)). set (b' := Rmin b (N_end + r2)).
  assert (HA : a <= a' /\ a' < N_i /\ N_i - r1 <= a') by (unfold a'; split; [apply Rmax_l|split; [apply Rmax_lub_lt; lra|apply Rmax_r]]).
  assert (HB' : b' <= b /\ N_end < b' /\ b' <= N_end + r2) by (unfold b'; split; [apply Rmin_l|split; [apply Rmin_glb_lt; lra|apply Rmin_r]]).
  assert (DLs : dl <= sqrt 2) by lra.
  assert (SLOW : forall n, a' < n < b' -> - sqrt 2 - dl / 2 <= N_dphi tm te y n < 0).
  { intros n Hn. destruct (Rlt_dec n N_i) as [X|X]; [apply X1; [apply Rabs_def1; lra|lra]|]. destruct (Rlt_dec n N_end) as [Y|Y]; [pose proof (RT n ltac:(lra)); lra|].
    apply X2; [apply Rabs_def1; lra|lra]. }
  assert (B' : N_background K U tm te y a' b').
  { destruct B as [Q1 Q2]. split; intros n Hn; [apply Q1|apply Q2]; lra. }
  exists y, a', b', N_end. split; [lra|]. split; [lra|]. split; [exact B'|]. split; [exact Ey|]. split; [exact I|]. split; [exact Z|].
  intros tensor k vac n0 Hk Hn0. apply (C121_efolds tensor K k U tm te y a' b' vac n0 B'); [|lra].
  intros _ n Hn. pose proof (SLOW n Hn) as S. split; [lra|]. unfold kappa2.
  assert (S2 : sqrt 2 * sqrt 2 = 2) by (apply sqrt_sqrt; lra). assert (S0 : 0 < sqrt 2) by (apply sqrt_lt_R0; lra).
  assert (VB : N_dphi tm te y n ^ 2 <= 9 / 2).
  { assert (W : - (3 / 2 * sqrt 2) <= N_dphi tm te y n < 0) by lra. set (v := N_dphi tm te y n) in *. clearbody v. clear - W S2 S0.
    set (r := sqrt 2) in *. clearbody r.
    assert (ZZ : 0 <= (3 / 2 * r + v) * (3 / 2 * r - v)) by (apply Rmult_le_pos; lra).
    replace ((3 / 2 * r + v) * (3 / 2 * r - v)) with (9 / 4 * (r * r) - v^2) in ZZ by field. rewrite S2 in ZZ. lra. }
  assert (0 < k^2) by (apply pow_lt, Hk). apply Rgt_not_eq. destruct HK' as [-> | ->]; lra.
Qed.


(** ** concrete cases: quadratic inflation in an open universe from phi = 10, and the closed background of C115 *)
Theorem C121_nonvacuous : (exists root, root_spec root /\ phi_end root Quadratic 1 = Ok (sqrt 2) /\
  exists ic y1 y a b N_end, sr_init (IN (-1) (potfun_of Quadratic 1) true true) 10 (Some 1) (Some 0) 0 (kw_of (InN 0)) = Ok ic /\
     sr_call ic [Fin 0; Fin 0; Fin 0; Fin 0] = Ok (map Fin y1) /\ a < 0 < N_end /\ N_end < b /\
     N_background (-1) (potfun_of Quadratic 1) true true y a b /\ y 0 = y1 /\
     forall tensor, exists u, N_mode tensor (-1) 1 (potfun_of Quadratic 1) true true y u a b /\ starts_from (RtoC 1, Ci) u 0) /\
  (let B := exp 13 in T_background 1 (Vexp 4) true y_closed 1 B /\ regular_T false 1 2 (Vexp 4) true y_closed 1 B /\ 1 < exp 1 < B /\
   (map (fun t => freq2 true false 1 2 (Vexp 4) (T_sample 1 (Vexp 4) true y_closed t)) ex_ts, map (fun t => damp true false 1 2 (Vexp 4) (T_sample 1 (Vexp 4) true y_closed t)) ex_ts)
    <> (map (fun t => freq2 true true 1 2 (Vexp 4) (T_sample 1 (Vexp 4) true y_closed t)) ex_ts, map (fun t => damp true true 1 2 (Vexp 4) (T_sample 1 (Vexp 4) true y_closed t)) ex_ts)) /\
  (let B := exp 13 in N_background 1 (Vexp 4) true true z_closed 0 (ln B) /\ regular_N false 1 2 true true z_closed 0 (ln B) /\ 0 < 1 < ln B /\
   (map (fun n => freq2 false false 1 2 (Vexp 4) (N_sample 1 (Vexp 4) true true z_closed n)) [1; 12], map (fun n => damp false false 1 2 (Vexp 4) (N_sample 1 (Vexp 4) true true z_closed n)) [1; 12])
    <> (map (fun n => freq2 false true 1 2 (Vexp 4) (N_sample 1 (Vexp 4) true true z_closed n)) [1; 12], map (fun n => damp false true 1 2 (Vexp 4) (N_sample 1 (Vexp 4) true true z_closed n)) [1; 12])).
Proof.
  split; [|split].
  - destruct C87_root_finder_exists as (root & HR & _). exists root. split; [exact HR|]. pose proof sq2 as S2.
    assert (PE : phi_end root Quadratic 1 = Ok (sqrt 2)) by (cbn; unfold mono_phi_end; do 2 f_equal; lra). split; [exact PE|].
    assert (HB : branch Quadratic 10) by (cbn; lra).
    destruct (startsK_N (-1) (potfun_of Quadratic 1) 10 1 0 0 0 quad_V10 ltac:(lra)) as (ic & y1 & SI & SC).
    destruct (C121_slow_roll root Quadratic 1 (-1) true true 10 (Some 1) (Some 0) 0 0 (sqrt 2) ic [Fin 0; Fin 0; Fin 0; Fin 0] y1 HR I I ltac:(intros; discriminate) ltac:(discriminate) ltac:(lra) ltac:(lra) HB PE ltac:(lra) SI eq_refl SC)
      as (y & a & b & N_end & A1 & A2 & B & Ey & IN & Z & MO).
    exists ic, y1, y, a, b, N_end. split; [exact SI|]. split; [exact SC|]. split; [exact A1|]. split; [exact A2|]. split; [exact B|]. split; [exact Ey|].
    intros tensor. destruct (MO tensor 1 (RtoC 1, Ci) 0 ltac:(lra) ltac:(lra)) as (u & M1 & M2 & _). exists u. split; assumption.
  - cbv zeta. destruct C115_nonvacuous as (pT & pN & C). cbv zeta in C. destruct C as (C1 & _ & C3 & _ & _ & C6 & _). split; [exact C1|]. split; [exact C3|]. split; [exact C6|].
    intros E. assert (E0 := f_equal (fun p => hd 0 (fst p)) E). unfold ex_ts in E0. cbn [fst map hd] in E0.
    rewrite (proj2 (coef_T (exp 13) false (exp 1) C6)), (proj2 (coef_T (exp 13) true (exp 1) C6)) in E0.
    apply (f_equal (fun z => z * exp 1 ^ 2)) in E0. pose proof (exp_pos 1). assert (Q : forall c, c / exp 1 ^ 2 * exp 1 ^ 2 = c) by (intros c; field; lra). rewrite !Q in E0. unfold cc in E0. lra.
  - cbv zeta. destruct C115_nonvacuous as (pT & pN & C). cbv zeta in C. destruct C as (C1 & _ & C3 & _ & C5 & C6 & _). split; [exact C5|].
    assert (LB : ln (exp 13) = 13) by apply ln_exp. split; [|split; [lra|]].
    + intros _ n Hn. destruct (proj1 (closed_clock_on (exp 13) exB) n Hn) as [T1 T2].
      assert (DN : N_dphi true true z_closed n = 2).
      { destruct (closed_match (exp 13) exB (exp n) T1) as (_ & _ & _ & M4 & _). rewrite T2 in M4. unfold T_sample in M4. cbn [s_H s_dphidt] in M4. rewrite closed_Hub, closed_dphi in M4 by lra.
        change (N_dphi true true z_closed n) with (s_dphidN (N_sample 1 (Vexp 4) true true z_closed n)). rewrite M4. field. lra. }
      rewrite DN. unfold kappa2. split; [lra|]. apply Rgt_not_eq. lra.
    + intros E. assert (E0 := f_equal (fun p => hd 0 (fst p)) E). cbn [fst map hd] in E0.
      assert (H1 : 0 < 1 < ln (exp 13)) by lra.
      rewrite (proj2 (coef_N (exp 13) exB false 1 H1)), (proj2 (coef_N (exp 13) exB true 1 H1)) in E0. unfold cc in E0. lra.
Qed.
