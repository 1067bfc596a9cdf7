(** C122: the powers solve_oscode reports are strictly positive. *)
From Coq Require Import Reals List String Lra Lia Classical.
From Coquelicot Require Import Coquelicot.
From Verif Require Import Base Model.Potentials Model.Equations Model.Background Model.Float Model.Perturbations Model.Oscode Spec.BackgroundSpec Spec.PerturbationSpec Spec.OscodeSpec
  Spec.SpectrumSpec Spec.PositiveSpec Proofs.BackgroundT Proofs.BackgroundN Proofs.PertT Proofs.Unique Proofs.BackgroundEx Properties.PertProps Properties.OscodeProps Properties.ModeProps
  Properties.ModeUniqueProps Properties.SpectrumProps.
Import ListNotations.
Open Scope R_scope.
Open Scope string_scope.

(** a complex mode with non-vanishing Wronskian vanishes nowhere *)
Lemma mode_nonzero g w u a b x0 v : (forall x, a < x < b -> continuous g x /\ continuous w x) -> complex_mode g w u a b -> a < x0 < b -> starts_from v u x0 ->
  wronskian v <> RtoC 0 -> forall x, a < x < b -> u x <> RtoC 0.
Proof.
  intros CO [OF OH] H0 (S0 & S1 & S2) W x Hx EX.
  set (f := fun s => fst (u s)) in *. set (h := fun s => snd (u s)) in *.
  assert (FX : f x = 0) by (unfold f; rewrite EX; reflexivity). assert (HX : h x = 0) by (unfold h; rewrite EX; reflexivity).
  destruct OF as (f1 & F). destruct OH as (h1 & H).
  assert (OF : oscillator g w f a b) by (exists f1; exact F). assert (OH : oscillator g w h a b) by (exists h1; exact H).
  assert (OZ : oscillator g w (fun _ => 0) a b).
  { exists (fun _ => 0). intros s Hs. split; [apply (@is_derive_const R_AbsRing R_NormedModule)|]. eapply is_derive_eq; [apply (@is_derive_const R_AbsRing R_NormedModule)|]. unfold zero; cbn. ring. }
  (* some non-trivial real combination vanishes with its derivative at x, hence everywhere *)
  assert (Q : exists c d, (c <> 0 \/ d <> 0) /\ c * f1 x + d * h1 x = 0).
  { destruct (Req_dec (f1 x) 0) as [E|N]; [exists 1, 0; split; [left; lra|rewrite E; ring]|exists (h1 x), (- f1 x); split; [right; lra|ring]]. }
  destruct Q as (c & d & ND & QD).
  pose proof (osc_lin g w f h a b c d OF OH) as OL.
  assert (DL : forall s, a < s < b -> is_derive (fun r => c * f r + d * h r) s (c * f1 s + d * h1 s)).
  { intros s Hs. apply (@is_derive_plus R_AbsRing R_NormedModule); apply is_derive_scal; [apply (F s Hs)|apply (H s Hs)]. }
  assert (Z : forall s, a < s < b -> c * f s + d * h s = 0).
  { intros s Hs. apply (osc_unique g w (fun r => c * f r + d * h r) (fun _ => 0) a b x OL OZ CO Hx); [rewrite FX, HX; ring| |exact Hs].
    etransitivity; [apply is_derive_unique; exact (DL x Hx)|]. rewrite QD. symmetry. apply Derive_const. }
  assert (Z1 : c * f1 x0 + d * h1 x0 = 0).
  { transitivity (Derive (fun r => c * f r + d * h r) x0); [symmetry; apply is_derive_unique; exact (DL x0 H0)|]. transitivity (Derive (fun _ => 0) x0); [|apply Derive_const]. apply Derive_ext_loc.
    assert (E : 0 < Rmin (x0 - a) (b - x0)) by (apply Rmin_glb_lt; lra). exists (mkposreal _ E). intros s Hs. change (Rabs (s + - x0) < Rmin (x0 - a) (b - x0)) in Hs.
    pose proof (Rmin_l (x0 - a) (b - x0)). pose proof (Rmin_r (x0 - a) (b - x0)). apply Rabs_def2 in Hs. apply Z. lra. }
  pose proof (Z x0 H0) as Z0.
  assert (E1 : f1 x0 = fst (snd v)) by (rewrite <- (is_derive_unique _ _ _ S1); symmetry; apply is_derive_unique, (F x0 H0)).
  assert (E2 : h1 x0 = snd (snd v)) by (rewrite <- (is_derive_unique _ _ _ S2); symmetry; apply is_derive_unique, (H x0 H0)).
  assert (E3 : f x0 = fst (fst v)) by (unfold f; rewrite S0; reflexivity). assert (E4 : h x0 = snd (fst v)) by (unfold h; rewrite S0; reflexivity).
  rewrite E1, E2 in Z1. rewrite E3, E4 in Z0. apply W. destruct v as [[p q] [r s]]. cbn [fst snd] in *.
  unfold wronskian, Cconj, Cminus, Cplus, Copp, Cmult, RtoC. cbn [fst snd].
  assert (D0 : p * s - q * r = 0).
  { destruct ND as [N|N].
    - apply Rmult_eq_reg_l with c; [|exact N]. replace (c * (p * s - q * r)) with ((c * p + d * q) * s - q * (c * r + d * s)) by ring. rewrite Z0, Z1. ring.
    - apply Rmult_eq_reg_l with d; [|exact N]. replace (d * (p * s - q * r)) with (p * (c * r + d * s) - (c * p + d * q) * r) by ring. rewrite Z0, Z1. ring. }
  apply injective_projections; cbn [fst snd]; [ring|].
  replace (p * s + - q * r + - (p * - s + q * r)) with (2 * (p * s - q * r)) by ring. rewrite D0. ring.
Qed.
Lemma imag_ne c : c <> 0 -> (0, - c) <> RtoC 0.
Proof. intros N E. injection E as E. lra. Qed.
Lemma inv_ne c d : c <> 0 -> d <> 0 -> c / d <> 0.
Proof. intros N D E. apply N. replace c with (c / d * d) by (field; exact D). rewrite E. ring. Qed.
(** every vacuum has a non-vanishing Wronskian *)
Lemma vacuum_wronskian time tensor K k U vac s v : 0 < s_H s -> 0 < k -> (tensor = false -> (if time : bool then s_dphidt s else s_dphidN s) <> 0) ->
  (vac = "HD" -> real_HD time tensor K k U s) -> vacuum_state time tensor K k U vac s v -> wronskian v <> RtoC 0.
Proof.
  intros HP HK HD HW VS. pose proof (exp_pos (s_N s)) as EP.
  destruct (C54_scalar_normalisation K k U s HP HK) as [CT CN]. destruct (C54_tensor_normalisation K k s HP HK) as (T1 & T2 & T3 & N1 & N2 & N3).
  unfold real_HD in HW. unfold vacuum_state in VS. destruct time, tensor.
  - assert (Q : 4 / (exp (s_N s) * exp (s_N s) ^ 2) <> 0) by (apply inv_ne; [lra|apply Rgt_not_eq, Rmult_lt_0_compat; [exact EP|apply pow_lt, EP]]).
    destruct VS as [[E ->]|[[E ->]|[E ->]]]; [rewrite T1|rewrite (T3 (HW E))|rewrite T2]; apply imag_ne; exact Q.
  - specialize (HD eq_refl). specialize (CT HD). cbv zeta in CT. destruct CT as (C1 & C2 & C3).
    assert (Q : 1 / (exp (s_N s) * (exp (s_N s) * s_dphidt s / s_H s) ^ 2) <> 0).
    { apply inv_ne; [lra|]. apply Rmult_integral_contrapositive_currified; [lra|]. apply pow_nonzero. unfold Rdiv. repeat apply Rmult_integral_contrapositive_currified; [lra|exact HD|apply Rinv_neq_0_compat; lra]. }
    destruct VS as [[E ->]|[[E ->]|[E ->]]]; [rewrite C1|rewrite (C3 (HW E))|rewrite C2]; apply imag_ne; exact Q.
  - assert (Q : 4 / (exp (s_N s) * s_H s * exp (s_N s) ^ 2) <> 0) by (apply inv_ne; [lra|apply Rgt_not_eq, Rmult_lt_0_compat; [apply Rmult_lt_0_compat; assumption|apply pow_lt, EP]]).
    destruct VS as [[E ->]|[[E ->]|[E ->]]]; [rewrite N1|rewrite (N3 (HW E))|rewrite N2]; apply imag_ne; exact Q.
  - specialize (HD eq_refl). specialize (CN HD). cbv zeta in CN. destruct CN as (C1 & C2 & C3).
    assert (Q : 1 / (exp (s_N s) * s_H s * (exp (s_N s) * s_dphidN s) ^ 2) <> 0).
    { apply inv_ne; [lra|]. apply Rmult_integral_contrapositive_currified; [apply Rgt_not_eq, Rmult_lt_0_compat; assumption|]. apply pow_nonzero. apply Rmult_integral_contrapositive_currified; [lra|exact HD]. }
    destruct VS as [[E ->]|[[E ->]|[E ->]]]; [rewrite C1|rewrite (C3 (HW E))|rewrite C2]; apply imag_ne; exact Q.
Qed.

(** ** the modes themselves *)
Theorem C122_mode_time : forall tensor K k U te y a b vac v u t0, T_background K U te y a b -> regular_T tensor K k U te y a b -> 0 < k -> a < t0 < b ->
  vacuum_state true tensor K k U vac (T_sample K U te y t0) v -> (vac = "HD" -> real_HD true tensor K k U (T_sample K U te y t0)) ->
  T_mode tensor K k U te y u a b -> starts_from v u t0 -> forall t, a < t < b -> u t <> RtoC 0.
Proof.
  intros tensor K k U te y a b vac v u t0 B RG HK H0 VS HW M SF. apply (mode_nonzero _ _ u a b t0 v (T_coef_cont tensor K k U te y a b B RG) M H0 SF).
  apply (vacuum_wronskian true tensor K k U vac (T_sample K U te y t0)); [apply (T_pos K U te y a b B t0 H0)|exact HK| |exact HW|exact VS].
  intros E. exact (proj1 (RG E t0 H0)).
Qed.
Theorem C122_mode_efolds : forall tensor K k U tt te y a b vac v u n0, N_background K U tt te y a b -> regular_N tensor K k tt te y a b -> 0 < k -> a < n0 < b ->
  vacuum_state false tensor K k U vac (N_sample K U tt te y n0) v -> (vac = "HD" -> real_HD false tensor K k U (N_sample K U tt te y n0)) ->
  N_mode tensor K k U tt te y u a b -> starts_from v u n0 -> forall n, a < n < b -> u n <> RtoC 0.
Proof.
  intros tensor K k U tt te y a b vac v u n0 B RG HK H0 VS HW M SF. apply (mode_nonzero _ _ u a b n0 v (N_coef_cont tensor K k U tt te y a b B RG) M H0 SF).
  apply (vacuum_wronskian false tensor K k U vac (N_sample K U tt te y n0)); [apply (N_pos K U tt te y a b B n0 H0)|exact HK| |exact HW|exact VS].
  intros E. exact (proj1 (RG E n0 H0)).
Qed.

(** ** the reported spectrum *)
Lemma spectrum_positive (time : bool) osc med K U samp a b X bg ks vs drop fb fe x1 d1 x2 d2 S :
  holds_samples time K U samp X bg -> List.Forall (fun x => a < x < b) X ->
  solve_oscode osc med bg (KArray ks) (Some vs) drop fb fe (Some [x1; d1; x2; d2]) false = Ok (RetPPS S) ->
  x1 * d2 - d1 * x2 <> 0 -> median_of_equal med ->
  (forall k, In k ks -> 0 < k /\ (forall tensor x, a < x < b -> continuous (fun x => damp time tensor K k U (samp x)) x /\ continuous (fun x => freq2 time tensor K k U (samp x)) x) /\
     exact_over_window osc time K U samp a b X bg fb fe k) ->
  (forall x, a < x < b -> 0 < s_H (samp x) /\ (if time then s_dphidt (samp x) else s_dphidN (samp x)) <> 0) ->
  forall vac, In vac vs -> In vac ["k"; "HD"; "RST"] ->
  (vac = "HD" -> forall tensor k x, In k ks -> a < x < b -> real_HD time tensor K k U (samp x)) ->
  exists Ps Pt, dget vac (ps_s S) = Ok Ps /\ dget vac (ps_t S) = Ok Pt /\ List.length Ps = List.length ks /\ List.length Pt = List.length ks /\
    List.Forall positive_number Ps /\ List.Forall positive_number Pt.
Proof.
  intros HS FA E WR M KS SM vac Hin Hv HW.
  destruct (C58_pointwise osc med bg ks vs drop fb fe [x1; d1; x2; d2] S E) as [_ PW]. destruct (PW vac Hin) as (Ps & Pt & GS & GT & LS & LT & PP).
  exists Ps, Pt. split; [exact GS|]. split; [exact GT|]. split; [exact LS|]. split; [exact LT|].
  assert (KEY : forall i, (i < List.length ks)%nat -> positive_number (nth i Ps NaN) /\ positive_number (nth i Pt NaN)).
  { intros m Hm. destruct (PP m Hm) as (p & s & t & R & _ & DS & DT & NS & NT). set (k := nth m ks 0) in *.
    assert (Kin : In k ks) by (apply nth_In; exact Hm). destruct (KS k Kin) as (K0 & CO & EW).
    assert (W : exists i j, window (ob_logaH bg) (map s_N (ob_s bg)) k fb fe = Ok (i, j)).
    { assert (R' := R). rewrite scalar_call in R'. destruct (ob_logaH_star bg); [|discriminate]. unfold solve_mode in R'.
      destruct (window (ob_logaH bg) (map s_N (ob_s bg)) k fb fe) as [[i j]|]; [exists i, j; reflexivity|discriminate]. }
    destruct W as (i & j & W). destruct (EW i j W) as (IJ & xi & xj & xs & Xi & Xj & RX & IE).
    assert (INX : forall x, In x X -> a < x < b) by (apply List.Forall_forall; exact FA).
    assert (Hxi : a < xi < b) by (apply INX; exact (nth_error_In _ _ Xi)). assert (Hxj : a < xj < b) by (apply INX; exact (nth_error_In _ _ Xj)).
    assert (PO : forall tensor : bool, (tensor = true \/ ~ (vac = "RST" /\ k < 1 /\ K = 1 /\ drop = true)) -> exists P, dget vac ((if tensor then pP_t else pP_s) p) = Ok P /\ 0 < P).
    { intros tensor ND.
      destruct (exact_power time osc med K U samp a b X k vs drop fb fe x1 d1 x2 d2 p i j xi xj xs vac bg HS R W IJ Xi Xj RX WR M IE Hin Hv tensor ND) as (u & v & VS & MU & SU & G).
      eexists. split; [exact G|]. destruct (SM xi Hxi) as [HP HD].
      assert (NZ : u xj <> RtoC 0).
      { apply (mode_nonzero _ _ u a b xi v (CO tensor) MU Hxi SU); [|exact Hxj]. apply (vacuum_wronskian time tensor K k U vac (samp xi) v HP K0 (fun _ => HD)); [|exact VS]. intros Ev. exact (HW Ev tensor k xi Kin Hxi). }
      apply Rmult_lt_0_compat; [apply pow_lt, Cmod_gt_0, NZ|]. apply Rdiv_lt_0_compat; [apply pow_lt, K0|]. apply Rmult_lt_0_compat; [destruct tensor; lra|apply pow_lt, PI_RGT_0]. }
    rewrite NS, NT. split.
    - destruct (classic (vac = "RST" /\ k < 1 /\ K = 1 /\ drop = true)) as [(-> & K1 & EK & ->)|ND].
      + assert (Z : dget "RST" (pP_s p) = Ok (1 / 10^30)).
        { apply (C58_closed_large_scales_partial osc med bg k vs fb fe [x1; d1; x2; d2] p Hin); [destruct HS as (EK' & _); congruence|exact K1|exact R]. }
        assert (Es : s = 1 / 10^30) by congruence. rewrite Es. change (0 < 1 / 10^30). apply Rdiv_lt_0_compat; [lra|apply (pow_lt 10 30); lra].
      + destruct (PO false (or_intror ND)) as (P & G & HP). rewrite G in DS. injection DS as <-. exact HP.
    - destruct (PO true (or_introl eq_refl)) as (P & G & HP). rewrite G in DT. injection DT as <-. exact HP. }
  assert (FO : forall l, List.length l = List.length ks -> (forall i, (i < List.length ks)%nat -> positive_number (nth i l NaN)) -> List.Forall positive_number l).
  { intros l Ll Hl. apply List.Forall_forall. intros x Hx. destruct (In_nth l x NaN Hx) as (i & Hi & <-). apply Hl. lia. }
  split; apply FO; try assumption; intros i Hi; apply (KEY i Hi).
Qed.

Theorem C122_time : forall osc med K U te y a b ts bg ks vs drop fb fe x1 d1 x2 d2 S,
  T_background K U te y a b -> List.Forall (fun t => a < t < b) ts -> holds_samples true K U (T_sample K U te y) ts bg ->
  solve_oscode osc med bg (KArray ks) (Some vs) drop fb fe (Some [x1; d1; x2; d2]) false = Ok (RetPPS S) ->
  x1 * d2 - d1 * x2 <> 0 -> median_of_equal med ->
  (forall t, a < t < b -> T_dphi te y t <> 0) ->
  (forall k, In k ks -> 0 < k /\ regular_T false K k U te y a b /\ exact_over_window osc true K U (T_sample K U te y) a b ts bg fb fe k) ->
  forall vac, In vac vs -> In vac ["k"; "HD"; "RST"] ->
  (vac = "HD" -> forall tensor k t, In k ks -> a < t < b -> real_HD true tensor K k U (T_sample K U te y t)) ->
  exists Ps Pt, dget vac (ps_s S) = Ok Ps /\ dget vac (ps_t S) = Ok Pt /\ List.length Ps = List.length ks /\ List.length Pt = List.length ks /\
    List.Forall positive_number Ps /\ List.Forall positive_number Pt.
Proof.
  intros osc med K U te y a b ts bg ks vs drop fb fe x1 d1 x2 d2 S B FA HS E WR M ND KS vac Hin Hv HW.
  apply (spectrum_positive true osc med K U (T_sample K U te y) a b ts bg ks vs drop fb fe x1 d1 x2 d2 S HS FA E WR M); [| |exact Hin|exact Hv|exact HW].
  - intros k Hk. destruct (KS k Hk) as (K0 & RG & EW). split; [exact K0|]. split; [|exact EW]. intros tensor. apply (T_coef_cont tensor K k U te y a b B). intros _. exact (RG eq_refl).
  - intros t Ht. split; [apply (T_pos K U te y a b B t Ht)|exact (ND t Ht)].
Qed.
Theorem C122_efolds : forall osc med K U tt te y a b ns bg ks vs drop fb fe x1 d1 x2 d2 S,
  N_background K U tt te y a b -> List.Forall (fun n => a < n < b) ns -> holds_samples false K U (N_sample K U tt te y) ns bg ->
  solve_oscode osc med bg (KArray ks) (Some vs) drop fb fe (Some [x1; d1; x2; d2]) false = Ok (RetPPS S) ->
  x1 * d2 - d1 * x2 <> 0 -> median_of_equal med ->
  (forall n, a < n < b -> N_dphi tt te y n <> 0) ->
  (forall k, In k ks -> 0 < k /\ regular_N false K k tt te y a b /\ exact_over_window osc false K U (N_sample K U tt te y) a b ns bg fb fe k) ->
  forall vac, In vac vs -> In vac ["k"; "HD"; "RST"] ->
  (vac = "HD" -> forall tensor k n, In k ks -> a < n < b -> real_HD false tensor K k U (N_sample K U tt te y n)) ->
  exists Ps Pt, dget vac (ps_s S) = Ok Ps /\ dget vac (ps_t S) = Ok Pt /\ List.length Ps = List.length ks /\ List.length Pt = List.length ks /\
    List.Forall positive_number Ps /\ List.Forall positive_number Pt.
Proof.
  intros osc med K U tt te y a b ns bg ks vs drop fb fe x1 d1 x2 d2 S B FA HS E WR M ND KS vac Hin Hv HW.
  apply (spectrum_positive false osc med K U (N_sample K U tt te y) a b ns bg ks vs drop fb fe x1 d1 x2 d2 S HS FA E WR M); [| |exact Hin|exact Hv|exact HW].
  - intros k Hk. destruct (KS k Hk) as (K0 & RG & EW). split; [exact K0|]. split; [|exact EW]. intros tensor. apply (N_coef_cont tensor K k U tt te y a b B). intros _. exact (RG eq_refl).
  - intros n Hn. split; [apply (N_pos K U tt te y a b B n Hn)|exact (ND n Hn)].
Qed.

(** the closed background of C115: cosmic time, scalar and tensor modes of k = 2 *)
Theorem C122_nonvacuous : exists S, let B := exp 13 in
  T_background 1 (Vexp 4) true y_closed 1 B /\ List.Forall (fun t => 1 < t < B) ex_ts /\ holds_samples true 1 (Vexp 4) (T_sample 1 (Vexp 4) true y_closed) ex_ts ex_bT /\
  solve_oscode osc_T med_hd ex_bT (KArray [2; 2]) (Some ["k"; "RST"]) true 0 (1/4) (Some [1; 0; 0; 1]) false = Ok (RetPPS S) /\ median_of_equal med_hd /\
  (forall t, 1 < t < B -> T_dphi true y_closed t <> 0) /\
  (forall k, In k [2; 2] -> 0 < k /\ regular_T false 1 k (Vexp 4) true y_closed 1 B /\ exact_over_window osc_T true 1 (Vexp 4) (T_sample 1 (Vexp 4) true y_closed) 1 B ex_ts ex_bT 0 (1/4) k) /\
  real_HD true false 1 5 (Vexp 4) (T_sample 1 (Vexp 4) true y_closed 2).
Proof.
  destruct C115_nonvacuous as (pT & pN & C). cbv zeta in C.
  destruct C as (C1 & _ & C3 & _ & _ & C6 & _ & C8 & C9 & _ & C11 & _ & C13 & C14 & C15 & C16 & _).
  assert (SU : exists S, solve_oscode osc_T med_hd ex_bT (KArray [2; 2]) (Some ["k"; "RST"]) true 0 (1/4) (Some [1; 0; 0; 1]) false = Ok (RetPPS S)).
  { apply C58_succeeds; [discriminate|]. intros k [<-|[<-|[]]]; exists pT; exact C11. }
  destruct SU as [S E]. exists S. cbv zeta. split; [exact C1|]. split; [exact C8|]. split; [exact C9|]. split; [exact E|]. split; [exact C15|].
  split. { intros t Ht. exact (proj1 (C3 eq_refl t Ht)). }
  split.
  - assert (K2 : 0 < 2 /\ regular_T false 1 2 (Vexp 4) true y_closed 1 (exp 13) /\ exact_over_window osc_T true 1 (Vexp 4) (T_sample 1 (Vexp 4) true y_closed) 1 (exp 13) ex_ts ex_bT 0 (1/4) 2).
    { split; [lra|]. split; [exact C3|]. intros i j W. rewrite C13 in W. injection W as <- <-. split; [lia|]. exists (exp 1), (exp 12), ex_ts. split; [reflexivity|]. split; [reflexivity|]. split; [exact C14|exact C16]. }
    intros k [<-|[<-|[]]]; exact K2.
  - exact C56_time_nonvacuous.
Qed.
