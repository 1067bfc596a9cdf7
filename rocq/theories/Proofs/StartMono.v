(** The further up the potential InflationStartIC starts, the longer inflation lasts (flat universe; used for C126). *)
From Coq Require Import Reals List String Lra Lia Classical.
From Coquelicot Require Import Coquelicot.
From Verif Require Import Base Model.Potentials Model.SlowRoll Model.Equations Model.Background Model.Float Model.Solution Model.InitCond
  Spec.PotentialSpec Spec.SlowRollSpec Spec.BackgroundSpec Proofs.PhiEnd Proofs.SRN Proofs.Bracket Proofs.BackgroundT Proofs.BackgroundN Proofs.BackgroundTN Proofs.BackgroundEx Proofs.FloatLemmas Proofs.Unique
  Proofs.SlowRollBound Proofs.Roll Proofs.RollEnd Proofs.FastRoll Proofs.StartCont Properties.BackgroundProps Properties.InitProps Properties.UniqueProps Properties.SlowRollBoundProps Properties.ExistenceProps Properties.InflationEndsProps
  Properties.StartEndsProps.
Import ListNotations.
Open Scope R_scope.

(** in a flat universe the equations in e-folds do not know which e-fold it is *)
Lemma N_shift U y a b h : N_background 0 U false false y a b -> N_background 0 U false false (fun n => y (n + h)) (a - h) (b - h).
Proof.
  assert (H2E : forall x z, N_H2 0 U false false x z = N_H2 0 U false false (x + h) z) by (intros x z; unfold N_H2, N_get_H2; f_equal; ring).
  assert (CALL : forall x z, N_call 0 U false false x z = N_call 0 U false false (x + h) z).
  { intros x z. unfold N_call. rewrite (H2E x z). cbv zeta iota. unfold N_get_dH_H, Rdiv. rewrite !Rmult_0_l. reflexivity. }
  intros [S Q]. split.
  - intros x Hx. destruct (S (x + h) ltac:(lra)) as [L D]. split; [exact L|]. intros i Hi. specialize (D i Hi).
    assert (DX : is_derive (fun s => s + h) x 1) by (auto_derive; [exact I|ring]).
    apply is_derive_eq with (1 := is_derive_comp (fun s => nth i (y s) 0) (fun s => s + h) x _ _ D DX).
    rewrite (CALL x). unfold scal; simpl; unfold mult; simpl. ring.
  - intros t Ht. specialize (Q (t + h) ltac:(lra)). rewrite (H2E t). exact Q.
Qed.
Lemma N_pair U y a b n : N_background 0 U false false y a b -> a < n < b -> y n = [N_phi false false y n; N_dphi false false y n].
Proof.
  intros [S _] Hn. destruct (S n Hn) as [L _]. unfold N_phi, N_dphi, var. change (pos_of (N_idx false false) "phi"%string) with 0%nat. change (pos_of (N_idx false false) "dphidN"%string) with 1%nat.
  destruct (y n) as [|u [|w [|x l] ] ]; cbn in L |- *; try discriminate. reflexivity.
Qed.
(** a continuous function that is positive at the start of an interval and nowhere zero on it stays positive *)
Lemma no_zero_pos (f : R -> R) c d : c <= d -> cont_in f c d -> 0 < f c -> (forall s, c <= s <= d -> f s <> 0) -> 0 < f d.
Proof.
  intros L C F0 NZ. destruct (Rlt_dec 0 (f d)) as [|N]; [assumption|]. exfalso.
  destruct (ivt f c d 0 L C) as (s & Hs & Es); [|exact (NZ s Hs Es)].
  unfold Rmin, Rmax. destruct (Rle_dec _ _); lra.
Qed.

(** the duration does not depend on the e-fold number the start is given *)
Lemma lasts_shift P L N_i N_i' phi M : lasts P L N_i phi M -> lasts P L N_i' phi M.
Proof.
  assert (IE : forall x x' z, N_inflating 0 (potfun_of P L) false false x z = N_inflating 0 (potfun_of P L) false false x' z) by (intros x x' z; unfold N_inflating, N_H2, N_get_H2; do 3 f_equal; ring).
  intros (M0 & y & a & b & B & A1 & A2 & Ey & I1 & Z). set (s := N_i - N_i').
  split; [exact M0|]. exists (fun n => y (n + s)), (a - s), (b - s). split; [exact (N_shift _ y a b s B)|]. unfold s in *. split; [lra|]. split; [lra|].
  split; [replace (N_i' + (N_i - N_i')) with N_i by ring; exact Ey|]. split.
  - intros n Hn. rewrite (IE n (n + (N_i - N_i'))). apply I1. lra.
  - rewrite (IE (N_i' + M) (N_i + M)). replace (N_i' + M + (N_i - N_i')) with (N_i + M) by ring. exact Z.
Qed.
(** the number of e-folds as a function of the starting field *)
Definition dur (P : pot) (L phi : R) : R := real (Lub_Rbar (lasts P L 0 phi)).

Section Mono.
Variables (P : pot) (L e N_i : R).
Let U := potfun_of P L.
Hypotheses (HF : featureless P) (HV : valid P) (HL : L <> 0) (HD : dw_ge1 P).
Hypotheses (Be : branch P e) (Ee : eps1V P e = 1).

(** between the start and the end the field moves down, slower than at the start *)
Lemma ld_strict phi M y a b : branch P phi -> e < phi -> 0 < M -> N_background 0 U false false y a b -> a < N_i -> N_i + M < b ->
  y N_i = [phi; - sqrt 2] -> (forall n, N_i < n < N_i + M -> 0 < N_inflating 0 U false false n (y n)) -> N_inflating 0 U false false (N_i + M) (y (N_i + M)) = 0 ->
  forall n, N_i <= n <= N_i + M -> N_dphi false false y n < 0 /\ (N_i < n < N_i + M -> - sqrt 2 < N_dphi false false y n).
Proof.
  intros HB LE M0 B A1 A2 Ey I1 Z n Hn.
  assert (S2 : sqrt 2 * sqrt 2 = 2) by (apply sqrt_sqrt; lra). assert (S0 : 0 < sqrt 2) by (apply sqrt_lt_R0; lra).
  pose proof (lam_lt P L HF HV HL HD phi e HB Be Ee LE) as LM. pose proof (lam_pos P L HF HV HL phi HB) as LP.
  assert (E1 : var (N_idx false false) "phi" [phi; - sqrt 2] = phi) by reflexivity. assert (E2 : var (N_idx false false) "dphidN" [phi; - sqrt 2] = - sqrt 2) by reflexivity.
  set (q := fun s => N_Hub 0 U false false y s * N_dphi false false y s).
  assert (RI : forall s, a < s < b -> N_inflating 0 U false false s (y s) = V P L (N_phi false false y s) - (q s)^2) by (intros s Hs; exact (run_infl P L false false y a b B s Hs)).
  pose proof (st_infl0 P L false false phi N_i _ E1 E2 y a b B ltac:(lra) Ey) as Z0.
  pose proof (f_v P L HF HV HL HD (N_phi false false y) q (fun x => x) (N_Hub 0 U false false y) (fun s => / N_Hub 0 U false false y s) N_i b (st_flow P L false false N_i y a b B ltac:(lra))
      (st_B0 P false false phi N_i _ HB E1 E2 y Ey) (st_fast P L false false phi N_i _ E1 E2 LM y a b B ltac:(lra) Ey) (N_i + M) ltac:(lra)) as G.
  assert (P0 : N_phi false false y N_i = phi) by (unfold N_phi; rewrite Ey; reflexivity).
  assert (G' : N_dphi false false y n <= - (dV P L phi / V P L phi)).
  { destruct (N_pos 0 U false false y a b B n ltac:(lra)) as (HP & _). cbv beta in G. rewrite P0 in G.
    replace (N_dphi false false y n) with (q n / N_Hub 0 U false false y n) by (unfold q; field; lra). apply G; [|exact Hn].
    intros s Hs. destruct (Req_dec s N_i) as [->|N1]; [right; symmetry; exact Z0|]. destruct (Req_dec s (N_i + M)) as [->|N2]; [right; rewrite <- RI by lra; symmetry; exact Z|]. left. rewrite <- RI by lra. apply I1. lra. }
  split; [lra|]. intros Hi. destruct (flat_infl P L false false y a b B n ltac:(lra)) as (h2 & H2 & E). pose proof (I1 n Hi) as J. unfold U in J. rewrite E in J.
  set (x := N_dphi false false y n) in *. clearbody x. assert (x^2 < 2) by nra. nra.
Qed.

Section Two.
Variables (phi1 phi2 M1 M2 : R) (y z : R -> list R) (a b a' b' : R).
Hypotheses (HB1 : branch P phi1) (HB2 : branch P phi2) (LE1 : e < phi1) (L12 : phi1 < phi2).
Hypotheses (M10 : 0 < M1) (By : N_background 0 U false false y a b) (A1 : a < N_i) (A2 : N_i + M1 < b) (Ey : y N_i = [phi1; - sqrt 2])
  (Iy : forall n, N_i < n < N_i + M1 -> 0 < N_inflating 0 U false false n (y n)) (Zy : N_inflating 0 U false false (N_i + M1) (y (N_i + M1)) = 0).
Hypotheses (M20 : 0 < M2) (Bz : N_background 0 U false false z a' b') (A1' : a' < N_i) (A2' : N_i + M2 < b') (Ez : z N_i = [phi2; - sqrt 2])
  (Iz : forall n, N_i < n < N_i + M2 -> 0 < N_inflating 0 U false false n (z n)) (Zz : N_inflating 0 U false false (N_i + M2) (z (N_i + M2)) = 0).
Let p := N_phi false false y.
Let v := N_dphi false false y.
Let p2 := N_phi false false z.
Let v2 := N_dphi false false z.

Lemma two_start : p N_i = phi1 /\ v N_i = - sqrt 2 /\ p2 N_i = phi2 /\ v2 N_i = - sqrt 2.
Proof. unfold p, v, p2, v2, N_phi, N_dphi. rewrite Ey, Ez. repeat split; reflexivity. Qed.
(** the two trajectories do not cross in the phase plane *)
Lemma two_no_cross n1 n2 : N_i <= n1 <= N_i + M1 -> N_i <= n2 <= N_i + M2 -> p n1 = p2 n2 -> v n1 = v2 n2 -> False.
Proof.
  intros H1 H2 EP EV. destruct two_start as (T1 & T2 & T3 & T4).
  pose proof (ld_stay P L e N_i HF HV HL HD Be Ee phi1 M1 y a b HB1 LE1 M10 By A1 A2 Ey Iy) as S1.
  pose proof (ld_end P L e N_i HF HV HL HD Be Ee phi2 M2 z a' b' HB2 ltac:(lra) M20 Bz A1' A2' Ez Iz Zz) as (_ & _ & PE2).
  pose proof (ld_strict phi2 M2 z a' b' HB2 ltac:(lra) M20 Bz A1' A2' Ez Iz Zz) as SZ.
  set (s := n2 - n1).
  assert (EQ : forall n, a < n < b -> a' < n + s < b' -> y n = z (n + s)).
  { intros n Hn Hs. apply (C110_efolds 0 U false false y (fun n => z (n + s)) a b (a' - s) (b' - s) n1 By (N_shift U z a' b' s Bz)); try (unfold s; lra); try lra.
    replace (n1 + s) with n2 by (unfold s; ring). rewrite (N_pair U y a b n1 By) by lra. rewrite (N_pair U z a' b' n2 Bz) by lra. fold p v p2 v2. rewrite EP, EV. reflexivity. }
  destruct (Rle_dec 0 s) as [SP|SN].
  - pose proof (EQ N_i ltac:(lra) ltac:(unfold s in *; lra)) as X.
    assert (X1 : p2 (N_i + s) = phi1) by (unfold p2, N_phi; rewrite <- X, Ey; reflexivity). assert (X2 : v2 (N_i + s) = - sqrt 2) by (unfold v2, N_dphi; rewrite <- X, Ey; reflexivity).
    destruct (Req_dec s 0) as [S0|S0]; [rewrite S0, Rplus_0_r in X1; lra|].
    destruct (Req_dec (N_i + s) (N_i + M2)) as [SE|SE]; [rewrite SE in X1; unfold p2 in X1; lra|].
    destruct (SZ (N_i + s) ltac:(unfold s in *; lra)) as (_ & Q). specialize (Q ltac:(unfold s in *; lra)). unfold v2 in X2. lra.
  - pose proof (EQ (N_i - s) ltac:(unfold s in *; lra) ltac:(unfold s in *; lra)) as X. replace (N_i - s + s) with N_i in X by ring.
    assert (X1 : p (N_i - s) = phi2) by (unfold p, N_phi; rewrite X, Ez; reflexivity).
    destruct (S1 (N_i - s) ltac:(unfold s in *; lra)) as (_ & Q & _). unfold p in X1. lra.
Qed.
(** starting further up, inflation lasts longer *)
Lemma two_mono : M1 < M2.
Proof.
  destruct two_start as (T1 & T2 & T3 & T4).
  pose proof (ld_stay P L e N_i HF HV HL HD Be Ee phi1 M1 y a b HB1 LE1 M10 By A1 A2 Ey Iy) as S1.
  pose proof (ld_end P L e N_i HF HV HL HD Be Ee phi1 M1 y a b HB1 LE1 M10 By A1 A2 Ey Iy Zy) as (VE1 & _ & PE1).
  pose proof (ld_end P L e N_i HF HV HL HD Be Ee phi2 M2 z a' b' HB2 ltac:(lra) M20 Bz A1' A2' Ez Iz Zz) as (VE2 & _ & PE2).
  pose proof (ld_strict phi1 M1 y a b HB1 LE1 M10 By A1 A2 Ey Iy Zy) as SY.
  pose proof (ld_strict phi2 M2 z a' b' HB2 ltac:(lra) M20 Bz A1' A2' Ez Iz Zz) as SZ.
  fold p v in S1, VE1, PE1, SY. fold p2 v2 in VE2, PE2, SZ.
  assert (FY : forall n, a < n < b -> is_derive p n (v n) /\ is_derive v n (- (3 - (v n)^2 / 2) * (v n + dV P L (p n) / V P L (p n)))) by (intros n Hn; exact (flat_flow P L false false y a b By n Hn)).
  assert (FZ : forall n, a' < n < b' -> is_derive p2 n (v2 n) /\ is_derive v2 n (- (3 - (v2 n)^2 / 2) * (v2 n + dV P L (p2 n) / V P L (p2 n)))) by (intros n Hn; exact (flat_flow P L false false z a' b' Bz n Hn)).
  assert (S2 : sqrt 2 * sqrt 2 = 2) by (apply sqrt_sqrt; lra). assert (S0 : 0 < sqrt 2) by (apply sqrt_lt_R0; lra).
  set (E2 := N_i + M2) in *.
  (* a little room after the end of the second run, where the field still moves down *)
  assert (ROOM : exists r, 0 < r /\ E2 + r < b' /\ forall s, E2 <= s <= E2 + r -> v2 s < 0).
  { assert (CP : continuity_pt v2 E2) by (apply continuity_pt_filterlim; apply (ex_derive_continuous v2); eexists; exact (proj2 (FZ E2 ltac:(unfold E2 in *; lra)))).
    destruct (CP (sqrt 2) S0) as (d & Hd & X). cbn in X. exists (Rmin (d / 2) ((b' - E2) / 2)).
    pose proof (Rmin_l (d / 2) ((b' - E2) / 2)) as Q1. pose proof (Rmin_r (d / 2) ((b' - E2) / 2)) as Q2.
    split; [apply Rmin_glb_lt; lra|]. split; [lra|]. intros s Hs. destruct (Req_dec s E2) as [->|NE]; [lra|].
    specialize (X s). assert (Y : R_dist (v2 s) (v2 E2) < sqrt 2) by (apply X; split; [split; [exact I|lra]|unfold R_dist; rewrite Rabs_right; lra]).
    unfold R_dist in Y. apply Rabs_def2 in Y. lra. }
  destruct ROOM as (r & Hr & RB & RV). set (F := E2 + r) in *.
  assert (VN : forall s, N_i <= s <= F -> v2 s < 0) by (intros s Hs; destruct (Rle_dec s E2); [apply SZ; unfold E2 in *; lra|apply RV; lra]).
  assert (DZ : forall s, N_i <= s <= F -> is_derive (fun s => - p2 s) s (- v2 s) /\ 0 < - v2 s).
  { intros s Hs. pose proof (VN s Hs). split; [|lra]. apply (@is_derive_opp R_AbsRing R_NormedModule p2 s (v2 s)). exact (proj1 (FZ s ltac:(unfold F, E2 in *; lra))). }
  destruct (inv_clock (fun s => - p2 s) (fun s => - v2 s) N_i F ltac:(unfold F, E2; lra) DZ) as (MO & nu & NU). cbv beta in MO, NU.
  assert (NUE : forall x, - p2 N_i < x -> x <= - p2 E2 -> N_i < nu x <= E2 /\ p2 (nu x) = - x).
  { intros x X1 X2. assert (X3 : - p2 E2 < - p2 F) by (apply MO; unfold F, E2; lra). destruct (NU x ltac:(lra)) as (X4 & X5). split; [|lra]. split; [lra|].
    apply Rnot_lt_le. intros X. pose proof (MO E2 (nu x) ltac:(unfold E2; lra) X ltac:(lra)). lra. }
  assert (DNU : forall x, - p2 N_i < x < - p2 F -> is_derive nu x (/ - v2 (nu x))).
  { intros x Hx. apply (inverse_derive (fun s => - p2 s) (fun s => - v2 s) nu N_i F (- p2 N_i) (- p2 F)); [intros s Hs; apply DZ; lra|intros s Hs; apply NU, Hs|exact Hx]. }
  set (sg := fun n => nu (- p n)).
  (* as long as the first field has not fallen below the end of the second run *)
  assert (DOM : forall n, N_i <= n <= N_i + M1 -> p2 E2 <= p n -> N_i < sg n <= E2 /\ p2 (sg n) = p n /\ is_derive sg n (v n / v2 (sg n))).
  { intros n Hn Hp. destruct (S1 n Hn) as (_ & PU & _). destruct (NUE (- p n) ltac:(lra) ltac:(lra)) as (X1 & X2). split; [exact X1|]. split; [unfold sg; lra|].
    assert (X3 : - p2 E2 < - p2 F) by (apply MO; unfold F, E2; lra). destruct (FY n ltac:(lra)) as (D1 & _).
    assert (D2 : is_derive (fun n => - p n) n (- v n)) by (apply (@is_derive_opp R_AbsRing R_NormedModule p n (v n) D1)).
    pose proof (is_derive_comp nu (fun n => - p n) n _ _ (DNU (- p n) ltac:(lra)) D2) as D3. eapply is_derive_eq; [exact D3|].
    pose proof (VN (nu (- p n)) ltac:(unfold F; lra)). unfold sg. toR. unfold scal; simpl; unfold mult; simpl. field. lra. }
  set (D := fun n => v2 (sg n) - v n).
  assert (DPOS : forall c, N_i <= c <= N_i + M1 -> (forall n, N_i <= n <= c -> p2 E2 <= p n) -> 0 < D c).
  { intros c Hc LO. apply (no_zero_pos D N_i c); [lra| | |].
    - intros n Hn. destruct (DOM n ltac:(lra) (LO n Hn)) as (X1 & X2 & X3). unfold D. apply (continuous_minus (V := R_NormedModule) (fun n => v2 (sg n)) v).
      + apply (continuous_comp sg v2); [apply (ex_derive_continuous sg); eexists; exact X3|]. apply (ex_derive_continuous v2). eexists. exact (proj2 (FZ (sg n) ltac:(unfold E2 in *; lra))).
      + apply (ex_derive_continuous v). eexists. exact (proj2 (FY n ltac:(lra))).
    - destruct (DOM N_i ltac:(lra) (LO N_i ltac:(lra))) as (X1 & X2 & _). unfold D. rewrite T2. rewrite T1 in X2.
      destruct (Req_dec (sg N_i) E2) as [SE|SE]; [rewrite SE in X2; lra|]. destruct (SZ (sg N_i) ltac:(unfold E2 in *; lra)) as (_ & Q). specialize (Q ltac:(unfold E2 in *; lra)). lra.
    - intros n Hn DE. destruct (DOM n ltac:(lra) (LO n Hn)) as (X1 & X2 & _). apply (two_no_cross n (sg n)); [lra|unfold E2 in *; lra|symmetry; exact X2|unfold D in DE; lra]. }
  assert (DEC : forall m n, N_i <= m -> m <= n -> n <= N_i + M1 -> p n <= p m).
  { intros m n H1 H2 H3. apply (mono_dn p v); [| |exact H2]; intros s Hs; [exact (proj1 (FY s ltac:(lra)))|destruct (SY s ltac:(lra)); lra]. }
  (* the first run ends at a larger field value *)
  assert (PE : p2 E2 < p (N_i + M1)).
  { apply Rnot_le_lt. intros X. destruct (ivt p N_i (N_i + M1) (p2 E2)) as (c & Hc & Ec); [lra| | |].
    - intros n Hn. apply (ex_derive_continuous p). eexists. exact (proj1 (FY n ltac:(lra))).
    - rewrite T1. unfold Rmin, Rmax. destruct (Rle_dec _ _); lra.
    - pose proof (DPOS c ltac:(lra) ltac:(intros n Hn; rewrite <- Ec; apply DEC; lra)) as Y. destruct (DOM c ltac:(lra) ltac:(lra)) as (X1 & X2 & _).
      assert (SE : sg c = E2). { destruct (Rtotal_order (sg c) E2) as [Q|[Q|Q] ]; [|exact Q|lra]. pose proof (MO (sg c) E2 ltac:(lra) Q ltac:(unfold F; lra)). lra. }
      unfold D in Y. rewrite SE, VE2 in Y. destruct (S1 c ltac:(lra)) as (_ & _ & Q & _). fold v in Q. lra. }
  assert (LO : forall n, N_i <= n <= N_i + M1 -> p2 E2 <= p n) by (intros n Hn; pose proof (DEC n (N_i + M1) ltac:(lra) ltac:(lra) ltac:(lra)); lra).
  assert (UP : sg N_i - N_i <= sg (N_i + M1) - (N_i + M1)).
  { apply (mono_up (fun n => sg n - n) (fun n => v n / v2 (sg n) - 1)); [| |lra].
    - intros n Hn. destruct (DOM n Hn (LO n Hn)) as (_ & _ & X). evar_last; [apply (@is_derive_minus R_AbsRing R_NormedModule sg (fun n => n) n _ _ X (@is_derive_id R_AbsRing n))|]. cbn. toR. reflexivity.
    - intros n Hn. pose proof (DPOS n Hn ltac:(intros m Hm; apply LO; lra)) as X. unfold D in X. destruct (DOM n Hn (LO n Hn)) as (Y & _). pose proof (VN (sg n) ltac:(unfold F; lra)) as VNs.
      set (w := v2 (sg n)) in *. set (x := v n) in *. clearbody w x. assert (1 <= x / w); [|lra]. replace (x / w) with ((- x) / (- w)) by (field; lra).
      apply Rmult_le_reg_r with (- w); [lra|]. replace (- x / - w * - w) with (- x) by (field; lra). lra. }
  destruct (DOM N_i ltac:(lra) (LO N_i ltac:(lra))) as (X1 & _). destruct (DOM (N_i + M1) ltac:(lra) (LO (N_i + M1) ltac:(lra))) as (X2 & _). unfold E2 in *. lra.
Qed.
End Two.
Lemma lasts_mono phi1 phi2 M1 M2 : branch P phi1 -> branch P phi2 -> e < phi1 -> phi1 < phi2 -> lasts P L N_i phi1 M1 -> lasts P L N_i phi2 M2 -> M1 < M2.
Proof.
  intros B1 B2 H1 H2 (M10 & y & a & b & By & A1 & A2 & Ey & Iy & Zy) (M20 & z & a' & b' & Bz & A1' & A2' & Ez & Iz & Zz).
  exact (two_mono phi1 phi2 M1 M2 y z a b a' b' B1 B2 H1 H2 M10 By A1 A2 Ey Iy Zy M20 Bz A1' A2' Ez Iz Zz).
Qed.
Lemma dur_ok phi M : lasts P L N_i phi M -> dur P L phi = M.
Proof.
  intros D. apply (lasts_shift P L N_i 0) in D. unfold dur. rewrite (is_lub_Rbar_unique (lasts P L 0 phi) M); [reflexivity|]. split.
  - intros M' D'. rewrite (lasts_uniq P L 0 phi M' M D' D). apply Rbar_le_refl.
  - intros l UB. apply UB. exact D.
Qed.
End Mono.
