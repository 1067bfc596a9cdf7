(** The third-order expansions of Choe, Gong & Stewart and of Auclair & Ringeval / Ballardini et al.: property C76. *)
From Coq Require Import Reals List String ZArith Bool Lra Lia.
From Coquelicot Require Import Coquelicot.
From Verif Require Import Base Model.Equations Model.Background Model.ApproxPower Properties.ApproxProps.
Open Scope R_scope.

(** same Taylor polynomial of third order at 0 *)
Definition agree3 (F G : R -> R) : Prop := exists M d, 0 < d /\ forall x, 0 <= x <= d -> Rabs (F x - G x) <= M * x ^ 4.
Lemma agree3_cont F G (c : R -> R) : (forall x, F x - G x = x^4 * c x) -> (forall x, continuous c x) -> agree3 F G.
Proof.
  intros E Cc. destruct (continuity_ab_maj (fun x => Rabs (c x)) 0 1) as (m & Hm & _); [lra| |].
  - intros x _. apply (continuity_pt_comp c Rabs); [|apply Rcontinuity_abs]. apply continuity_pt_filterlim, Cc.
  - exists (Rabs (c m)), 1. split; [lra|]. intros x Hx. rewrite E, Rabs_mult, (Rabs_pos_eq (x^4)) by (apply pow_le; lra).
    rewrite Rmult_comm. apply Rmult_le_compat_r; [apply pow_le; lra|apply Hm, Hx].
Qed.
Lemma agree3_trans F G H : agree3 F G -> agree3 G H -> agree3 F H.
Proof.
  intros (M & d & Hd & B) (M' & d' & Hd' & B'). exists (M + M'), (Rmin d d'). split; [apply Rmin_pos; assumption|]. intros x [Hx0 Hx].
  assert (x <= d) by (eapply Rle_trans; [exact Hx|apply Rmin_l]). assert (x <= d') by (eapply Rle_trans; [exact Hx|apply Rmin_r]).
  replace (F x - H x) with ((F x - G x) + (G x - H x)) by ring. eapply Rle_trans; [apply Rabs_triang|].
  rewrite Rmult_plus_distr_r. apply Rplus_le_compat; [apply B|apply B']; lra.
Qed.
Lemma agree3_sym F G : agree3 F G -> agree3 G F.
Proof. intros (M & d & Hd & B). exists M, d. split; [exact Hd|]. intros x Hx. rewrite Rabs_minus_sym. apply B, Hx. Qed.
Lemma not_agree3 F G c : c <> 0 -> (forall x, F x - G x = c * x^3) -> ~ agree3 F G.
Proof.
  intros Hc E (M & d & Hd & B). pose proof (Rabs_pos_lt c Hc) as Pc.
  set (x := Rmin d (Rabs c / (2 * (Rabs M + 1)))). pose proof (Rabs_pos M) as PM.
  assert (Px : 0 < x). { apply Rmin_pos; [exact Hd|]. apply Rdiv_lt_0_compat; lra. }
  assert (Xd : x <= d) by apply Rmin_l.
  assert (XM : x * (2 * (Rabs M + 1)) <= Rabs c).
  { apply Rle_trans with (Rabs c / (2 * (Rabs M + 1)) * (2 * (Rabs M + 1))); [|right; field; lra]. apply Rmult_le_compat_r; [lra|apply Rmin_r]. }
  specialize (B x ltac:(lra)). rewrite E, Rabs_mult, (Rabs_pos_eq (x^3)) in B by (apply pow_le; lra).
  pose proof (Rle_abs M). assert (0 < x^3) by (apply pow_lt; lra).
  assert (Rabs c * x^3 <= Rabs M * x * x^3). { eapply Rle_trans; [exact B|]. replace (M * x^4) with (M * (x * x^3)) by ring. rewrite Rmult_assoc. apply Rmult_le_compat_r; [apply Rmult_le_pos; lra|assumption]. }
  apply Rmult_le_reg_r in H1; [|assumption]. lra.
Qed.

Section C76.
Variables (Co : consts) (e1 e2 e3 e4 : R).
(** the parameters of the CGS expansion for given Hubble-flow parameters; delta_3 follows from d delta_2/dN = delta_3 + delta_2 (2 e1 - delta_1),
    d e_n/dN = e_n e_(n+1) *)
Definition fl_d1 : R := e2/2 - e1.
Definition fl_d1p : R := e2 * e3 / 2 - e1 * e2.
Definition fl_d2 : R := fl_d1p + fl_d1^2 - e1 * fl_d1.
Definition fl_d2p : R := e2 * e3 * (e3 + e4) / 2 - e1 * e2 * (e2 + e3) + 2 * fl_d1 * fl_d1p - e1 * e2 * fl_d1 - e1 * fl_d1p.
Definition fl_d3 : R := fl_d2p - 2 * e1 * fl_d2 + fl_d1 * fl_d2.
Definition CGS3_s (x : R) : R := cgs_s Co (cgs_scaled e1 e2 e3 fl_d3 x) 3.
Definition CGS3_t (x : R) : R := cgs_t Co (cgs_scaled e1 e2 e3 fl_d3 x) 3.
(** log(- a H eta) at horizon crossing, to second order: the ARBDS series refers to the wavenumber with -k eta = 1 *)
Definition shift (x : R) : R := x * e1 + (x * e1)^2 / 2 + x * e1 * (x * e2).
(** the ARBDS series of the code, with epsilon_4 supplied *)
Definition ARBDS3_s (x : R) : R := arbds_s (arbds_alpha Co) (arbds_Z Co) (x * e1) (x * e2) (x * e3) (x * e4) 3 (shift x).
Definition ARBDS3_t (x : R) : R := arbds_t (arbds_alpha Co) (arbds_Z Co) (x * e1) (x * e2) (x * e3) 3 (shift x).
Definition gap_s : R := e1^3 + 5/2 * e1^2 * e2 + e1 * e2^2 + zeta3 Co * (4 * e1 * e2 * (e2 + e3) + 2 * e2 * e3 * (e3 + e4)).
Definition gap_t : R := e1^3 + 2 * e1^2 * e2 + zeta3 Co * (4 * e1 * e2 * (e2 + e3)).
Ltac open3 := unfold CGS3_s, CGS3_t, ARBDS3_s, ARBDS3_t, shift, gap_s, gap_t, cgs_s, cgs_t, cgs1_s, cgs2_s, cgs3_s, cgs1_t, cgs2_t, cgs3_t, cgs_scaled, fl_d3, fl_d2p, fl_d2, fl_d1p, fl_d1,
  arbds_s, arbds_t, as0_1, as0_2, as0_3, as1_1, as1_2, as1_3, as2_2, as2_3, as3_3, at0_1, at0_2, at0_3, at1_1, at1_2, at1_3, at2_2, at2_3, at3_3; cbn [fe1 fe2 fe3 fd1 fd2 fd3 fg2 fg3].
Theorem C76_difference : agree3 CGS3_s (fun x => ARBDS3_s x + gap_s * x^3) /\ agree3 CGS3_t (fun x => ARBDS3_t x + gap_t * x^3).
Proof.
  split.
  - apply (agree3_cont _ _ (fun x => let al := cgs_alpha Co in let Z3 := zeta3 Co in
      (-1)*e1*e2^2*e3*al + (1)*e1*e2^3*al + (-1/2)*e1^2*e2*e3*al + (1)*e1^2*e2^2 + (5/2)*e1^2*e2^2*al + (-3/2)*e1^3*e2 + (5)*e1^3*e2*al + (-1)*e1^4 + (2)*e1^4*al + (-1/24)*x*e1*e2^2*e3*e4*PI^2 + (1/2)*x*e1*e2^2*e3*e4*al^2 + (-1/24)*x*e1*e2^2*e3^2*PI^2 + (1/2)*x*e1*e2^2*e3^2*al^2 + (2)*x*e1*e2^3*e3 + (-5/24)*x*e1*e2^3*e3*PI^2 + (-3/2)*x*e1*e2^3*e3*al^2 + (-1)*x*e1*e2^4 + (1/8)*x*e1*e2^4*PI^2 + (1/2)*x*e1*e2^4*al^2 + (-1/48)*x*e1^2*e2*e3*e4*PI^2 + (1/4)*x*e1^2*e2*e3*e4*al^2 + (-1/48)*x*e1^2*e2*e3^2*PI^2 + (1/4)*x*e1^2*e2*e3^2*al^2 + (8)*x*e1^2*e2^2*e3 + (-29/48)*x*e1^2*e2^2*e3*PI^2 + (-2)*x*e1^2*e2^2*e3*al + (-11/4)*x*e1^2*e2^2*e3*al^2 + (-5/2)*x*e1^2*e2^3 + (5/16)*x*e1^2*e2^3*PI^2 + (1)*x*e1^2*e2^3*al + (5/4)*x*e1^2*e2^3*al^2 + (7/2)*x*e1^3*e2*e3 + (-1/4)*x*e1^3*e2*e3*PI^2 + (-1)*x*e1^3*e2*e3*al + (-1)*x*e1^3*e2*e3*al^2 + (-9)*x*e1^3*e2^2 + (19/24)*x*e1^3*e2^2*PI^2 + (13/2)*x*e1^3*e2^2*al + (1/2)*x*e1^3*e2^2*al^2 + (-16)*x*e1^4*e2 + (4/3)*x*e1^4*e2*PI^2 + (3)*x*e1^4*e2*al + (4)*x*e1^4*e2*al^2 + (-6)*x*e1^5 + (1/2)*x*e1^5*PI^2 + (2)*x*e1^5*al^2 + (-1)*x^2*e1^2*e2^2*e3*e4*al + (-1)*x^2*e1^2*e2^2*e3^2*al + (1/2)*x^2*e1^2*e2^3*e3 + (3)*x^2*e1^2*e2^3*e3*al + (-1/2)*x^2*e1^2*e2^4 + (-1)*x^2*e1^2*e2^4*al + (-1/2)*x^2*e1^3*e2*e3*e4*al + (-1/2)*x^2*e1^3*e2*e3^2*al + (5/2)*x^2*e1^3*e2^2*e3 + (11/2)*x^2*e1^3*e2^2*e3*al + (-5/2)*x^2*e1^3*e2^3 + (-5/2)*x^2*e1^3*e2^3*al + (9/8)*x^2*e1^4*e2*e3 + (2)*x^2*e1^4*e2*e3*al + (-77/8)*x^2*e1^4*e2^2 + (-1)*x^2*e1^4*e2^2*al + (-21/4)*x^2*e1^5*e2 + (-8)*x^2*e1^5*e2*al + (-1/2)*x^2*e1^6 + (-4)*x^2*e1^6*al + (-1/2)*x^3*e1^2*e2^3*e3*e4*al + (-1/2)*x^3*e1^2*e2^3*e3^2*al + (3/2)*x^3*e1^2*e2^4*e3*al + (-1/2)*x^3*e1^2*e2^5*al + (1/2)*x^3*e1^3*e2^2*e3*e4 + (-1/2)*x^3*e1^3*e2^2*e3*e4*al + (1/2)*x^3*e1^3*e2^2*e3^2 + (-1/2)*x^3*e1^3*e2^2*e3^2*al + (-1/2)*x^3*e1^3*e2^3*e3 + (7/2)*x^3*e1^3*e2^3*e3*al + (-3/2)*x^3*e1^3*e2^4*al + (1/4)*x^3*e1^4*e2*e3*e4 + (-1/8)*x^3*e1^4*e2*e3*e4*al + (1/4)*x^3*e1^4*e2*e3^2 + (-1/8)*x^3*e1^4*e2*e3^2*al + (-7/4)*x^3*e1^4*e2^2*e3 + (19/8)*x^3*e1^4*e2^2*e3*al + (-9/4)*x^3*e1^4*e2^3 + (-9/8)*x^3*e1^4*e2^3*al + (-3/4)*x^3*e1^5*e2*e3 + (1/2)*x^3*e1^5*e2*e3*al + (-21/8)*x^3*e1^5*e2^2 + (-17/4)*x^3*e1^5*e2^2*al + (13/4)*x^3*e1^6*e2 + (-4)*x^3*e1^6*e2*al + (2)*x^3*e1^7 + (-1)*x^3*e1^7*al + (1/2)*x^4*e1^3*e2^3*e3*e4 + (1/2)*x^4*e1^3*e2^3*e3^2 + (-3/2)*x^4*e1^3*e2^4*e3 + (1/2)*x^4*e1^3*e2^5 + (1/2)*x^4*e1^4*e2^2*e3*e4 + (1/2)*x^4*e1^4*e2^2*e3^2 + (-7/2)*x^4*e1^4*e2^3*e3 + (3/2)*x^4*e1^4*e2^4 + (1/8)*x^4*e1^5*e2*e3*e4 + (1/8)*x^4*e1^5*e2*e3^2 + (-19/8)*x^4*e1^5*e2^2*e3 + (9/8)*x^4*e1^5*e2^3 + (-1/2)*x^4*e1^6*e2*e3 + (17/4)*x^4*e1^6*e2^2 + (4)*x^4*e1^7*e2 + (1)*x^4*e1^8 + (1/6)*x^5*e1^3*e2^4*e3*e4 + (1/6)*x^5*e1^3*e2^4*e3^2 + (-1/2)*x^5*e1^3*e2^5*e3 + (1/6)*x^5*e1^3*e2^6 + (1/4)*x^5*e1^4*e2^3*e3*e4 + (1/4)*x^5*e1^4*e2^3*e3^2 + (-17/12)*x^5*e1^4*e2^4*e3 + (7/12)*x^5*e1^4*e2^5 + (1/8)*x^5*e1^5*e2^2*e3*e4 + (1/8)*x^5*e1^5*e2^2*e3^2 + (-11/8)*x^5*e1^5*e2^3*e3 + (5/8)*x^5*e1^5*e2^4 + (1/48)*x^5*e1^6*e2*e3*e4 + (1/48)*x^5*e1^6*e2*e3^2 + (-9/16)*x^5*e1^6*e2^2*e3 + (77/48)*x^5*e1^6*e2^3 + (-1/12)*x^5*e1^7*e2*e3 + (49/24)*x^5*e1^7*e2^2 + (1)*x^5*e1^8*e2 + (1/6)*x^5*e1^9)).
    + intros x. unfold ARBDS3_s, ARBDS3_t. change (arbds_alpha Co) with (cgs_alpha Co). change (arbds_Z Co) with (zeta3 Co / 3 * 7). open3. cbv zeta. generalize (cgs_alpha Co) (zeta3 Co) PI. intros al Z3 p. field.
    + intros x. cbv zeta. cont.
  - apply (agree3_cont _ _ (fun x => let al := cgs_alpha Co in let Z3 := zeta3 Co in
      (2)*e1^2*e2^2 + (-2)*e1^2*e2^2*al + (-1)*e1^3*e2 + (3)*e1^3*e2*al + (-1)*e1^4 + (2)*e1^4*al + (2)*x*e1^2*e2^2*e3 + (-1/12)*x*e1^2*e2^2*e3*PI^2 + (-2)*x*e1^2*e2^2*e3*al + (1)*x*e1^2*e2^2*e3*al^2 + (2)*x*e1^2*e2^3 + (-1/12)*x*e1^2*e2^3*PI^2 + (-2)*x*e1^2*e2^3*al + (1)*x*e1^2*e2^3*al^2 + (1)*x*e1^3*e2*e3 + (-1/24)*x*e1^3*e2*e3*PI^2 + (-1)*x*e1^3*e2*e3*al + (1/2)*x*e1^3*e2*e3*al^2 + (9)*x*e1^3*e2^2 + (-7/8)*x*e1^3*e2^2*PI^2 + (5)*x*e1^3*e2^2*al + (-11/2)*x*e1^3*e2^2*al^2 + (-8)*x*e1^4*e2 + (7/12)*x*e1^4*e2*PI^2 + (3)*x*e1^4*e2*al + (1)*x*e1^4*e2*al^2 + (-6)*x*e1^5 + (1/2)*x*e1^5*PI^2 + (2)*x*e1^5*al^2 + (2)*x^2*e1^3*e2^2*e3 + (-2)*x^2*e1^3*e2^2*e3*al + (3)*x^2*e1^3*e2^3 + (-2)*x^2*e1^3*e2^3*al + (1)*x^2*e1^4*e2*e3 + (-1)*x^2*e1^4*e2*e3*al + (-6)*x^2*e1^4*e2^2 + (11)*x^2*e1^4*e2^2*al + (-19/4)*x^2*e1^5*e2 + (-2)*x^2*e1^5*e2*al + (-1/2)*x^2*e1^6 + (-4)*x^2*e1^6*al + (1)*x^3*e1^3*e2^3*e3 + (-1)*x^3*e1^3*e2^3*e3*al + (1)*x^3*e1^3*e2^4 + (-1)*x^3*e1^3*e2^4*al + (2)*x^3*e1^4*e2^2*e3 + (-1)*x^3*e1^4*e2^2*e3*al + (-1)*x^3*e1^4*e2^3 + (5)*x^3*e1^4*e2^3*al + (3/4)*x^3*e1^5*e2*e3 + (-1/4)*x^3*e1^5*e2*e3*al + (-33/4)*x^3*e1^5*e2^2 + (7/4)*x^3*e1^5*e2^2*al + (1/4)*x^3*e1^6*e2 + (-5/2)*x^3*e1^6*e2*al + (2)*x^3*e1^7 + (-1)*x^3*e1^7*al + (1)*x^4*e1^4*e2^3*e3 + (1)*x^4*e1^4*e2^4 + (1)*x^4*e1^5*e2^2*e3 + (-5)*x^4*e1^5*e2^3 + (1/4)*x^4*e1^6*e2*e3 + (-7/4)*x^4*e1^6*e2^2 + (5/2)*x^4*e1^7*e2 + (1)*x^4*e1^8 + (1/3)*x^5*e1^4*e2^4*e3 + (1/3)*x^5*e1^4*e2^5 + (1/2)*x^5*e1^5*e2^3*e3 + (-3/2)*x^5*e1^5*e2^4 + (1/4)*x^5*e1^6*e2^2*e3 + (-17/12)*x^5*e1^6*e2^3 + (1/24)*x^5*e1^7*e2*e3 + (13/24)*x^5*e1^7*e2^2 + (3/4)*x^5*e1^8*e2 + (1/6)*x^5*e1^9)).
    + intros x. unfold ARBDS3_s, ARBDS3_t. change (arbds_alpha Co) with (cgs_alpha Co). change (arbds_Z Co) with (zeta3 Co / 3 * 7). open3. cbv zeta. generalize (cgs_alpha Co) (zeta3 Co) PI. intros al Z3 p. field.
    + intros x. cbv zeta. cont.
Qed.
Theorem C76_refuted : (gap_s <> 0 -> ~ agree3 CGS3_s ARBDS3_s) /\ (gap_t <> 0 -> ~ agree3 CGS3_t ARBDS3_t).
Proof.
  destruct C76_difference as [Ds Dt]. split; intros Hg A.
  - apply (not_agree3 (fun x => ARBDS3_s x + gap_s * x^3) ARBDS3_s gap_s Hg); [intros x; ring|]. eapply agree3_trans; [apply agree3_sym, Ds|exact A].
  - apply (not_agree3 (fun x => ARBDS3_t x + gap_t * x^3) ARBDS3_t gap_t Hg); [intros x; ring|]. eapply agree3_trans; [apply agree3_sym, Dt|exact A].
Qed.
Theorem C76_partial : gap_s = 0 -> gap_t = 0 -> agree3 CGS3_s ARBDS3_s /\ agree3 CGS3_t ARBDS3_t.
Proof.
  intros Es Et. destruct C76_difference as [(M & d & Hd & Ds) (M' & d' & Hd' & Dt)]. rewrite Es in Ds. rewrite Et in Dt. split.
  - exists M, d. split; [exact Hd|]. intros x Hx. specialize (Ds x Hx). rewrite Rmult_0_l, Rplus_0_r in Ds. exact Ds.
  - exists M', d'. split; [exact Hd'|]. intros x Hx. specialize (Dt x Hx). rewrite Rmult_0_l, Rplus_0_r in Dt. exact Dt.
Qed.
End C76.
(** for every positive zeta(3) and positive flow parameters the two methods differ at third order, for scalars and tensors *)
Theorem C76_differ : forall Co e1 e2 e3 e4, 0 < zeta3 Co -> 0 < e1 -> 0 < e2 -> 0 <= e3 -> 0 <= e4 ->
  ~ agree3 (CGS3_s Co e1 e2 e3 e4) (ARBDS3_s Co e1 e2 e3 e4) /\ ~ agree3 (CGS3_t Co e1 e2 e3 e4) (ARBDS3_t Co e1 e2 e3).
Proof.
  intros Co e1 e2 e3 e4 Hz H1 H2 H3 H4. destruct (C76_refuted Co e1 e2 e3 e4) as [Rs Rt].
  assert (P1 : 0 < e1^3) by (apply pow_lt; exact H1). assert (P2 : 0 < e1^2 * e2) by (apply Rmult_lt_0_compat; [apply pow_lt|]; assumption).
  assert (P3 : 0 < e1 * e2^2) by (apply Rmult_lt_0_compat; [|apply pow_lt]; assumption).
  assert (P4 : 0 <= zeta3 Co * (4 * e1 * e2 * (e2 + e3))). { apply Rmult_le_pos; [lra|]. apply Rmult_le_pos; [|lra]. apply Rmult_le_pos; lra. }
  assert (P5 : 0 <= zeta3 Co * (2 * e2 * e3 * (e3 + e4))). { apply Rmult_le_pos; [lra|]. apply Rmult_le_pos; [|lra]. apply Rmult_le_pos; lra. }
  split; [apply Rs|apply Rt]; unfold gap_s, gap_t; intros X; nra.
Qed.
Theorem C76_nonvacuous : 0 < zeta3 (mkconsts 1 1 1 1 1 1 1 1 (1/2) (6/5)) /\
  ~ agree3 (CGS3_s (mkconsts 1 1 1 1 1 1 1 1 (1/2) (6/5)) (1/100) (1/50) 0 0) (ARBDS3_s (mkconsts 1 1 1 1 1 1 1 1 (1/2) (6/5)) (1/100) (1/50) 0 0).
Proof. split; [cbn; lra|]. apply C76_differ; cbn; lra. Qed.
