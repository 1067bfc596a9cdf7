(** C80, C81, C82, continued: the exact criteria the code applies, in terms of the true expansion rate,
    and concrete cases that meet the hypotheses. *)
From Coq Require Import Reals List String Bool Lra Lia Psatz.
From Coquelicot Require Import Coquelicot.
From Verif Require Import Base Model.Float Model.Equations Model.ApproxPower Model.BigBang Spec.BigBangSpec Proofs.BaseLemmas Proofs.BigBangLines Properties.BigBangProps Properties.BigBangProps2.
Import ListNotations.
Open Scope R_scope.
Open Scope string_scope.

Section U.
Variable F : phys.
Hypothesis OK : phys_ok F.

Lemma E2_shift r m k x : E2 0 m (1 - m - (1 - r - m - k)) (1 - r - m - k) x = E2 r m k (1 - r - m - k) x - r * x ^ 2 * (x ^ 2 - 1).
Proof. unfold E2. ring. Qed.

(** BigBangError is raised exactly when at some earlier time (a0/a = x) the squared expansion rate is below
    the margin r x^2 (x^2 - 1), i.e. when the universe whose radiation is counted as curvature bounces.
    Without radiation (r -> 0) this is [bounces]. *)
Theorem C80_exact_partial :
  forall N m k h u r, 0 < h -> 0 <= m -> get_Omega_r0 F h = Ok r -> In u ["planck"; "H0"; "SI"] ->
  (Hubble_parameter F N m k h u = Raise BigBangError <->
   exists x, 1 < x /\ E2 r m k (1 - r - m - k) x < r * x ^ 2 * (x ^ 2 - 1)).
Proof.
  intros N m k h u r Hh Hm Er U. unfold Hubble_parameter. rewrite Er.
  destruct (H0_known F h u) as [H0 ->]. { destruct U as [<-|[<-|[<-|[]]]]; auto. }
  cbn [bind]. destruct (C60_no_big_bang_line m Hm) as (l & El & B). rewrite El. cbn [bind].
  destruct (B (1 - r - m - k)) as [B1 B2]. destruct (Rlt_dec l (1 - r - m - k)) as [L|L].
  - split; [intros _|reflexivity]. destruct (B2 L) as (x & Hx & Ng). exists x. split; [exact Hx|]. rewrite E2_shift in Ng. lra.
  - split.
    + intros X. exfalso. destruct (C61_recollapse_line m Hm) as (l' & El' & _). rewrite El' in X. cbn [bind] in X.
      destruct (a0_val F OK h k Hh) as (a0 & Ea & _). rewrite Ea in X. discriminate X.
    + intros (x & Hx & Ng). exfalso. pose proof (B1 ltac:(lra) x ltac:(lra)) as P. rewrite E2_shift in P. lra.
Qed.
(** A universe with a Big Bang is rejected only if its squared expansion rate dips below that margin. *)
Theorem C80_rejected_margin :
  forall N m k h r, 0 < h -> 0 <= m -> get_Omega_r0 F h = Ok r ->
  (forall x, 1 < x -> r * x ^ 2 * (x ^ 2 - 1) <= E2 r m k (1 - r - m - k) x) ->
  exists w v, Hubble_parameter F N m k h "planck" = Ok (w, v).
Proof.
  intros N m k h r Hh Hm Er A. destruct (Hubble_parameter F N m k h "planck") as [[w v]|e] eqn:E; [eauto|]. exfalso.
  assert (e = BigBangError) as ->.
  { unfold Hubble_parameter in E. rewrite Er in E. destruct (H0_known F h "planck" ltac:(auto)) as [H0 Eh]. rewrite Eh in E. cbn [bind] in E.
    destruct (C60_no_big_bang_line m Hm) as (l & El & _). rewrite El in E. cbn [bind] in E. destruct (Rlt_dec l _); [congruence|].
    destruct (C61_recollapse_line m Hm) as (l' & El' & _). rewrite El' in E. cbn [bind] in E.
    destruct (a0_val F OK h k Hh) as (a0 & Ea & _). rewrite Ea in E. discriminate E. }
  apply (C80_exact_partial N m k h "planck" r Hh Hm Er ltac:(cbn; auto)) in E. destruct E as (x & Hx & Ng). specialize (A x Hx). lra.
Qed.
(** a strongly closed universe with a large cosmological constant bounces and is rejected *)
Theorem C80_nonvacuous : exists r k, get_Omega_r0 F 1 = Ok r /\ bounces r (1/3) k (1 - r - 1/3 - k) /\
  Hubble_parameter F 0 (1/3) k 1 "planck" = Raise BigBangError.
Proof.
  destruct (Or_val F OK 1 ltac:(lra)) as (r & Er & Pr). exists r, (- (5 * r + 2)).
  assert (Bo : bounces r (1/3) (- (5 * r + 2)) (1 - r - 1/3 - - (5 * r + 2))).
  { exists 2. split; [lra|]. unfold E2. lra. }
  split; [exact Er|]. split; [exact Bo|]. exact (C80_big_bang_partial F OK 0 (1/3) _ 1 r ltac:(lra) ltac:(lra) Er Bo).
Qed.
(** and an ordinary one meets the condition of the margin theorem *)
Theorem C80_margin_nonvacuous : exists r k, get_Omega_r0 F 1 = Ok r /\ k <> 0 /\
  forall x, 1 < x -> r * x ^ 2 * (x ^ 2 - 1) <= E2 r (1/3) k (1 - r - 1/3 - k) x.
Proof.
  destruct (Or_val F OK 1 ltac:(lra)) as (r & Er & Pr). exists r.
  destruct (Req_dec r (1/3)) as [->|R].
  - exists (1/3). split; [exact Er|]. split; [lra|]. intros x Hx. unfold E2. nra.
  - exists (1/3 - r). split; [exact Er|]. split; [lra|]. intros x Hx. unfold E2.
    assert (0 <= x ^ 3) by (apply pow_le; lra). assert (0 <= x ^ 2) by (apply pow_le; lra). nra.
Qed.

(** The warning is issued exactly when at some later time the squared expansion rate is below the margin
    - r x^2 (1 - x^2). *)
Theorem C81_exact_partial :
  forall N m k h u w v r, 0 < h -> Hubble_parameter F N m k h u = Ok (w, v) -> get_Omega_r0 F h = Ok r ->
  (w = true <-> exists x, 0 < x < 1 /\ E2 r m k (1 - r - m - k) x < - (r * x ^ 2 * (1 - x ^ 2))).
Proof.
  intros N m k h u w v r Hh E Er.
  destruct (hubble_val F OK N m k h u w v Hh E) as (H0 & r' & a1 & nbb & rec & E1 & E2' & E3 & E4 & E5 & P1 & P2 & P3 & L & Pm & W & _).
  rewrite Er in E2'. injection E2' as <-. rewrite W. destruct (C61_recollapse_line m Pm) as (l & El & B). rewrite E5 in El. injection El as <-.
  destruct (B (1 - r - m - k)) as [B1 B2]. split.
  - intros L'. destruct (B2 L') as (x & Hx & Ng). exists x. split; [exact Hx|]. rewrite E2_shift in Ng. lra.
  - intros (x & Hx & Ng). apply Rnot_le_lt. intros Le. pose proof (B1 Le x ltac:(lra)) as P. rewrite E2_shift in P. lra.
Qed.
(** a universe with a negative cosmological constant: warned about, and it recollapses *)
Theorem C81_nonvacuous : exists r k v, get_Omega_r0 F 1 = Ok r /\ Hubble_parameter F 0 (1/2) k 1 "planck" = Ok (true, v) /\
  recollapses r (1/2) k (1 - r - 1/2 - k).
Proof.
  destruct (Or_val F OK 1 ltac:(lra)) as (r & Er & Pr).
  destruct (hubble_ok F OK 0 1 1 "planck" ltac:(lra) ltac:(lra) ltac:(auto)) as (w & v & E). exists r, 1, v.
  assert (w = true) as ->.
  { apply (C81_exact_partial 0 (1/2) 1 1 "planck" w v r ltac:(lra) E Er).
    (* x^2 (r x^2 + x/2 + 1) - r - 1/2 + r x^2 (1 - x^2) = x^3/2 + (1+r) x^2 - (r + 1/2) < 0 at x = 1/2 *)
    exists (1/2). split; [lra|]. unfold E2. lra. }
  split; [exact Er|]. split; [exact E|]. exact (C81_recollapse_warning_partial F OK 0 (1/2) 1 1 "planck" v r ltac:(lra) E Er).
Qed.

(** C82: a flat model universe whose scale factor today is 1 *)
Theorem C82_nonvacuous : forall quad, exact_quad quad -> exists after, 0 < after /\
  conformal_time_ratio F quad (1/2) 0 1 (mkctbg [0; 1; 5] (-3) (Some 1)) None = Ok (5 / after).
Proof.
  intros quad EQ. destruct (C82_ratio_partial F OK quad (1/2) 0 1 1 (mkctbg [0; 1; 5] (-3) (Some 1)) None 0 5 EQ ltac:(lra) (C63_flat F 1 "planck")) as (after & P & _ & E & _).
  - destruct (hubble_ok F OK (-3) 0 1 "planck" ltac:(lra) ltac:(lra) ltac:(auto)) as (w & v & E). eauto.
  - reflexivity.
  - cbn. rewrite ln_1. lra.
  - exists [0; 1]. reflexivity.
  - exists [1; 5]. reflexivity.
  - exists after. split; [exact P|]. rewrite E. f_equal. f_equal. ring.
Qed.
End U.
