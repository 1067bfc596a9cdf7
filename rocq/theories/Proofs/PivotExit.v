(** The comoving Hubble rate grows while a background inflates, and what linear interpolation of ln aH on the
    inflating samples of an exact run says about it (used for C130). *)
From Coq Require Import Reals List String Lra Lia Classical ZArith Bool Sorted.
From Coquelicot Require Import Coquelicot.
From Verif Require Import Base Model.Potentials Model.SlowRoll Model.Equations Model.Background Model.Float Model.Solution Model.InitCond Model.Events Model.Interp Model.State
  Spec.PotentialSpec Spec.SlowRollSpec Spec.BackgroundSpec Spec.SolutionSpec Spec.ExactRun Spec.CalibSpec Proofs.StateLemmas Proofs.InterpInverse Proofs.Bracket Proofs.BackgroundT Proofs.BackgroundN Proofs.BackgroundTN.
Import ListNotations.
Open Scope R_scope.

Lemma inc2_tail p l : inc2 (p :: l) -> inc2 l.
Proof. destruct l; [intros; exact I|]. intros H. apply H. Qed.
Lemma inc2_hd l : forall p m, inc2 (p :: l) -> In m l -> fst p < fst m.
Proof.
  induction l as [|p' t IH]; intros p m I H; [destruct H|]. destruct I as (I1 & _ & I3). destruct H as [<-|H]; [exact I1|]. pose proof (IH p' m I3 H). lra.
Qed.
Lemma lin_between x0 y0 x1 y1 x : x0 < x1 -> y0 < y1 -> x0 <= x <= x1 -> y0 <= lin x0 y0 x1 y1 x <= y1.
Proof.
  intros HX HY H. split.
  - rewrite <- (lin_0 x0 y0 x1 y1) at 1. destruct (Req_dec x0 x) as [->|]; [lra|]. left. apply lin_lt; lra.
  - rewrite <- (lin_1 x0 y0 x1 y1) at 2 by lra. destruct (Req_dec x1 x) as [->|]; [lra|]. left. apply lin_lt; lra.
Qed.
Lemma seg_adj l : forall p0 p x, inc2 (p0 :: p :: l) -> fst p0 <= x -> x <= fst (last (p :: l) (0,0)) ->
  exists u v, In u (p0 :: p :: l) /\ In v (p0 :: p :: l) /\ fst u <= x <= fst v /\ snd u <= seg_value (p0 :: p :: l) x <= snd v /\
    forall m, In m (p0 :: p :: l) -> fst m <= fst u \/ fst v <= fst m.
Proof.
  induction l as [|p' t IH]; intros [x0 y0] [x1 y1] x I H1 H2.
  - destruct I as (I1 & I2 & _). cbn in I1, I2, H1, H2. exists (x0,y0), (x1,y1). split; [left; reflexivity|]. split; [right; left; reflexivity|].
    split; [cbn; lra|]. split; [rewrite seg_two; cbn [fst snd]; apply lin_between; lra|]. intros m [<-|[<-|[] ] ]; cbn; [left; lra|right; lra].
  - pose proof I as (I1 & I2 & I3). rewrite seg_cons. cbn [fst snd] in I1, I2, H1. destruct (Rle_dec x x1) as [L|L].
    + exists (x0,y0), (x1,y1). split; [left; reflexivity|]. split; [right; left; reflexivity|]. split; [cbn; lra|]. split; [cbn [fst snd]; apply lin_between; lra|].
      intros m [<-|[<-|M] ]; cbn [fst]; [left; lra|right; lra|]. right. left. exact (inc2_hd _ _ _ I3 M).
    + destruct (IH (x1,y1) p' x I3 ltac:(cbn; lra) H2) as (u & v & U1 & U2 & U3 & U4 & U5). exists u, v.
      split; [right; exact U1|]. split; [right; exact U2|]. split; [exact U3|]. split; [exact U4|].
      intros m [<-|M]; [|exact (U5 m M)]. left. destruct U1 as [<-|U1]; [cbn; lra|]. pose proof (inc2_hd _ _ _ I3 U1). cbn [fst] in *. lra.
Qed.
(** the interpolated value lies between the ordinates of the two samples around the abscissa *)
Lemma interp_adj l x z : inc2 l -> interp1d l x = Ok z ->
  exists u v, In u l /\ In v l /\ fst u <= x <= fst v /\ snd u <= z <= snd v /\ forall m, In m l -> fst m <= fst u \/ fst v <= fst m.
Proof.
  intros I H. unfold interp1d in H. rewrite (sort_inc l I) in H. destruct l as [|p0 [|p t] ]; [discriminate| |].
  - cbn [last] in H. destruct (Rlt_dec x (fst p0)); [discriminate|]. destruct (Rlt_dec (fst p0) x); [discriminate|]. injection H as <-.
    exists p0, p0. split; [left; reflexivity|]. split; [left; reflexivity|]. split; [lra|]. split; [lra|]. intros m [<-|[] ]. left; lra.
  - destruct (Rlt_dec x (fst p0)); [discriminate|]. destruct (Rlt_dec (fst (last (p0 :: p :: t) p0)) x); [discriminate|]. injection H as <-.
    apply seg_adj; [exact I|lra|]. change (last (p0 :: p :: t) p0) with (last (p :: t) p0) in *. rewrite (last_indep' p t p0 (0,0)) in *. lra.
Qed.

(** ** ln aH along an exact evolution *)
Section AH.
Variables (K : R) (U : potfun) (tm te : bool) (y : R -> list R) (a b : R).
Hypothesis B : N_background K U tm te y a b.
Definition lnaH (n : R) : R := n + ln (N_Hub K U tm te y n).
Lemma lnaH_der n : a < n < b -> is_derive lnaH n (N_inflating K U tm te n (y n) / (3 * (N_Hub K U tm te y n)^2)).
Proof.
  intros Hn. pose proof (N_H_derive _ _ _ _ _ _ _ B n Hn) as D. destruct (N_pos _ _ _ _ _ _ _ B n Hn) as (HP & HE & H6). pose proof (N_V _ _ _ _ _ _ _ B n Hn) as HV.
  assert (HI : N_inflating K U tm te n (y n) = pV U (N_phi tm te y n) - (N_Hub K U tm te y n)^2 * (N_dphi tm te y n)^2).
  { unfold N_inflating. change (N_phi tm te y n) with (var (N_idx tm te) "phi" (y n)). change (N_dphi tm te y n) with (var (N_idx tm te) "dphidN" (y n)).
    f_equal. f_equal. unfold N_Hub. simpl. rewrite Rmult_1_r, sqrt_sqrt; [reflexivity|]. left. apply (proj2 B n Hn). }
  rewrite HI, HV. unfold lnaH. eapply is_derive_eq.
  - apply (@is_derive_plus R_AbsRing R_NormedModule (fun s => s)); [apply is_derive_id|].
    apply (is_derive_comp ln (N_Hub K U tm te y) n); [|exact D]. apply is_derive_Reals, derivable_pt_lim_ln. exact HP.
  - unfold N_dH, N_get_dH. cbn. toR. unfold scal; cbn. unfold mult; cbn. unfold plus; cbn. unfold one; cbn. field. lra.
Qed.
Variables (N_i E : R).
Hypotheses (A1 : a < N_i < E) (A2 : E < b) (I1 : forall n, N_i < n < E -> 0 < N_inflating K U tm te n (y n)).
Lemma lnaH_pos n : N_i < n < E -> 0 < N_inflating K U tm te n (y n) / (3 * (N_Hub K U tm te y n)^2).
Proof. intros Hn. destruct (N_pos _ _ _ _ _ _ _ B n ltac:(lra)) as (HP & _). apply Rdiv_lt_0_compat; [apply I1; exact Hn|]. pose proof (pow_lt _ 2 HP). lra. Qed.
Lemma lnaH_incr n m : N_i < n -> n < m -> m < E -> lnaH n < lnaH m.
Proof.
  intros H1 H2 H3. apply (incr_on lnaH (fun n => N_inflating K U tm te n (y n) / (3 * (N_Hub K U tm te y n)^2)) N_i E n m); try lra.
  intros t Ht. split; [apply lnaH_der; lra|apply lnaH_pos; exact Ht].
Qed.
Lemma lnaH_ivt n m v : N_i < n -> n <= m -> m < E -> lnaH n <= v <= lnaH m -> exists x, n <= x <= m /\ lnaH x = v.
Proof.
  intros H1 H2 H3 H4. destruct (Req_dec (lnaH n) v) as [Q|Q]; [exists n; split; [lra|exact Q]|]. destruct (Req_dec (lnaH m) v) as [Q'|Q']; [exists m; split; [lra|exact Q']|].
  assert (n < m) by (destruct H2 as [H2| ->]; [exact H2|lra]).
  destruct (Ranalysis5.IVT_interv (fun s => lnaH s - v) n m) as (x & Hx & Ex); [|assumption|lra|lra|exists x; split; [exact Hx|lra] ].
  intros x Hx. apply derivable_continuous_pt. exists (N_inflating K U tm te x (y x) / (3 * (N_Hub K U tm te y x)^2)). apply is_derive_Reals.
  eapply is_derive_eq; [apply (@is_derive_minus R_AbsRing R_NormedModule lnaH (fun _ => v)); [apply lnaH_der; lra|apply (@is_derive_const R_AbsRing R_NormedModule)]|]. unfold minus, plus, opp, zero; cbn. ring.
Qed.
End AH.

(** samples in use *)
Lemma combine_select {A B} (f : A -> B) (g : A -> bool) l : combine (select (map g l) l) (select (map g l) (map f l)) = map (fun x => (x, f x)) (filter g l).
Proof. induction l as [|x l IH]; [reflexivity|]. cbn. destruct (g x); cbn; rewrite IH; reflexivity. Qed.
Lemma sorted_inc2 (f : R -> R) l : StronglySorted Rlt l -> (forall u v, In u l -> In v l -> u < v -> f u < f v) -> inc2 (map (fun x => (x, f x)) l).
Proof.
  intros SL. induction SL as [|x l SL IH FA]; intros HF; [exact I|]. destruct l as [|x' l]; [exact I|]. cbn [map inc2 fst snd].
  assert (x < x') by (inversion FA; assumption). split; [assumption|]. split; [apply HF; [left; reflexivity|right; left; reflexivity|assumption]|].
  apply IH. intros u v Hu Hv. apply HF; right; assumption.
Qed.
Lemma sorted_filter (g : R -> bool) l : StronglySorted Rlt l -> StronglySorted Rlt (filter g l).
Proof.
  intros SL. induction SL as [|x l SL IH FA]; [constructor|]. cbn. destruct (g x); [|exact IH]. constructor; [exact IH|].
  apply List.Forall_forall. intros u Hu. apply filter_In in Hu. rewrite List.Forall_forall in FA. apply FA, Hu.
Qed.
Lemma sorted_range l x0 : StronglySorted Rlt l -> hd_error l = Some x0 -> forall x, In x l -> x0 <= x <= last l x0.
Proof.
  intros SL. revert x0. induction SL as [|h l SL IH FA]; intros x0 HH x Hx; [discriminate|]. cbn in HH. injection HH as ->. destruct l as [|h' l].
  - destruct Hx as [<-|[] ]. cbn. lra.
  - assert (x0 < h') by (inversion FA; assumption). change (last (x0 :: h' :: l) x0) with (last (h' :: l) x0). rewrite (last_indep' h' l x0 h').
    pose proof (IH h' eq_refl h' (or_introl eq_refl)). destruct Hx as [<-|Hx]; [lra|]. pose proof (IH h' eq_refl x Hx). lra.
Qed.
