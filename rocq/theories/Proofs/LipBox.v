(** Functions that are bounded and Lipschitz on a box, and existence of solutions inside a box. *)
From Coq Require Import Reals Lra Lia.
From Coquelicot Require Import Coquelicot.
From Verif Require Import Proofs.Unique Proofs.Picard.
Open Scope R_scope.

(** states whose first three entries lie in given intervals *)
Definition box (m M p q k l : R) (x : nat -> R) : Prop := m <= x 0%nat <= M /\ p <= x 1%nat <= q /\ k <= x 2%nat <= l.
Definition close (r : R) (x x' : nat -> R) : Prop := forall j, Rabs (x j - x' j) <= r.
Definition LBc (D : (nat -> R) -> Prop) (f : (nat -> R) -> R) (C : R) : Prop :=
  0 <= C /\ (forall x, D x -> Rabs (f x) <= C) /\ (forall x x' r, D x -> D x' -> close r x x' -> Rabs (f x - f x') <= C * r).
Definition LB D f : Prop := exists C, LBc D f C.

Lemma close_pos r x x' : close r x x' -> 0 <= r.
Proof. intros H. eapply Rle_trans; [apply Rabs_pos|exact (H 0%nat)]. Qed.
Lemma LBc_le D f C C' : LBc D f C -> C <= C' -> LBc D f C'.
Proof.
  intros (A & B & E) L. split; [lra|]. split.
  - intros x Hx. pose proof (B x Hx). lra.
  - intros x x' r Hx Hx' Hr. eapply Rle_trans; [apply (E x x' r Hx Hx' Hr)|]. pose proof (close_pos _ _ _ Hr). apply Rmult_le_compat_r; assumption.
Qed.
Lemma LB_ext D f g : LB D f -> (forall x, D x -> f x = g x) -> LB D g.
Proof.
  intros (C & A & B & E) Q. exists C. split; [exact A|]. split.
  - intros x Hx. rewrite <- Q by exact Hx. apply B, Hx.
  - intros x x' r Hx Hx' Hr. rewrite <- !Q by assumption. apply E; assumption.
Qed.
Lemma LB_const D c : LB D (fun _ => c).
Proof.
  exists (Rabs c). split; [apply Rabs_pos|]. split; [intros; lra|]. intros x x' r _ _ Hr. rewrite Rminus_diag_eq, Rabs_R0 by reflexivity.
  apply Rmult_le_pos; [apply Rabs_pos|exact (close_pos _ _ _ Hr)].
Qed.
Lemma LB_proj (D : (nat -> R) -> Prop) j lo hi : (forall x, D x -> lo <= x j <= hi) -> LB D (fun x => x j).
Proof.
  intros H. exists (Rabs lo + Rabs hi + 1). pose proof (Rabs_pos lo). pose proof (Rabs_pos hi). split; [lra|]. split.
  - intros x Hx. specialize (H x Hx). apply Rabs_le. pose proof (Rle_abs hi). pose proof (Rle_abs (- lo)) as X. rewrite Rabs_Ropp in X. lra.
  - intros x x' r Hx Hx' Hr. pose proof (Hr j) as Q. pose proof (close_pos _ _ _ Hr). nra.
Qed.
Lemma LB_plus D f g : LB D f -> LB D g -> LB D (fun x => f x + g x).
Proof.
  intros (C & A & B & E) (C' & A' & B' & E'). exists (C + C'). split; [lra|]. split.
  - intros x Hx. eapply Rle_trans; [apply Rabs_triang|]. apply Rplus_le_compat; auto.
  - intros x x' r Hx Hx' Hr. replace (f x + g x - (f x' + g x')) with ((f x - f x') + (g x - g x')) by ring.
    eapply Rle_trans; [apply Rabs_triang|]. pose proof (E x x' r Hx Hx' Hr). pose proof (E' x x' r Hx Hx' Hr). lra.
Qed.
Lemma LB_opp D f : LB D f -> LB D (fun x => - f x).
Proof.
  intros (C & A & B & E). exists C. split; [exact A|]. split.
  - intros x Hx. rewrite Rabs_Ropp. auto.
  - intros x x' r Hx Hx' Hr. replace (- f x - - f x') with (- (f x - f x')) by ring. rewrite Rabs_Ropp. auto.
Qed.
Lemma LB_minus D f g : LB D f -> LB D g -> LB D (fun x => f x - g x).
Proof. intros A B. apply LB_plus; [exact A|apply LB_opp, B]. Qed.
Lemma LB_mult D f g : LB D f -> LB D g -> LB D (fun x => f x * g x).
Proof.
  intros (C & A & B & E) (C' & A' & B' & E'). exists (2 * (C * C')). assert (0 <= C * C') by (apply Rmult_le_pos; assumption). split; [lra|]. split.
  - intros x Hx. rewrite Rabs_mult. pose proof (Rmult_le_compat _ _ _ _ (Rabs_pos _) (Rabs_pos _) (B x Hx) (B' x Hx)). lra.
  - intros x x' r Hx Hx' Hr. replace (f x * g x - f x' * g x') with (f x * (g x - g x') + g x' * (f x - f x')) by ring.
    eapply Rle_trans; [apply Rabs_triang|]. rewrite !Rabs_mult.
    pose proof (Rmult_le_compat _ _ _ _ (Rabs_pos _) (Rabs_pos _) (B x Hx) (E' x x' r Hx Hx' Hr)).
    pose proof (Rmult_le_compat _ _ _ _ (Rabs_pos _) (Rabs_pos _) (B' x' Hx') (E x x' r Hx Hx' Hr)). lra.
Qed.
(** composition with a continuously differentiable function *)
Lemma LB_comp D f g dg d2g lo hi : lo <= hi -> LB D f -> (forall x, D x -> lo <= f x <= hi) ->
  (forall u, lo <= u <= hi -> is_derive g u (dg u) /\ is_derive dg u (d2g u)) -> LB D (fun x => g (f x)).
Proof.
  intros L (C & A & B & E) R0 DG.
  destruct (bounded g lo hi L) as (G0 & G0p & BG0); [apply (deriv_cont _ dg); intros s Hs; apply (DG s Hs)|].
  destruct (bounded dg lo hi L) as (G1 & G1p & BG1); [apply (deriv_cont _ d2g); intros s Hs; apply (DG s Hs)|].
  exists (G0 + G1 * C). assert (0 <= G1 * C) by (apply Rmult_le_pos; assumption). split; [lra|]. split.
  - intros x Hx. pose proof (BG0 _ (R0 x Hx)). lra.
  - intros x x' r Hx Hx' Hr. pose proof (close_pos _ _ _ Hr) as RP.
    pose proof (lipschitz g dg lo hi G1 (fun u Hu => proj1 (DG u Hu)) BG1 (f x) (f x') (R0 x Hx) (R0 x' Hx')) as LI.
    pose proof (E x x' r Hx Hx' Hr) as EE. apply Rle_trans with (G1 * (C * r)).
    + eapply Rle_trans; [exact LI|]. apply Rmult_le_compat_l; assumption.
    + assert (0 <= G0 * r) by (apply Rmult_le_pos; assumption). lra.
Qed.
Lemma LB_range D f : LB D f -> exists hi, 0 <= hi /\ forall x, D x -> - hi <= f x <= hi.
Proof. intros (C & A & B & _). exists C. split; [exact A|]. intros x Hx. apply Rabs_le_between, B, Hx. Qed.
Lemma LB_inv D f h : LB D f -> 0 < h -> (forall x, D x -> h <= Rabs (f x)) -> LB D (fun x => / f x).
Proof.
  intros (C & A & B & E) Hh LO. assert (IH : 0 < / h) by (apply Rinv_0_lt_compat; exact Hh). exists (/ h + C * (/ h * / h)).
  assert (0 <= C * (/ h * / h)) by (apply Rmult_le_pos; [exact A|apply Rmult_le_pos; lra]). split; [lra|].
  assert (IV : forall x, D x -> Rabs (/ f x) <= / h) by (intros x Hx; rewrite Rabs_inv; apply Rinv_le_contravar; [exact Hh|apply LO, Hx]).
  assert (NZ : forall x, D x -> f x <> 0) by (intros x Hx Z; pose proof (LO x Hx) as Q; rewrite Z, Rabs_R0 in Q; lra). split.
  - intros x Hx. pose proof (IV x Hx). lra.
  - intros x x' r Hx Hx' Hr. pose proof (close_pos _ _ _ Hr) as RP.
    replace (/ f x - / f x') with (- (f x - f x') * (/ f x * / f x')) by (field; split; apply NZ; assumption).
    rewrite Rabs_mult, Rabs_Ropp, Rabs_mult.
    pose proof (E x x' r Hx Hx' Hr) as E1. pose proof (Rmult_le_compat _ _ _ _ (Rabs_pos _) (Rabs_pos _) (IV x Hx) (IV x' Hx')) as E2.
    assert (E3 : Rabs (f x - f x') * (Rabs (/ f x) * Rabs (/ f x')) <= C * r * (/ h * / h)).
    { apply Rmult_le_compat; try assumption; [apply Rabs_pos|apply Rmult_le_pos; apply Rabs_pos]. }
    assert (0 <= / h * r) by (apply Rmult_le_pos; lra). lra.
Qed.
Lemma LB_div D f g h : LB D f -> LB D g -> 0 < h -> (forall x, D x -> h <= Rabs (g x)) -> LB D (fun x => f x / g x).
Proof. intros A B C E. apply LB_mult; [exact A|exact (LB_inv D g h B C E)]. Qed.
Lemma LB_sqrt D f h : LB D f -> 0 < h -> (forall x, D x -> h <= f x) -> LB D (fun x => sqrt (f x)).
Proof.
  intros HF Hh LO. destruct (LB_range D f HF) as (hi & Hhi & RG).
  apply (LB_comp D f sqrt (fun u => / (2 * sqrt u)) (fun u => - / (4 * (u * sqrt u))) h (h + hi)); [lra|exact HF| |].
  - intros x Hx. pose proof (LO x Hx). pose proof (RG x Hx). lra.
  - intros u Hu. assert (0 < u) by lra. assert (S0 : 0 < sqrt u) by (apply sqrt_lt_R0; lra). assert (S2 : sqrt u * sqrt u = u) by (apply sqrt_sqrt; lra). split.
    + auto_derive; [lra|field; lra].
    + evar_last; [auto_derive; [split; [lra|split; [lra|exact I]]|reflexivity]|]. change (@eq R (- (2 * (1 * / (2 * sqrt u))) * / (2 * sqrt u * (2 * sqrt u))) (- / (4 * (u * sqrt u)))).
      replace (4 * (u * sqrt u)) with (4 * (sqrt u * sqrt u * sqrt u)) by (rewrite S2; ring). field. lra.
Qed.
Lemma LB_exp D f : LB D f -> LB D (fun x => exp (f x)).
Proof.
  intros HF. destruct (LB_range D f HF) as (hi & Hhi & RG). apply (LB_comp D f exp exp exp (- hi) hi); [lra|exact HF|exact RG|].
  intros u _. split; auto_derive; try exact I; ring.
Qed.

(** nearest point of the box *)
Definition cl (a b x : R) : R := Rmax a (Rmin b x).
Lemma cl_in a b x : a <= b -> a <= cl a b x <= b.
Proof. intros H. unfold cl, Rmax, Rmin. destruct (Rle_dec b x); destruct (Rle_dec _ _); lra. Qed.
Lemma cl_id a b x : a <= x <= b -> cl a b x = x.
Proof. intros H. unfold cl. rewrite Rmin_right by lra. apply Rmax_right. lra. Qed.
Lemma cl_lip a b x y : Rabs (cl a b x - cl a b y) <= Rabs (x - y).
Proof. unfold cl, Rmax, Rmin. destruct (Rle_dec b x), (Rle_dec b y); repeat destruct (Rle_dec _ _); unfold Rabs; repeat destruct (Rcase_abs _); lra. Qed.

Lemma box_picard m M p q k l (G : nat -> (nat -> R) -> R) C : m <= M -> p <= q -> k <= l -> (forall i, LBc (box m M p q k l) (G i) C) ->
  forall r, 0 < r -> exists d, 0 < d /\ forall (a : nat -> R) t0, box (m + r) (M - r) (p + r) (q - r) (k + r) (l - r) a ->
    exists Y : nat -> R -> R, (forall i, Y i t0 = a i) /\ (forall i t, continuous (Y i) t) /\
      forall t, Rabs (t - t0) < d -> box m M p q k l (fun j => Y j t) /\ (forall i, Rabs (Y i t - a i) <= r) /\ forall i, is_derive (Y i) t (G i (fun j => Y j t)).
Proof.
  intros Hm Hp Hk HG r Hr. destruct (HG 0%nat) as (C0 & _). set (C1 := C + 1). assert (C1P : 1 <= C1) by (unfold C1; lra).
  exists (Rmin (/ (2 * C1)) (r / C1)). set (d := Rmin (/ (2 * C1)) (r / C1)).
  assert (DP : 0 < d) by (unfold d, Rmin; destruct (Rle_dec _ _); [apply Rinv_0_lt_compat; lra|apply Rdiv_lt_0_compat; lra]).
  assert (Da : C1 * d <= / 2).
  { apply Rle_trans with (C1 * / (2 * C1)); [apply Rmult_le_compat_l; [lra|apply Rmin_l]|]. right. field. lra. }
  assert (Db : C1 * d <= r).
  { apply Rle_trans with (C1 * (r / C1)); [apply Rmult_le_compat_l; [lra|apply Rmin_r]|]. right. field. lra. }
  split; [exact DP|]. intros a t0 Ha.
  set (cx := fun (x : nat -> R) (j : nat) => match j with 0%nat => cl m M (x 0%nat) | 1%nat => cl p q (x 1%nat) | 2%nat => cl k l (x 2%nat) | _ => x j end).
  assert (CI : forall x, box m M p q k l (cx x)) by (intros x; split; [|split]; apply cl_in; assumption).
  assert (CL : forall x x' s, close s x x' -> close s (cx x) (cx x')).
  { intros x x' s H j. specialize (H j). destruct j as [|[|[|j]]]; cbn [cx]; try exact H; (eapply Rle_trans; [apply cl_lip|exact H]). }
  set (F := fun i x => G i (cx x)).
  assert (FB : forall i x, Rabs (F i x) <= C1) by (intros i x; destruct (HG i) as (_ & B & _); pose proof (B _ (CI x)); unfold F, C1; lra).
  assert (FLip : forall i x x' s, (forall j, Rabs (x j - x' j) <= s) -> Rabs (F i x - F i x') <= C1 * s).
  { intros i x x' s H. destruct (HG i) as (_ & _ & E). unfold F. pose proof (E _ _ s (CI x) (CI x') (CL x x' s H)). pose proof (close_pos s x x' H). unfold C1. nra. }
  assert (C10 : 0 <= C1) by lra.
  exists (sol F a t0 d). split; [intros i; apply (sol_0 F C1 a t0 d C10 FB FLip DP Da)|].
  split; [intros i t; apply (lip_cont _ C1); intros; apply (sol_lip F C1 a t0 d C10 FB FLip DP Da)|].
  intros t Ht.
  assert (NEAR : forall i, Rabs (sol F a t0 d i t - a i) <= r).
  { intros i. rewrite <- (sol_0 F C1 a t0 d C10 FB FLip DP Da i). eapply Rle_trans; [apply (sol_lip F C1 a t0 d C10 FB FLip DP Da)|].
    apply Rle_trans with (C1 * d); [apply Rmult_le_compat_l; lra|exact Db]. }
  assert (IN : box m M p q k l (fun j => sol F a t0 d j t)).
  { destruct Ha as (A0 & A1 & A2). pose proof (NEAR 0%nat) as N0. pose proof (NEAR 1%nat) as N1. pose proof (NEAR 2%nat) as N2.
    apply Rabs_le_between in N0. apply Rabs_le_between in N1. apply Rabs_le_between in N2. split; [|split]; lra. }
  split; [exact IN|]. split; [exact NEAR|]. intros i.
  pose proof (sol_derive F C1 a t0 d C10 FB FLip DP Da i t Ht) as D. unfold F at 2 in D.
  assert (E : G i (cx (fun j => sol F a t0 d j t)) = G i (fun j => sol F a t0 d j t)).
  { destruct (HG i) as (_ & _ & E). apply Rminus_diag_uniq.
    assert (Z : Rabs (G i (cx (fun j => sol F a t0 d j t)) - G i (fun j => sol F a t0 d j t)) <= C * 0).
    { apply E; [apply CI|exact IN|]. destruct IN as (I0 & I1 & I2). intros j.
      destruct j as [|[|[|j]]]; cbn [cx]; rewrite ?cl_id by assumption; rewrite Rminus_diag_eq, Rabs_R0 by reflexivity; lra. }
    rewrite Rmult_0_r in Z. pose proof (Rabs_pos (G i (cx (fun j => sol F a t0 d j t)) - G i (fun j => sol F a t0 d j t))).
    destruct (Req_dec (G i (cx (fun j => sol F a t0 d j t)) - G i (fun j => sol F a t0 d j t)) 0) as [|N]; [assumption|]. apply Rabs_pos_lt in N. lra. }
  rewrite <- E. exact D.
Qed.
