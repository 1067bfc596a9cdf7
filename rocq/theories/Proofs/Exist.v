(** Existence of evolutions of the two coded background systems, uniformly on boxes of states. *)
From Coq Require Import Reals List String Lra Lia.
From Coquelicot Require Import Coquelicot.
From Verif Require Import Base Model.Potentials Model.Equations Model.Background Spec.BackgroundSpec Proofs.Unique Proofs.Picard Proofs.LipBox.
Import ListNotations.
Open Scope R_scope.

Definition tr (x : nat -> R) (j : nat) : R := match j with 0%nat | 1%nat | 2%nat => x j | _ => 0 end.
Lemma LB_near m M p q k l f a : LB (box m M p q k l) f -> (forall x, f (tr x) = f x) -> box m M p q k l a -> 0 < f a ->
  exists r, 0 < r /\ forall x, box m M p q k l x -> (forall j, (j < 3)%nat -> Rabs (x j - a j) <= r) -> f a / 2 <= f x.
Proof.
  intros (C & A & B & E) T Ha Fa. exists (f a / (2 * (C + 1))). assert (R0 : 0 < f a / (2 * (C + 1))) by (apply Rdiv_lt_0_compat; lra). split; [exact R0|].
  intros x Hx Hc. set (r := f a / (2 * (C + 1))) in *.
  assert (X : Rabs (f (tr x) - f (tr a)) <= C * r).
  { apply E; [exact Hx|exact Ha|]. intros [|[|[|j] ] ]; cbn [tr]; try (apply Hc; lia). rewrite Rminus_diag_eq, Rabs_R0 by reflexivity. lra. }
  rewrite !T in X. assert (C * r <= f a / 2).
  { apply Rle_trans with ((C + 1) * r); [apply Rmult_le_compat_r; lra|]. unfold r. right. field. lra. }
  apply Rabs_le_between in X. lra.
Qed.
Lemma LB_all D (G : nat -> (nat -> R) -> R) n : (forall i, (i < n)%nat -> LB D (G i)) -> (forall i, (n <= i)%nat -> forall x, G i x = 0) ->
  exists C, forall i, LBc D (G i) C.
Proof.
  revert G. induction n as [|n IH]; intros G A Z.
  - exists 0. intros i. split; [lra|]. split.
    + intros x _. rewrite Z, Rabs_R0 by lia. lra.
    + intros x x' r _ _ _. rewrite !Z, Rminus_diag_eq, Rabs_R0 by (try lia; reflexivity). lra.
  - destruct (IH (fun i => if Nat.ltb i n then G i else fun _ => 0)) as (C & HC).
    + intros i Hi. apply Nat.ltb_lt in Hi. rewrite Hi. apply A. apply Nat.ltb_lt in Hi. lia.
    + intros i Hi x. apply Nat.ltb_ge in Hi. rewrite Hi. reflexivity.
    + destruct (A n ltac:(lia)) as (C' & HC'). exists (C + C'). assert (C0 : 0 <= C) by (destruct (HC 0%nat); assumption). assert (C0' : 0 <= C') by (destruct HC'; assumption).
      intros i. destruct (lt_eq_lt_dec i n) as [[Hi| ->]|Hi].
      * pose proof (HC i) as Q. cbv beta in Q. apply Nat.ltb_lt in Hi. rewrite Hi in Q. apply (LBc_le _ _ C); [exact Q|lra].
      * apply (LBc_le _ _ C'); [exact HC'|lra].
      * split; [lra|]. split.
        -- intros x _. rewrite Z, Rabs_R0 by lia. lra.
        -- intros x x' r _ _ Hr. rewrite !Z, Rminus_diag_eq, Rabs_R0 by (try lia; reflexivity). apply Rmult_le_pos; [lra|exact (close_pos _ _ _ Hr)].
Qed.

Section Common.
Variables (U : potfun) (m M p q k l : R).
Hypothesis LM : m <= M.
Hypothesis SM : forall x, m <= x <= M -> smooth_pot U x.
Notation D := (box m M p q k l).
Lemma LB0 : LB D (fun x => x 0%nat). Proof. apply (LB_proj _ _ m M). intros x Hx. apply Hx. Qed.
Lemma LB1 : LB D (fun x => x 1%nat). Proof. apply (LB_proj _ _ p q). intros x Hx. apply Hx. Qed.
Lemma LB2 : LB D (fun x => x 2%nat). Proof. apply (LB_proj _ _ k l). intros x Hx. apply Hx. Qed.
Lemma LB_V : LB D (fun x => pV U (x 0%nat)).
Proof. apply (LB_comp D (fun x => x 0%nat) (pV U) (pdV U) (pd2V U) m M LM LB0); [intros x Hx; apply Hx|]. intros u Hu. destruct (SM u Hu) as (A & B & _). split; assumption. Qed.
Lemma LB_dV : LB D (fun x => pdV U (x 0%nat)).
Proof. apply (LB_comp D (fun x => x 0%nat) (pdV U) (pd2V U) (pd3V U) m M LM LB0); [intros x Hx; apply Hx|]. intros u Hu. destruct (SM u Hu) as (_ & A & B). split; assumption. Qed.
Lemma LB_e2 c : LB D (fun x => exp (c * x 2%nat)).
Proof. apply LB_exp, LB_mult; [apply LB_const|apply LB2]. Qed.
Lemma LB_p2 : LB D (fun x => x 1%nat ^ 2).
Proof. apply (LB_ext D (fun x => x 1%nat * x 1%nat)); [apply LB_mult; apply LB1|intros; ring]. Qed.
End Common.

Section Time.
Variables (K : R) (U : potfun) (te : bool).
Definition Th2 (x : nat -> R) : R := T_get_H2 (x 2%nat) (x 1%nat) (pV U (x 0%nat)) K.
Definition GT (i : nat) (x : nat -> R) : R :=
  match i with 0%nat => x 1%nat | 1%nat => T_get_d2phi (Th2 x) (x 1%nat) (pdV U (x 0%nat)) | 2%nat => sqrt (Th2 x) | 3%nat => exp (- x 2%nat) | _ => 0 end.
Variables (m M p q k l : R).
Hypothesis LM : m <= M.
Hypothesis SM : forall x, m <= x <= M -> smooth_pot U x.
Lemma LB_Th2 : LB (box m M p q k l) Th2.
Proof.
  unfold Th2, T_get_H2. apply LB_minus.
  - apply LB_mult; [|apply LB_const]. apply LB_plus; [|apply LB_V; assumption]. apply LB_mult; [apply LB_p2|apply LB_const].
  - apply LB_mult; [apply LB_const|apply LB_e2].
Qed.
Lemma LB_GT h : 0 < h -> (forall x, box m M p q k l x -> h <= Th2 x) -> exists C, forall i, LBc (box m M p q k l) (GT i) C.
Proof.
  intros Hh LO. assert (LS : LB (box m M p q k l) (fun x => sqrt (Th2 x))) by (apply (LB_sqrt _ _ h LB_Th2 Hh LO)).
  apply (LB_all _ _ 4).
  - intros [|[|[|[|i] ] ] ] Hi; [..|lia]; unfold GT.
    + apply LB1.
    + unfold T_get_d2phi. apply LB_minus; [|apply LB_dV; assumption]. apply LB_mult; [|apply LB1]. apply LB_mult; [apply LB_const|exact LS].
    + exact LS.
    + apply LB_exp, LB_opp, LB2.
  - intros [|[|[|[|i] ] ] ] Hi x; try lia. reflexivity.
Qed.
Definition Tlist (Y : nat -> R -> R) (t : R) : list R := ([Y 0%nat t; Y 1%nat t; Y 2%nat t] ++ (if te then [Y 3%nat t] else []))%list.
Lemma T_exist_box h r : p <= q -> k <= l -> 0 < h -> (forall x, box m M p q k l x -> h <= Th2 x) -> 0 < r ->
  exists d, 0 < d /\ forall phi0 dphi0 N0 eta0 t0, m + r <= phi0 <= M - r -> p + r <= dphi0 <= q - r -> k + r <= N0 <= l - r ->
    exists y, T_background K U te y (t0 - d) (t0 + d) /\ y t0 = ([phi0; dphi0; N0] ++ (if te then [eta0] else []))%list.
Proof.
  intros Hp Hk Hh LO Hr. destruct (LB_GT h Hh LO) as (C & HC).
  destruct (box_picard m M p q k l GT C LM Hp Hk HC r Hr) as (d & Hd & EX). exists d. split; [exact Hd|].
  intros phi0 dphi0 N0 eta0 t0 A0 A1 A2.
  destruct (EX (fun j => match j with 0%nat => phi0 | 1%nat => dphi0 | 2%nat => N0 | _ => eta0 end) t0) as (Y & Y0 & _ & Q); [split; [|split]; assumption|].
  exists (Tlist Y). split.
  - assert (W : forall t, t0 - d < t < t0 + d -> Rabs (t - t0) < d) by (intros t Ht; apply Rabs_lt_between'; lra). split.
    + intros t Ht. destruct (Q t (W t Ht)) as (_ & _ & DD). unfold Tlist. destruct te.
      * split; [reflexivity|]. intros [|[|[|[|i] ] ] ] Hi; cbn in Hi; try lia; cbn [app nth].
        -- exact (DD 0%nat). -- exact (DD 1%nat). -- exact (DD 2%nat). -- exact (DD 3%nat).
      * split; [reflexivity|]. intros [|[|[|i] ] ] Hi; cbn in Hi; try lia; cbn [app nth].
        -- exact (DD 0%nat). -- exact (DD 1%nat). -- exact (DD 2%nat).
    + intros t Ht. destruct (Q t (W t Ht)) as (IN & _ & _). split.
      * apply Rlt_le_trans with h; [exact Hh|]. pose proof (LO _ IN) as X. unfold Tlist. destruct te; exact X.
      * replace (T_phi te (Tlist Y) t) with (Y 0%nat t) by (unfold Tlist, T_phi; destruct te; reflexivity). apply SM. apply IN.
  - unfold Tlist. destruct te; cbn [app]; rewrite ?Y0; reflexivity.
Qed.
End Time.

Section Efolds.
Variables (K : R) (U : potfun) (tm te : bool).
Definition Nh2 (x : nat -> R) : R := N_get_H2 (x 2%nat) (x 1%nat) (pV U (x 0%nat)) K.
Definition GN (i : nat) (x : nat -> R) : R :=
  match i with 0%nat => x 1%nat | 1%nat => N_get_d2phi (Nh2 x) (N_get_dH_H (x 2%nat) (Nh2 x) (x 1%nat) K) (x 1%nat) (pdV U (x 0%nat))
  | 2%nat => 1 | 3%nat => 1 / sqrt (Nh2 x) | 4%nat => exp (- x 2%nat) / sqrt (Nh2 x) | _ => 0 end.
Variables (m M p q k l : R).
Hypothesis LM : m <= M.
Hypothesis SM : forall x, m <= x <= M -> smooth_pot U x.
Variable c : R.
Hypothesis C0 : 0 < c.
Hypothesis V6 : forall v, p <= v <= q -> c <= Rabs (6 - v ^ 2).
Lemma LB_Nh2 : LB (box m M p q k l) Nh2.
Proof.
  unfold Nh2, N_get_H2. apply (LB_div _ _ _ c).
  - apply LB_minus; [apply LB_mult; [apply LB_const|apply LB_V; assumption]|]. apply LB_mult; [apply LB_const|apply LB_e2].
  - apply LB_minus; [apply LB_const|apply LB_p2].
  - exact C0.
  - intros x Hx. apply V6. apply Hx.
Qed.
Lemma LB_GN h : 0 < h -> (forall x, box m M p q k l x -> h <= Nh2 x) -> exists C, forall i, LBc (box m M p q k l) (GN i) C.
Proof.
  intros Hh LO. assert (LS : LB (box m M p q k l) (fun x => sqrt (Nh2 x))) by (apply (LB_sqrt _ _ h LB_Nh2 Hh LO)).
  assert (AB : forall x, box m M p q k l x -> h <= Rabs (Nh2 x)) by (intros x Hx; rewrite Rabs_right; [apply LO, Hx|pose proof (LO x Hx); lra]).
  assert (SB : forall x, box m M p q k l x -> sqrt h <= Rabs (sqrt (Nh2 x))).
  { intros x Hx. rewrite Rabs_right by (apply Rle_ge, sqrt_pos). apply sqrt_le_1_alt. apply LO, Hx. }
  assert (SH : 0 < sqrt h) by (apply sqrt_lt_R0; exact Hh).
  apply (LB_all _ _ 5).
  - intros [|[|[|[|[|i] ] ] ] ] Hi; [..|lia]; unfold GN.
    + apply LB1.
    + unfold N_get_d2phi, N_get_dH_H. apply LB_minus.
      * apply LB_mult; [|apply LB1]. apply LB_opp, LB_plus; [|apply LB_const]. apply LB_plus; [apply LB_mult; [apply LB_opp, LB_p2|apply LB_const]|].
        apply (LB_div _ _ _ h); [apply LB_mult; [apply LB_const|apply LB_e2]|exact LB_Nh2|exact Hh|exact AB].
      * apply (LB_div _ _ _ h); [apply LB_dV; assumption|exact LB_Nh2|exact Hh|exact AB].
    + apply LB_const.
    + apply (LB_div _ _ _ (sqrt h)); [apply LB_const|exact LS|exact SH|exact SB].
    + apply (LB_div _ _ _ (sqrt h)); [apply LB_exp, LB_opp, LB2|exact LS|exact SH|exact SB].
  - intros [|[|[|[|[|i] ] ] ] ] Hi x; try lia. reflexivity.
Qed.
Definition Nlist (Y : nat -> R -> R) (t : R) : list R := ([Y 0%nat t; Y 1%nat t] ++ (if tm then [Y 3%nat t] else []) ++ (if te then [Y 4%nat t] else []))%list.
Lemma N_exist_box h r : p <= q -> k <= l -> 0 < h -> (forall x, box m M p q k l x -> h <= Nh2 x) -> 0 < r ->
  exists d, 0 < d /\ forall phi0 v0 t0 eta0 n0, m + r <= phi0 <= M - r -> p + r <= v0 <= q - r -> k + r <= n0 <= l - r ->
    exists y, N_background K U tm te y (n0 - d) (n0 + d) /\ y n0 = ([phi0; v0] ++ (if tm then [t0] else []) ++ (if te then [eta0] else []))%list.
Proof.
  intros Hp Hk Hh LO Hr. destruct (LB_GN h Hh LO) as (C & HC).
  destruct (box_picard m M p q k l GN C LM Hp Hk HC r Hr) as (d & Hd & EX). exists d. split; [exact Hd|].
  intros phi0 v0 t0 eta0 n0 A0 A1 A2.
  destruct (EX (fun j => match j with 0%nat => phi0 | 1%nat => v0 | 2%nat => n0 | 3%nat => t0 | _ => eta0 end) n0) as (Y & Y0 & _ & Q); [split; [|split]; assumption|].
  assert (W : forall t, n0 - d < t < n0 + d -> Rabs (t - n0) < d) by (intros t Ht; apply Rabs_lt_between'; lra).
  assert (Y2 : forall t, n0 - d < t < n0 + d -> Y 2%nat t = t).
  { intros t Ht. assert (X : Y 2%nat t - t = Y 2%nat n0 - n0).
    { apply (const_zero (fun s => Y 2%nat s - s) (Rmin n0 t) (Rmax n0 t) n0).
      - split; [apply Rmin_l|apply Rmax_l].
      - intros s Hs. assert (n0 - d < s < n0 + d) by (unfold Rmin, Rmax in Hs; destruct (Rle_dec n0 t); lra).
        destruct (Q s (W s H)) as (_ & _ & DD). specialize (DD 2%nat). cbn [GN] in DD.
        replace 0 with (1 - 1) by ring. apply (@is_derive_minus R_AbsRing R_NormedModule); [exact DD|apply @is_derive_id].
      - split; [apply Rmin_r|apply Rmax_r]. }
    rewrite (Y0 2%nat) in X. lra. }
  exists (Nlist Y). split.
  - split.
    + intros t Ht. destruct (Q t (W t Ht)) as (_ & _ & DD). pose proof (Y2 t Ht) as T2. unfold Nlist.
      pose proof (DD 1%nat) as D1. pose proof (DD 3%nat) as D3. pose proof (DD 4%nat) as D4. cbn [GN] in D1, D3, D4. unfold Nh2 in D1, D3, D4. rewrite T2 in D1, D3, D4.
      destruct tm, te; (split; [reflexivity|]); intros [|[|[|[|i] ] ] ] Hi; cbn in Hi; try lia; cbn [app nth];
      first [exact (DD 0%nat) | exact D1 | exact D3 | exact D4].
    + intros t Ht. destruct (Q t (W t Ht)) as (IN & _ & _). pose proof (Y2 t Ht) as T2. pose proof (LO _ IN) as X. unfold Nh2 in X. rewrite T2 in X.
      assert (EP : N_phi tm te (Nlist Y) t = Y 0%nat t) by (unfold Nlist, N_phi; destruct tm, te; reflexivity).
      assert (EV : N_dphi tm te (Nlist Y) t = Y 1%nat t) by (unfold Nlist, N_dphi; destruct tm, te; reflexivity).
      split; [|split].
      * apply Rlt_le_trans with h; [exact Hh|]. unfold Nlist. destruct tm, te; exact X.
      * rewrite EV. pose proof (V6 (Y 1%nat t) ltac:(apply IN)) as B. intros Z. rewrite Z in B. replace (6 - 6) with 0 in B by ring. rewrite Rabs_R0 in B. lra.
      * rewrite EP. apply SM. apply IN.
  - unfold Nlist. destruct tm, te; cbn [app]; rewrite ?Y0; reflexivity.
Qed.
End Efolds.
