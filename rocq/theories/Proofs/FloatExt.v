(** The special values of Model/Float.v against Coquelicot's extended reals: every comparison and every arithmetic
    operation on non-NaN values is the one of the extended reals, and is NaN exactly where that one is undefined. *)
From Coq Require Import Reals List Lra Bool.
From Coquelicot Require Import Coquelicot.
From Verif Require Import Base Model.Float.
Open Scope R_scope.

Definition of_ext (x : Rbar) : fl := match x with Finite r => Fin r | p_infty => PInf | m_infty => NInf end.
Definition of_opt (x : option Rbar) : fl := match x with Some y => of_ext y | None => NaN end.

Lemma flt_ext x y : flt (of_ext x) (of_ext y) = true <-> Rbar_lt x y.
Proof. destruct x, y; simpl; try destruct (Rlt_dec _ _); split; intros; try discriminate; try contradiction; auto. Qed.
Lemma feq_ext x y : feq (of_ext x) (of_ext y) = true <-> x = y.
Proof.
  destruct x, y; simpl; try destruct (Req_EM_T _ _); split; intros H; try discriminate; try reflexivity; try (f_equal; assumption).
  injection H as H. contradiction.
Qed.
Lemma fle_ext x y : fle (of_ext x) (of_ext y) = true <-> Rbar_le x y.
Proof.
  unfold fle. rewrite orb_true_iff, flt_ext, feq_ext. split; [intros [H| ->]; [apply Rbar_lt_le; exact H|apply Rbar_le_refl]|].
  intros H. destruct (Rbar_le_lt_or_eq_dec _ _ H); auto.
Qed.
Lemma cmp_nan a : flt NaN a = false /\ flt a NaN = false /\ fle NaN a = false /\ fle a NaN = false /\ feq NaN a = false /\ feq a NaN = false.
Proof. destruct a; repeat split; reflexivity. Qed.
Lemma fneg_ext x : fneg (of_ext x) = of_ext (Rbar_opp x).
Proof. destruct x; reflexivity. Qed.
Lemma fadd_ext x y : fadd (of_ext x) (of_ext y) = of_opt (Rbar_plus' x y).
Proof. destruct x, y; reflexivity. Qed.
Lemma fsub_ext x y : fsub (of_ext x) (of_ext y) = of_opt (Rbar_plus' x (Rbar_opp y)).
Proof. destruct x, y; reflexivity. Qed.
Lemma fmul_ext x y : fmul (of_ext x) (of_ext y) = of_opt (Rbar_mult' x y).
Proof.
  destruct x, y; simpl; try reflexivity; unfold inf_of;
  repeat (match goal with |- context [Rlt_dec ?a ?b] => destruct (Rlt_dec a b) | |- context [Rle_dec ?a ?b] => destruct (Rle_dec a b)
          | |- context [Rle_lt_or_eq_dec ?a ?b ?c] => destruct (Rle_lt_or_eq_dec a b c) end); simpl; try reflexivity; try lra.
Qed.
(** division by a non-zero value *)
Lemma fdiv_ext x y : y <> Finite 0 -> fdiv (of_ext x) (of_ext y) =
  match x, y with p_infty, p_infty | p_infty, m_infty | m_infty, p_infty | m_infty, m_infty => NaN | _, _ => of_opt (Rbar_mult' x (Rbar_inv y)) end.
Proof.
  intros H. destruct y as [y| |]; destruct x as [x| |]; simpl; try reflexivity; try (f_equal; ring);
  try (assert (Y : y <> 0) by (intros ->; apply H; reflexivity)).
  - destruct (Req_EM_T y 0); [contradiction|]. reflexivity.
  - destruct (Rlt_dec y 0) as [L|L].
    + pose proof (Rinv_lt_0_compat y L). destruct (Rle_dec 0 (/ y)) as [Q|Q]; [exfalso; lra|reflexivity].
    + assert (0 < / y) by (apply Rinv_0_lt_compat; lra). destruct (Rle_dec 0 (/ y)) as [Q|Q]; [|exfalso; lra]. destruct (Rle_lt_or_eq_dec 0 (/ y) Q); [reflexivity|exfalso; lra].
  - destruct (Rlt_dec y 0) as [L|L].
    + pose proof (Rinv_lt_0_compat y L). destruct (Rle_dec 0 (/ y)) as [Q|Q]; [exfalso; lra|reflexivity].
    + assert (0 < / y) by (apply Rinv_0_lt_compat; lra). destruct (Rle_dec 0 (/ y)) as [Q|Q]; [|exfalso; lra]. destruct (Rle_lt_or_eq_dec 0 (/ y) Q); [reflexivity|exfalso; lra].
Qed.
Lemma fexp_ext x : is_lim exp x (match fexp (of_ext x) with Fin r => Finite r | PInf => p_infty | _ => m_infty end).
Proof. destruct x as [x| |]; simpl; [apply is_lim_continuity, derivable_continuous, derivable_exp|apply is_lim_exp_p|apply is_lim_exp_m]. Qed.
Lemma nan_in a : fadd NaN a = NaN /\ fadd a NaN = NaN /\ fsub NaN a = NaN /\ fsub a NaN = NaN /\ fmul NaN a = NaN /\ fmul a NaN = NaN /\ fdiv NaN a = NaN /\ fdiv a NaN = NaN.
Proof. destruct a; repeat split; reflexivity. Qed.
