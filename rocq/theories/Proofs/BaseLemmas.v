(** Lemmas about [pypow], [np_sign], [tanh], ... *)
From Coq Require Import Reals ZArith Lra Lia.
From Coquelicot Require Import Coquelicot.
From Verif Require Import Base.
Open Scope R_scope.

Lemma pypow_pos x y : 0 < x -> pypow x y = Rpower x y.
Proof. intros Hx; unfold pypow; destruct (Rlt_dec 0 x); [reflexivity | contradiction]. Qed.

Lemma Int_part_IZR z : Int_part (IZR z) = z.
Proof.
  destruct (base_Int_part (IZR z)) as [H1 H2].
  apply le_IZR in H1.
  assert (H3 : IZR z - 1 < IZR (Int_part (IZR z))) by lra.
  rewrite <- minus_IZR in H3. apply lt_IZR in H3. lia.
Qed.

Lemma pypow_neg x z : x < 0 -> pypow x (IZR z) = powerRZ x z.
Proof.
  intros Hx; unfold pypow.
  destruct (Rlt_dec 0 x); [lra|]. destruct (Req_EM_T x 0); [lra|].
  rewrite Int_part_IZR. destruct (Req_EM_T (IZR z) (IZR z)); [reflexivity | congruence].
Qed.

Lemma powerRZ_negbase x z : x < 0 -> powerRZ x z = powerRZ (-1) z * Rpower (- x) (IZR z).
Proof.
  intros Hx. replace x with ((-1) * (- x)) at 1 by ring.
  rewrite powerRZ_mult, (powerRZ_Rpower (- x)) by lra. reflexivity.
Qed.

Lemma pow_ok_neq0 x y : pow_ok x y -> x <> 0.
Proof. intros [H|[H _]]; lra. Qed.

Lemma pypow_neq0 x y : pow_ok x y -> pypow x y <> 0.
Proof.
  intros [H|[H [z ->]]].
  - rewrite pypow_pos by exact H. unfold Rpower. apply Rgt_not_eq, exp_pos.
  - rewrite pypow_neg by exact H. apply powerRZ_NOR; lra.
Qed.

Lemma pypow_gt0 x y : 0 < x -> 0 < pypow x y.
Proof. intros H; rewrite pypow_pos by exact H; apply exp_pos. Qed.

Lemma Rpower_0_r x : Rpower x 0 = 1.
Proof. unfold Rpower; rewrite Rmult_0_l; apply exp_0. Qed.

(** [x ** (p + k)] for integer [k] *)
Lemma pypow_addZ x p k : pow_ok x p -> pypow x (p + IZR k) = pypow x p * powerRZ x k.
Proof.
  intros [H|[H [z ->]]].
  - rewrite !pypow_pos by exact H. rewrite Rpower_plus, powerRZ_Rpower by exact H. reflexivity.
  - rewrite <- plus_IZR, !pypow_neg by exact H. rewrite powerRZ_add by lra. reflexivity.
Qed.

Lemma pypow_add_nat x p (n : nat) : pow_ok x p -> pypow x (p + INR n) = pypow x p * x ^ n.
Proof.
  intros H. rewrite INR_IZR_INZ, pypow_addZ by exact H. rewrite pow_powerRZ. reflexivity.
Qed.

Lemma pypow_sub_nat x p (n : nat) : pow_ok x p -> pypow x (p - INR n) = pypow x p / x ^ n.
Proof.
  intros H. unfold Rminus. rewrite INR_IZR_INZ, <- opp_IZR, pypow_addZ by exact H.
  rewrite powerRZ_neg', pow_powerRZ. reflexivity.
Qed.

Lemma pypow_mul_nat x p (n : nat) : pow_ok x p -> pypow x (INR n * p) = (pypow x p) ^ n.
Proof.
  intros [H|[H [z ->]]].
  - rewrite !pypow_pos by exact H. rewrite Rmult_comm, <- Rpower_mult.
    rewrite Rpower_pow; [reflexivity | apply exp_pos].
  - rewrite INR_IZR_INZ, <- mult_IZR, !pypow_neg by exact H.
    induction n as [|n IH]; [reflexivity|].
    rewrite Nat2Z.inj_succ, Z.mul_succ_l, powerRZ_add by lra.
    rewrite IH. simpl. ring.
Qed.

Lemma pow_ok_mul_nat x p (n : nat) : pow_ok x p -> pow_ok x (INR n * p).
Proof.
  intros [H|[H [z ->]]]; [left; exact H | right; split; [exact H|]].
  exists (Z.of_nat n * z)%Z. rewrite mult_IZR, INR_IZR_INZ. reflexivity.
Qed.

Lemma pypow_nat x (n : nat) : x <> 0 -> pypow x (INR n) = x ^ n.
Proof.
  intros H. destruct (Rlt_dec 0 x) as [Hp|Hn].
  - rewrite pypow_pos by exact Hp. apply Rpower_pow; exact Hp.
  - rewrite INR_IZR_INZ, pypow_neg, pow_powerRZ by lra. reflexivity.
Qed.

(** handy instances *)
Section Inst.
Variables (x p : R).
Hypothesis (H : pow_ok x p).
Lemma pypow_m1 : pypow x (p - 1) = pypow x p / x.
Proof. replace (p - 1) with (p - INR 1) by (simpl; ring). rewrite pypow_sub_nat by exact H. simpl. f_equal; ring. Qed.
Lemma pypow_m2 : pypow x (p - 2) = pypow x p / x^2.
Proof. replace (p - 2) with (p - INR 2) by (simpl; ring). apply pypow_sub_nat; exact H. Qed.
Lemma pypow_m3 : pypow x (p - 3) = pypow x p / x^3.
Proof. replace (p - 3) with (p - INR 3) by (simpl; ring). apply pypow_sub_nat; exact H. Qed.
Lemma pypow_m4 : pypow x (p - 4) = pypow x p / x^4.
Proof. replace (p - 4) with (p - INR 4) by (simpl; ring). apply pypow_sub_nat; exact H. Qed.
Lemma pypow_p0 : pypow x (p + 0) = pypow x p.
Proof. f_equal; ring. Qed.
Lemma pypow_p1 : pypow x (p + 1) = pypow x p * x.
Proof. replace (p + 1) with (p + INR 1) by (simpl; ring). rewrite pypow_add_nat by exact H. simpl; ring. Qed.
Lemma pypow_p2 : pypow x (p + 2) = pypow x p * x^2.
Proof. replace (p + 2) with (p + INR 2) by (simpl; ring). apply pypow_add_nat; exact H. Qed.
Lemma pypow_p3 : pypow x (p + 3) = pypow x p * x^3.
Proof. replace (p + 3) with (p + INR 3) by (simpl; ring). apply pypow_add_nat; exact H. Qed.
Lemma pypow_p4 : pypow x (p + 4) = pypow x p * x^4.
Proof. replace (p + 4) with (p + INR 4) by (simpl; ring). apply pypow_add_nat; exact H. Qed.
Lemma pypow_2m : pypow x (2 * p) = (pypow x p)^2.
Proof. rewrite <- pypow_mul_nat by exact H. f_equal; simpl; ring. Qed.
Lemma pypow_3m : pypow x (3 * p) = (pypow x p)^3.
Proof. rewrite <- pypow_mul_nat by exact H. f_equal; simpl; ring. Qed.
Lemma pypow_4m : pypow x (4 * p) = (pypow x p)^4.
Proof. rewrite <- pypow_mul_nat by exact H. f_equal; simpl; ring. Qed.
Lemma pypow_5m : pypow x (5 * p) = (pypow x p)^5.
Proof. rewrite <- pypow_mul_nat by exact H. f_equal; simpl; ring. Qed.
Lemma pypow_2m2 : pypow x (2 * p - 2) = (pypow x p)^2 / x^2.
Proof.
  replace (2 * p - 2) with (INR 2 * p - INR 2) by (simpl; ring).
  rewrite pypow_sub_nat by (apply pow_ok_mul_nat; exact H).
  rewrite pypow_mul_nat by exact H. reflexivity.
Qed.
End Inst.

Lemma pow_ok_locally x p : pow_ok x p -> locally x (fun t => pow_ok t p).
Proof.
  intros [H|[H Hz]].
  - apply (filter_imp (fun t => 0 < t)); [intros t Ht; left; exact Ht | apply open_gt; exact H].
  - apply (filter_imp (fun t => t < 0)); [intros t Ht; right; split; [exact Ht|exact Hz] | apply open_lt; exact H].
Qed.

Lemma is_derive_Rpower x p : 0 < x -> is_derive (fun t => Rpower t p) x (p * Rpower x p / x).
Proof.
  intros Hx. apply is_derive_Reals.
  replace (p * Rpower x p / x) with (p * Rpower x (p - 1)).
  - apply derivable_pt_lim_power; exact Hx.
  - unfold Rminus. rewrite Rpower_plus.
    rewrite Rpower_Ropp, Rpower_1 by exact Hx. field. lra.
Qed.

Lemma is_derive_pypow x p : pow_ok x p -> is_derive (fun t => pypow t p) x (p * pypow x p / x).
Proof.
  intros [H|[H [z ->]]].
  - rewrite pypow_pos by exact H.
    apply is_derive_ext_loc with (f := fun t => Rpower t p).
    + apply (filter_imp (fun t => 0 < t)); [|apply open_gt; exact H].
      intros t Ht; symmetry; apply pypow_pos; exact Ht.
    + apply is_derive_Rpower; exact H.
  - rewrite pypow_neg, powerRZ_negbase by exact H.
    apply is_derive_ext_loc with (f := fun t => powerRZ (-1) z * Rpower (- t) (IZR z)).
    + apply (filter_imp (fun t => t < 0)); [|apply open_lt; exact H].
      intros t Ht. rewrite pypow_neg by exact Ht. symmetry; apply powerRZ_negbase; exact Ht.
    + replace (IZR z * (powerRZ (-1) z * Rpower (- x) (IZR z)) / x)
        with (powerRZ (-1) z * ((-1) * (IZR z * Rpower (- x) (IZR z) / (- x)))) by (field; lra).
      apply (is_derive_scal (fun t => Rpower (- t) (IZR z))).
      apply (is_derive_comp (fun t => Rpower t (IZR z)) (fun t => - t)).
      * apply is_derive_Rpower; lra.
      * apply is_derive_Reals. replace (-1) with (- (1)) by ring.
        apply derivable_pt_lim_opp, derivable_pt_lim_id.
Qed.

(** tanh *)
Lemma cosh_gt0 x : 0 < cosh x.
Proof. unfold cosh. pose proof (exp_pos x). pose proof (exp_pos (-x)). lra. Qed.
Lemma cosh2_sinh2 x : (cosh x)^2 - (sinh x)^2 = 1.
Proof.
  unfold cosh, sinh. rewrite exp_Ropp. pose proof (exp_pos x). field. lra.
Qed.
Lemma is_derive_sinh x : is_derive sinh x (cosh x).
Proof. apply is_derive_Reals, derivable_pt_lim_sinh. Qed.
Lemma is_derive_cosh x : is_derive cosh x (sinh x).
Proof. apply is_derive_Reals, derivable_pt_lim_cosh. Qed.
Lemma is_derive_tanh x : is_derive tanh x (1 - (tanh x)^2).
Proof.
  unfold tanh. pose proof (cosh_gt0 x) as Hc.
  replace (1 - (sinh x / cosh x)^2) with ((cosh x * cosh x - sinh x * sinh x) / (cosh x)^2) by (field; lra).
  apply (is_derive_div sinh cosh); [apply is_derive_sinh|apply is_derive_cosh|lra].
Qed.
Lemma sinh_gt0 x : 0 < x -> 0 < sinh x.
Proof. intros H. rewrite <- sinh_0. apply sinh_lt; exact H. Qed.
Lemma tanh_gt0 x : 0 < x -> 0 < tanh x.
Proof. intros H. unfold tanh. apply Rdiv_lt_0_compat; [apply sinh_gt0; exact H | apply cosh_gt0]. Qed.
Lemma tanh_opp x : tanh (- x) = - tanh x.
Proof.
  unfold tanh. replace (sinh (-x)) with (- sinh x) by (unfold sinh; rewrite Ropp_involutive; field).
  replace (cosh (-x)) with (cosh x) by (unfold cosh; rewrite Ropp_involutive; f_equal; ring).
  field. apply Rgt_not_eq, cosh_gt0.
Qed.
Lemma tanh_lt1 x : tanh x < 1.
Proof.
  unfold tanh. pose proof (cosh_gt0 x). apply Rmult_lt_reg_r with (cosh x); [assumption|].
  unfold Rdiv. rewrite Rmult_assoc, Rinv_l by lra. unfold cosh, sinh. pose proof (exp_pos (-x)). lra.
Qed.
Lemma tanh_neq0 x : x <> 0 -> tanh x <> 0.
Proof.
  intros H. destruct (Rlt_dec 0 x) as [Hp|Hn].
  - apply Rgt_not_eq, tanh_gt0; exact Hp.
  - assert (0 < tanh (- x)) by (apply tanh_gt0; lra). rewrite tanh_opp in H0. lra.
Qed.

Lemma np_sign_pos x : 0 < x -> np_sign x = 1.
Proof. intros H; unfold np_sign; destruct (Rlt_dec 0 x); lra. Qed.
Lemma np_sign_neg x : x < 0 -> np_sign x = -1.
Proof. intros H; unfold np_sign; destruct (Rlt_dec 0 x); [lra|]; destruct (Rlt_dec x 0); lra. Qed.
