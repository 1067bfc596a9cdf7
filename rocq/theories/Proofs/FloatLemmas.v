(** Evaluation of [fl] operations on finite arguments. *)
From Coq Require Import Reals List Lra Bool.
From Verif Require Import Base Model.Float.
Open Scope R_scope.

Lemma fdiv_fin x y : y <> 0 -> fdiv (Fin x) (Fin y) = Fin (x / y).
Proof. intros H. simpl. destruct (Req_EM_T y 0); [contradiction|reflexivity]. Qed.
Lemma fdiv_zero x : fdiv (Fin x) (Fin 0) = inf_of x.
Proof. simpl. destruct (Req_EM_T 0 0); [reflexivity|contradiction]. Qed.
Lemma fsqrt_fin x : 0 <= x -> fsqrt (Fin x) = Fin (sqrt x).
Proof. intros H. simpl. destruct (Rlt_dec x 0); [lra|reflexivity]. Qed.
Lemma fsqrt_neg x : x < 0 -> fsqrt (Fin x) = NaN.
Proof. intros H. simpl. destruct (Rlt_dec x 0); [reflexivity|lra]. Qed.
Lemma flog_fin x : 0 < x -> flog (Fin x) = Fin (ln x).
Proof. intros H. simpl. destruct (Rlt_dec 0 x); [reflexivity|lra]. Qed.
Lemma flog_neg x : x < 0 -> flog (Fin x) = NaN.
Proof. intros H. simpl. destruct (Rlt_dec 0 x); [lra|]. destruct (Req_EM_T x 0); [lra|reflexivity]. Qed.
Lemma flt_true x y : x < y -> flt (Fin x) (Fin y) = true.
Proof. intros H. simpl. destruct (Rlt_dec x y); [reflexivity|lra]. Qed.
Lemma flt_false x y : y <= x -> flt (Fin x) (Fin y) = false.
Proof. intros H. simpl. destruct (Rlt_dec x y); [lra|reflexivity]. Qed.
Lemma flt_iff x y : flt (Fin x) (Fin y) = true <-> x < y.
Proof. simpl. destruct (Rlt_dec x y); split; intros; try lra; try discriminate; reflexivity. Qed.
Lemma feq_true x y : x = y -> feq (Fin x) (Fin y) = true.
Proof. intros H. simpl. destruct (Req_EM_T x y); [reflexivity|contradiction]. Qed.
Lemma feq_false x y : x <> y -> feq (Fin x) (Fin y) = false.
Proof. intros H. simpl. destruct (Req_EM_T x y); [contradiction|reflexivity]. Qed.
Lemma feq_iff x y : feq (Fin x) (Fin y) = true <-> x = y.
Proof. simpl. destruct (Req_EM_T x y); split; intros; try lra; try discriminate; try reflexivity; contradiction. Qed.
Lemma fle_iff x y : fle (Fin x) (Fin y) = true <-> x <= y.
Proof. unfold fle. rewrite orb_true_iff, flt_iff, feq_iff. lra. Qed.
Lemma fle_true x y : x <= y -> fle (Fin x) (Fin y) = true.
Proof. intros. apply fle_iff. exact H. Qed.
Lemma fle_false x y : y < x -> fle (Fin x) (Fin y) = false.
Proof. intros. destruct (fle (Fin x) (Fin y)) eqn:E; [apply fle_iff in E; lra|reflexivity]. Qed.
Lemma fin_inj x y : Fin x = Fin y -> x = y.
Proof. intros H; injection H; auto. Qed.
