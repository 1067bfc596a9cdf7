(** Existence for ordinary differential equations x_i' = F_i(x) with F bounded and Lipschitz
    (Picard iteration). A state is a function nat -> R; only the entries F reads matter. *)
From Coq Require Import Reals Lra Lia.
From Coquelicot Require Import Coquelicot.
Open Scope R_scope.

Lemma lip_cont (f : R -> R) C x : (forall s t, Rabs (f s - f t) <= C * Rabs (s - t)) -> continuous f x.
Proof.
  intros Hf. apply continuity_pt_filterlim. intros e He. exists (e / (Rabs C + 1)). pose proof (Rabs_pos C) as CP.
  split; [apply Rdiv_lt_0_compat; lra|]. intros s [_ Hs]. simpl in *. unfold R_dist in *.
  eapply Rle_lt_trans; [apply Hf|]. pose proof (Rle_abs C). pose proof (Rabs_pos (s - x)).
  apply Rle_lt_trans with ((Rabs C + 1) * Rabs (s - x)); [apply Rmult_le_compat_r; lra|].
  apply (Rmult_lt_compat_l (Rabs C + 1)) in Hs; [|lra]. replace ((Rabs C + 1) * (e / (Rabs C + 1))) with e in Hs by (field; lra). exact Hs.
Qed.
Lemma ex_RInt_all (f : R -> R) a b : (forall x, continuous f x) -> ex_RInt f a b.
Proof. intros C. apply (ex_RInt_continuous (V := R_CompleteNormedModule)). intros z _. apply C. Qed.
Lemma RInt_bound (f : R -> R) a b M : (forall x, continuous f x) -> (forall x, Rmin a b <= x <= Rmax a b -> Rabs (f x) <= M) -> Rabs (RInt f a b) <= M * Rabs (b - a).
Proof.
  intros C B. destruct (Rle_dec a b) as [L|L].
  - rewrite (Rabs_right (b - a)) by lra. rewrite Rmult_comm. apply abs_RInt_le_const; [exact L|apply ex_RInt_all, C|].
    intros x Hx. apply B. rewrite Rmin_left, Rmax_right by lra. exact Hx.
  - rewrite <- (opp_RInt_swap (V := R_CompleteNormedModule)) by (apply ex_RInt_all, C). unfold opp; simpl. rewrite Rabs_Ropp.
    rewrite (Rabs_left (b - a)) by lra. replace (- (b - a)) with (a - b) by ring. rewrite Rmult_comm.
    apply abs_RInt_le_const; [lra|apply ex_RInt_all, C|]. intros x Hx. apply B. rewrite Rmin_right, Rmax_left by lra. exact Hx.
Qed.
Lemma RInt_diff (f : R -> R) a s t : (forall x, continuous f x) -> RInt f a s - RInt f a t = RInt f t s.
Proof.
  intros C. assert (E := RInt_Chasles f a t s (ex_RInt_all f a t C) (ex_RInt_all f t s C)). unfold plus in E; simpl in E. lra.
Qed.

Section Picard.
Variables (F : nat -> (nat -> R) -> R) (M : R) (a : nat -> R) (t0 d : R).
Hypothesis M0 : 0 <= M.
Hypothesis FB : forall i x, Rabs (F i x) <= M.
Hypothesis FLip : forall i x x' r, (forall j, Rabs (x j - x' j) <= r) -> Rabs (F i x - F i x') <= M * r.
Hypothesis D0 : 0 < d.
Hypothesis D1 : M * d <= / 2.

Fixpoint it (n : nat) (i : nat) (t : R) : R :=
  match n with O => a i | Datatypes.S n => a i + RInt (fun s => F i (fun j => it n j s)) t0 t end.

Lemma it_lip n : forall i s t, Rabs (it n i s - it n i t) <= M * Rabs (s - t).
Proof.
  induction n as [|n IH]; intros i s t; cbn [it].
  - rewrite Rminus_diag_eq, Rabs_R0 by reflexivity. apply Rmult_le_pos; [exact M0|apply Rabs_pos].
  - assert (C : forall x, continuous (fun s => F i (fun j => it n j s)) x).
    { intros x. apply (lip_cont _ (M * M)). intros u v. eapply Rle_trans; [apply FLip; intros j; apply IH|]. lra. }
    replace (a i + RInt (fun s0 => F i (fun j => it n j s0)) t0 s - (a i + RInt (fun s0 => F i (fun j => it n j s0)) t0 t))
      with (RInt (fun s0 => F i (fun j => it n j s0)) t0 s - RInt (fun s0 => F i (fun j => it n j s0)) t0 t) by ring.
    rewrite RInt_diff by exact C. apply RInt_bound; [exact C|]. intros x _. apply FB.
Qed.
Lemma itF_cont n i x : continuous (fun s => F i (fun j => it n j s)) x.
Proof. apply (lip_cont _ (M * M)). intros u v. eapply Rle_trans; [apply FLip; intros j; apply it_lip|]. lra. Qed.

Lemma win s t : Rabs (t - t0) <= d -> Rmin t0 t <= s <= Rmax t0 t -> Rabs (s - t0) <= d.
Proof.
  intros H Hs. apply Rabs_le_between in H. apply Rabs_le. unfold Rmin, Rmax in Hs. destruct (Rle_dec t0 t); lra.
Qed.
Lemma it_step n : forall i t, Rabs (t - t0) <= d -> Rabs (it (Datatypes.S n) i t - it n i t) <= M * d * (/ 2) ^ n.
Proof.
  induction n as [|n IH]; intros i t Ht.
  - change (it 1 i t) with (a i + RInt (fun s => F i (fun j => it 0 j s)) t0 t). change (it 0 i t) with (a i).
    assert (B := RInt_bound (fun s => F i (fun j => it 0 j s)) t0 t M (itF_cont 0 i) (fun x _ => FB i _)).
    set (J := RInt (fun s => F i (fun j => it 0 j s)) t0 t) in *. assert (E : @eq R (a i + J - a i) J) by (clearbody J; change R in (type of J); ring). rewrite E.
    eapply Rle_trans; [exact B|]. cbn [pow]. rewrite Rmult_1_r. apply Rmult_le_compat_l; assumption.
  - change (it (Datatypes.S (Datatypes.S n)) i t) with (a i + RInt (fun s => F i (fun j => it (Datatypes.S n) j s)) t0 t).
    change (it (Datatypes.S n) i t) with (a i + RInt (fun s => F i (fun j => it n j s)) t0 t).
    set (f := fun s => F i (fun j => it (Datatypes.S n) j s)). set (g := fun s => F i (fun j => it n j s)).
    assert (Cf : forall x, continuous f x) by (intros; apply itF_cont). assert (Cg : forall x, continuous g x) by (intros; apply itF_cont).
    replace (a i + RInt f t0 t - (a i + RInt g t0 t)) with (RInt f t0 t - RInt g t0 t) by ring.
    assert (E : RInt f t0 t - RInt g t0 t = RInt (fun s => f s - g s) t0 t).
    { symmetry. exact (RInt_minus f g t0 t (ex_RInt_all f t0 t Cf) (ex_RInt_all g t0 t Cg)). }
    rewrite E. eapply Rle_trans; [apply (RInt_bound _ _ _ (M * (M * d * (/ 2) ^ n)))|].
    + intros x. apply (continuous_minus f g); [apply Cf|apply Cg].
    + intros x Hx. apply FLip. intros j. apply IH. exact (win x t Ht Hx).
    + pose proof (pow_le (/ 2) n ltac:(lra)) as P. cbn [pow].
      apply Rle_trans with (M * (M * d * (/ 2) ^ n) * d); [apply Rmult_le_compat_l; [|exact Ht]; repeat apply Rmult_le_pos; lra|].
      replace (M * (M * d * (/ 2) ^ n) * d) with ((M * d) * (M * d * (/ 2) ^ n)) by ring.
      replace (M * d * (/ 2 * (/ 2) ^ n)) with (/ 2 * (M * d * (/ 2) ^ n)) by ring.
      apply Rmult_le_compat_r; [|exact D1]. apply Rmult_le_pos; [apply Rmult_le_pos; lra|exact P].
Qed.
Lemma it_far n k i t : Rabs (t - t0) <= d -> Rabs (it (n + k) i t - it n i t) <= 2 * (M * d) * (/ 2) ^ n.
Proof.
  intros Ht. set (c := M * d * (/ 2) ^ n). assert (CP : 0 <= c) by (pose proof (pow_le (/ 2) n ltac:(lra)); unfold c; repeat apply Rmult_le_pos; lra).
  assert (X : Rabs (it (n + k) i t - it n i t) <= 2 * c * (1 - (/ 2) ^ k)).
  { induction k as [|k IH].
    - rewrite Nat.add_0_r, Rminus_diag_eq, Rabs_R0 by reflexivity. cbn [pow]. lra.
    - rewrite Nat.add_succ_r. replace (it (Datatypes.S (n + k)) i t - it n i t) with ((it (Datatypes.S (n + k)) i t - it (n + k) i t) + (it (n + k) i t - it n i t)) by ring.
      eapply Rle_trans; [apply Rabs_triang|]. pose proof (it_step (n + k) i t Ht) as S1. rewrite pow_add in S1. rewrite <- Rmult_assoc in S1. fold c in S1. cbn [pow]. lra. }
  pose proof (pow_le (/ 2) k ltac:(lra)). replace (2 * (M * d) * (/ 2) ^ n) with (2 * c) by (unfold c; ring). nra.
Qed.
Lemma half_small e : 0 < e -> exists n, (/ 2) ^ n < e.
Proof.
  intros He. destruct (pow_lt_1_zero (/ 2) ltac:(rewrite Rabs_right; lra) e He) as (n & Hn). exists n.
  specialize (Hn n (le_n _)). rewrite Rabs_right in Hn; [exact Hn|]. apply Rle_ge, pow_le. lra.
Qed.
Definition lim_it (i : nat) (t : R) : R := real (Lim_seq (fun n => it n i t)).
Lemma it_conv i t : Rabs (t - t0) <= d -> is_lim_seq (fun n => it n i t) (lim_it i t).
Proof.
  intros Ht. apply Lim_seq_correct'. apply ex_lim_seq_cauchy_corr. intros e.
  destruct (half_small (pos e / (4 * (M * d) + 1))) as (n & Hn).
  { apply Rdiv_lt_0_compat; [apply cond_pos|]. assert (0 <= M * d) by (apply Rmult_le_pos; lra). lra. }
  exists n. intros p q Hp Hq. assert (MD : 0 <= M * d) by (apply Rmult_le_pos; lra).
  replace p with (n + (p - n))%nat by lia. replace q with (n + (q - n))%nat by lia.
  pose proof (it_far n (p - n) i t Ht) as A. pose proof (it_far n (q - n) i t Ht) as B.
  replace (it (n + (p - n)) i t - it (n + (q - n)) i t) with ((it (n + (p - n)) i t - it n i t) - (it (n + (q - n)) i t - it n i t)) by ring.
  apply Rle_lt_trans with (4 * (M * d) * (/ 2) ^ n).
  - eapply Rle_trans; [apply Rabs_triang|]. rewrite Rabs_Ropp. lra.
  - apply (Rmult_lt_compat_l (4 * (M * d) + 1)) in Hn; [|lra]. replace ((4 * (M * d) + 1) * (pos e / (4 * (M * d) + 1))) with (pos e) in Hn by (field; lra).
    pose proof (pow_le (/ 2) n ltac:(lra)). lra.
Qed.
Lemma lim_close n i t : Rabs (t - t0) <= d -> Rabs (lim_it i t - it n i t) <= 2 * (M * d) * (/ 2) ^ n.
Proof.
  intros Ht. assert (L : is_lim_seq (fun k => Rabs (it (n + k) i t - it n i t)) (Rabs (lim_it i t - it n i t))).
  { apply (is_lim_seq_abs _ (Finite (lim_it i t - it n i t))). apply is_lim_seq_minus'; [|apply is_lim_seq_const].
    pose proof (it_conv i t Ht) as C. apply (is_lim_seq_incr_n _ n) in C. eapply is_lim_seq_ext; [|exact C]. intros k. rewrite Nat.add_comm. reflexivity. }
  pose proof (is_lim_seq_const (2 * (M * d) * (/ 2) ^ n)) as K.
  exact (is_lim_seq_le _ _ _ _ (fun k => it_far n k i t Ht) L K).
Qed.
(** time clamped to the window *)
Definition ck (t : R) : R := Rmax (t0 - d) (Rmin (t0 + d) t).
Lemma ck_in t : Rabs (ck t - t0) <= d.
Proof. apply Rabs_le. unfold ck, Rmax, Rmin. destruct (Rle_dec (t0 + d) t); destruct (Rle_dec _ _); lra. Qed.
Lemma ck_id t : Rabs (t - t0) <= d -> ck t = t.
Proof. intros H. apply Rabs_le_between in H. unfold ck. rewrite Rmin_right by lra. apply Rmax_right. lra. Qed.
Lemma ck_lip s t : Rabs (ck s - ck t) <= Rabs (s - t).
Proof.
  unfold ck, Rmax, Rmin. destruct (Rle_dec (t0 + d) s), (Rle_dec (t0 + d) t); repeat destruct (Rle_dec _ _); unfold Rabs; repeat destruct (Rcase_abs _); lra.
Qed.
Definition sol (i : nat) (t : R) : R := lim_it i (ck t).
Lemma sol_lip i s t : Rabs (sol i s - sol i t) <= M * Rabs (s - t).
Proof.
  unfold sol. assert (L : is_lim_seq (fun k => Rabs (it k i (ck s) - it k i (ck t))) (Rabs (lim_it i (ck s) - lim_it i (ck t)))).
  { apply (is_lim_seq_abs _ (Finite (lim_it i (ck s) - lim_it i (ck t)))). apply is_lim_seq_minus'; apply it_conv, ck_in. }
  pose proof (is_lim_seq_const (M * Rabs (s - t))) as K.
  assert (B : forall k, Rabs (it k i (ck s) - it k i (ck t)) <= M * Rabs (s - t)).
  { intros k. eapply Rle_trans; [apply it_lip|]. apply Rmult_le_compat_l; [exact M0|apply ck_lip]. }
  exact (is_lim_seq_le _ _ _ _ B L K).
Qed.
Lemma solF_cont i x : continuous (fun s => F i (fun j => sol j s)) x.
Proof. apply (lip_cont _ (M * M)). intros u v. eapply Rle_trans; [apply FLip; intros j; apply sol_lip|]. lra. Qed.
Lemma sol_int i t : Rabs (t - t0) <= d -> sol i t = a i + RInt (fun s => F i (fun j => sol j s)) t0 t.
Proof.
  intros Ht. set (f := fun s => F i (fun j => sol j s)). assert (MD : 0 <= M * d) by (apply Rmult_le_pos; lra).
  assert (X : forall n, Rabs (sol i t - (a i + RInt f t0 t)) <= 4 * (M * d) * (/ 2) ^ n).
  { intros n. pose proof (lim_close (Datatypes.S n) i t Ht) as A. cbn [it] in A. set (g := fun s => F i (fun j => it n j s)) in A.
    assert (Cf : forall x, continuous f x) by (intros; apply solF_cont). assert (Cg : forall x, continuous g x) by (intros; apply itF_cont).
    assert (B : Rabs (RInt g t0 t - RInt f t0 t) <= M * (2 * (M * d) * (/ 2) ^ n) * d).
    { assert (E : RInt g t0 t - RInt f t0 t = RInt (fun s => g s - f s) t0 t).
      { symmetry. exact (RInt_minus g f t0 t (ex_RInt_all g t0 t Cg) (ex_RInt_all f t0 t Cf)). }
      rewrite E. pose proof (pow_le (/ 2) n ltac:(lra)) as P.
      eapply Rle_trans; [apply (RInt_bound _ _ _ (M * (2 * (M * d) * (/ 2) ^ n)))|apply Rmult_le_compat_l; [|exact Ht]; repeat apply Rmult_le_pos; lra].
      - intros x. apply (continuous_minus g f); [apply Cg|apply Cf].
      - intros x Hx. apply FLip. intros j. rewrite Rabs_minus_sym. pose proof (win x t Ht Hx) as W. unfold sol. rewrite (ck_id x W). apply lim_close, W. }
    unfold sol. rewrite (ck_id t Ht).
    replace (lim_it i t - (a i + RInt f t0 t)) with ((lim_it i t - (a i + RInt g t0 t)) + (RInt g t0 t - RInt f t0 t)) by ring.
    eapply Rle_trans; [apply Rabs_triang|]. pose proof (pow_le (/ 2) n ltac:(lra)) as P. cbn [pow] in A.
    replace (M * (2 * (M * d) * (/ 2) ^ n) * d) with ((M * d) * (2 * (M * d) * (/ 2) ^ n)) in B by ring.
    assert ((M * d) * (2 * (M * d) * (/ 2) ^ n) <= / 2 * (2 * (M * d) * (/ 2) ^ n)) by (apply Rmult_le_compat_r; [repeat apply Rmult_le_pos; lra|exact D1]).
    assert (0 <= (M * d) * (/ 2) ^ n) by (apply Rmult_le_pos; assumption). lra. }
  destruct (Req_dec (sol i t) (a i + RInt f t0 t)) as [|N]; [assumption|]. exfalso.
  assert (P : 0 < Rabs (sol i t - (a i + RInt f t0 t))) by (apply Rabs_pos_lt; lra).
  destruct (half_small (Rabs (sol i t - (a i + RInt f t0 t)) / (4 * (M * d) + 1))) as (n & Hn); [apply Rdiv_lt_0_compat; lra|].
  specialize (X n). apply (Rmult_lt_compat_l (4 * (M * d) + 1)) in Hn; [|lra].
  replace ((4 * (M * d) + 1) * (Rabs (sol i t - (a i + RInt f t0 t)) / (4 * (M * d) + 1))) with (Rabs (sol i t - (a i + RInt f t0 t))) in Hn by (field; lra).
  pose proof (pow_le (/ 2) n ltac:(lra)). lra.
Qed.
Lemma sol_0 i : sol i t0 = a i.
Proof.
  rewrite sol_int by (rewrite Rminus_diag_eq, Rabs_R0 by reflexivity; lra). rewrite RInt_point. unfold zero; simpl. ring.
Qed.
Lemma sol_derive i t : Rabs (t - t0) < d -> is_derive (sol i) t (F i (fun j => sol j t)).
Proof.
  intros Ht. set (f := fun s => F i (fun j => sol j s)).
  apply (is_derive_ext_loc (fun s => a i + RInt f t0 s)).
  - assert (E : 0 < d - Rabs (t - t0)) by lra. exists (mkposreal _ E). intros s Hs. cbv [ball AbsRing_ball UniformSpace.ball R_UniformSpace AbsRing_UniformSpace abs minus plus opp] in Hs. simpl in Hs.
    symmetry. apply sol_int. replace (s - t0) with ((s + - t) + (t - t0)) by ring. eapply Rle_trans; [apply Rabs_triang|]. change (Rabs (s + - t) < d - Rabs (t - t0)) in Hs. lra.
  - replace (F i (fun j => sol j t)) with (0 + f t) by (unfold f; ring).
    apply (@is_derive_plus R_AbsRing R_NormedModule); [apply @is_derive_const|].
    apply (is_derive_RInt f (RInt f t0) t0 t); [|apply solF_cont].
    apply filter_forall. intros s. apply (RInt_correct (V := R_CompleteNormedModule)). apply ex_RInt_all. intros x. apply solF_cont.
Qed.
End Picard.
