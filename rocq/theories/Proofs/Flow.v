From Coq Require Import Reals List String Lra Lia.
From Coquelicot Require Import Coquelicot.
From Verif Require Import Base Model.Background Spec.FlowSpec Proofs.BackgroundT.
Open Scope R_scope.

Lemma in_loc a b (t : R) : a < t < b -> locally t (fun s => a < s < b).
Proof.
  intros Ht. apply (locally_interval _ t a b); simpl; try lra. intros; split; assumption.
Qed.
Lemma ext_in (f g : R -> R) a b t l : a < t < b -> (forall s, a < s < b -> f s = g s) -> is_derive f t l -> is_derive g t l.
Proof. intros Ht E. apply is_derive_ext_loc. apply (filter_imp _ _ E), in_loc, Ht. Qed.
Lemma uniq_in (f g : R -> R) a b t l m : a < t < b -> (forall s, a < s < b -> f s = g s) -> is_derive f t l -> is_derive g t m -> l = m.
Proof.
  intros Ht E D1 D2. apply (ext_in f g a b t l Ht E) in D1.
  apply is_derive_unique in D1. apply is_derive_unique in D2. congruence.
Qed.

Ltac nz := simpl; rewrite ?Rmult_1_r; repeat apply Rmult_integral_contrapositive_currified; lra.
Section T.
Variables (H H1 H2 H3 : R -> R) (a b : R).
Hypothesis C : chain3 H H1 H2 H3 a b.
Hypothesis P : forall t, a < t < b -> 0 < H t.
Ltac go t Ht := destruct (C t Ht) as [D0 [D1 D2]]; pose proof (P t Ht).
Ltac fin := evar_last; [auto_derive; [repeat split; try exd; try nz|reflexivity]|]; undd; toR; simpl; field; repeat split; try lra.
Lemma T_e1 t : a < t < b -> is_derive (fun s => ln (H s)) t (- T_get_epsilon_1H (H t) (H1 t) * H t).
Proof. intros Ht. go t Ht. unfold T_get_epsilon_1H. fin. Qed.
Lemma T_e2 t : a < t < b -> H1 t <> 0 ->
  is_derive (fun s => T_get_epsilon_1H (H s) (H1 s)) t
    (T_get_epsilon_1H (H t) (H1 t) * T_get_epsilon_2H Standard (H t) (H1 t) (H2 t) * H t).
Proof. intros Ht N1. go t Ht. unfold T_get_epsilon_1H, T_get_epsilon_2H. fin. Qed.
Lemma T_e3 t : a < t < b -> H1 t <> 0 -> H t * H2 t - 2 * H1 t ^ 2 <> 0 ->
  is_derive (fun s => T_get_epsilon_2H Standard (H s) (H1 s) (H2 s)) t
    (T_get_epsilon_2H Standard (H t) (H1 t) (H2 t) * T_get_epsilon_3H Standard (H t) (H1 t) (H2 t) (H3 t) * H t).
Proof.
  intros Ht N1 N2. go t Ht. unfold T_get_epsilon_3H, T_get_epsilon_2H.
  evar_last; [auto_derive; [repeat split; try exd; try nra|reflexivity]|]; undd; toR; simpl; field; repeat split; try lra.
  all: try (intros E; apply N2; lra).
Qed.
Lemma T_e2G t : a < t < b ->
  is_derive (fun s => T_get_epsilon_1H (H s) (H1 s)) t (T_get_epsilon_2H Gong (H t) (H1 t) (H2 t) * H t).
Proof. intros Ht. go t Ht. unfold T_get_epsilon_1H, T_get_epsilon_2H. fin. Qed.
Lemma T_e3G t : a < t < b ->
  is_derive (fun s => T_get_epsilon_2H Gong (H s) (H1 s) (H2 s) * H s) t
            (T_get_epsilon_3H Gong (H t) (H1 t) (H2 t) (H3 t) * H t ^ 2).
Proof. intros Ht. go t Ht. unfold T_get_epsilon_3H, T_get_epsilon_2H. fin. Qed.
End T.

Section N.
Variables (H H1 H2 H3 : R -> R) (a b : R).
Hypothesis C : chain3 H H1 H2 H3 a b.
Hypothesis P : forall t, a < t < b -> 0 < H t.
Ltac go t Ht := destruct (C t Ht) as [D0 [D1 D2]]; pose proof (P t Ht).
Ltac fin := evar_last; [auto_derive; [repeat split; try exd; try nz|reflexivity]|]; undd; toR; simpl; field; repeat split; try lra.
Lemma N_e1 t : a < t < b -> is_derive (fun s => ln (H s)) t (- N_get_epsilon_1H (H t) (H1 t)).
Proof. intros Ht. go t Ht. unfold N_get_epsilon_1H. fin. Qed.
Lemma N_e2 t : a < t < b -> H1 t <> 0 ->
  is_derive (fun s => N_get_epsilon_1H (H s) (H1 s)) t
    (N_get_epsilon_1H (H t) (H1 t) * N_get_epsilon_2H Standard (H t) (H1 t) (H2 t)).
Proof. intros Ht N1. go t Ht. unfold N_get_epsilon_1H, N_get_epsilon_2H. fin. Qed.
Lemma N_e3_abs h h1 h2 h3 : h1 <> 0 -> h <> 0 -> h * h2 - h1 ^ 2 <> 0 -> N_get_epsilon_3H Standard h h1 h2 h3 =
  ((h^2*h2*h3 - h*h1^2*h3 + 2*h1^3*h2)*h*h1 - h^3*h2^3 - h1^6) / (h * (h*h2 - h1^2)^2 * h1).
Proof.
  intros. unfold N_get_epsilon_3H. replace (h^2*h2^2 - 2*h*h1^2*h2 + h1^4) with ((h*h2 - h1^2)^2) by ring.
  rewrite (Rabs_pos_eq ((h*h2 - h1^2)^2)) by (apply pow2_ge_0). reflexivity.
Qed.
Lemma N_e3 t : a < t < b -> H1 t <> 0 -> H t * H2 t - H1 t ^ 2 <> 0 ->
  is_derive (fun s => N_get_epsilon_2H Standard (H s) (H1 s) (H2 s)) t
    (N_get_epsilon_2H Standard (H t) (H1 t) (H2 t) * N_get_epsilon_3H Standard (H t) (H1 t) (H2 t) (H3 t)).
Proof.
  intros Ht N1 N2. go t Ht. rewrite N_e3_abs by lra. unfold N_get_epsilon_2H.
  evar_last; [auto_derive; [repeat split; try exd; try lra|reflexivity]|]; undd; toR; simpl; field; repeat split; try lra.
  all: try (intros E; apply N2; lra).
Qed.
Lemma N_e2G t : a < t < b ->
  is_derive (fun s => N_get_epsilon_1H (H s) (H1 s)) t (N_get_epsilon_2H Gong (H t) (H1 t) (H2 t)).
Proof. intros Ht. go t Ht. unfold N_get_epsilon_1H, N_get_epsilon_2H. fin. Qed.
Lemma N_e3G t : a < t < b ->
  is_derive (fun s => N_get_epsilon_2H Gong (H s) (H1 s) (H2 s) * H s) t
            (N_get_epsilon_3H Gong (H t) (H1 t) (H2 t) (H3 t) * H t).
Proof. intros Ht. go t Ht. unfold N_get_epsilon_3H, N_get_epsilon_2H. fin. Qed.
End N.

Section TN.
Variables (HT T1 T2 T3 : R -> R) (a b : R) (HN h1 h2 h3 : R -> R) (n0 n1 : R) (Nf : R -> R).
Hypothesis CT : chain3 HT T1 T2 T3 a b.
Hypothesis CN : chain3 HN h1 h2 h3 n0 n1.
Hypothesis S : same_history HT a b HN n0 n1 Nf.
Lemma TN_1 t : a < t < b -> T1 t = HN (Nf t) * h1 (Nf t).
Proof.
  intros Ht. destruct (S t Ht) as [P [Hn [DN E]]]. destruct (CT t Ht) as [D _]. destruct (CN _ Hn) as [E0 _].
  apply (uniq_in HT (fun s => HN (Nf s)) a b t); [exact Ht|intros s Hs; apply (S s Hs)|exact D|].
  evar_last; [auto_derive; [repeat split; try exd|reflexivity]|]. undd. rewrite E. toR. ring.
Qed.
Lemma TN_2 t : a < t < b -> let n := Nf t in T2 t = HN n * h1 n ^ 2 + HN n ^ 2 * h2 n.
Proof.
  intros Ht n. unfold n. destruct (S t Ht) as [P [Hn [DN E]]]. destruct (CT t Ht) as [_ [D _]]. destruct (CN _ Hn) as [E0 [E1 _]].
  apply (uniq_in T1 (fun s => HN (Nf s) * h1 (Nf s)) a b t); [exact Ht|intros s Hs; apply TN_1, Hs|exact D|].
  evar_last; [auto_derive; [repeat split; try exd|reflexivity]|]. undd. rewrite E. toR. ring.
Qed.
Lemma TN_3 t : a < t < b -> let n := Nf t in T3 t = HN n * h1 n ^ 3 + 4 * HN n ^ 2 * h1 n * h2 n + HN n ^ 3 * h3 n.
Proof.
  intros Ht n. unfold n. destruct (S t Ht) as [P [Hn [DN E]]]. destruct (CT t Ht) as [_ [_ D]]. destruct (CN _ Hn) as [E0 [E1 E2]].
  apply (uniq_in T2 (fun s => HN (Nf s) * h1 (Nf s) ^ 2 + HN (Nf s) ^ 2 * h2 (Nf s)) a b t); [exact Ht|intros s Hs; apply TN_2, Hs|exact D|].
  evar_last; [auto_derive; [repeat split; try exd|reflexivity]|]. undd. rewrite E. toR. simpl. ring.
Qed.
Lemma TN_eps t : a < t < b -> let n := Nf t in
  T_get_epsilon_1H (HT t) (T1 t) = N_get_epsilon_1H (HN n) (h1 n) /\
  T_get_epsilon_2H Gong (HT t) (T1 t) (T2 t) = N_get_epsilon_2H Gong (HN n) (h1 n) (h2 n) /\
  T_get_epsilon_3H Gong (HT t) (T1 t) (T2 t) (T3 t) = N_get_epsilon_3H Gong (HN n) (h1 n) (h2 n) (h3 n) /\
  (h1 n <> 0 -> T_get_epsilon_2H Standard (HT t) (T1 t) (T2 t) = N_get_epsilon_2H Standard (HN n) (h1 n) (h2 n)) /\
  (h1 n <> 0 -> HN n * h2 n - h1 n ^ 2 <> 0 ->
   T_get_epsilon_3H Standard (HT t) (T1 t) (T2 t) (T3 t) = N_get_epsilon_3H Standard (HN n) (h1 n) (h2 n) (h3 n)).
Proof.
  intros Ht n. pose proof (TN_1 t Ht) as E1. pose proof (TN_2 t Ht) as E2. pose proof (TN_3 t Ht) as E3. cbv zeta in E1, E2, E3.
  destruct (S t Ht) as [P [_ [_ E0]]]. fold n in E0, E1, E2, E3. rewrite E1, E2, E3. rewrite E0 in P |- *.
  set (h := HN n) in *. set (u := h1 n) in *. set (v := h2 n) in *. set (w := h3 n) in *. clearbody h u v w. clear - P.
  split; [unfold T_get_epsilon_1H, N_get_epsilon_1H; field; lra|].
  split; [unfold T_get_epsilon_2H, N_get_epsilon_2H; field; lra|].
  split; [unfold T_get_epsilon_3H, N_get_epsilon_3H; field; lra|].
  split; [intros; unfold T_get_epsilon_2H, N_get_epsilon_2H; field; lra|].
  intros U V. rewrite N_e3_abs by lra. unfold T_get_epsilon_3H. field. repeat split; try lra.
  all: intros C; apply V; try lra.
  all: assert (h ^ 2 * (h * v - u ^ 2) = 0) by (replace 0 with (0 * 0) by ring; lra).
  all: apply Rmult_integral in H; destruct H as [H|H]; [exfalso; apply Rmult_integral in H; simpl in H; lra|exact H].
Qed.

Variables (fT p1 p2 p3 p4 : R -> R) (fN q1 q2 q3 q4 : R -> R).
Hypothesis FT : chain4 fT p1 p2 p3 p4 a b.
Hypothesis FN : chain4 fN q1 q2 q3 q4 n0 n1.
Hypothesis SF : forall t, a < t < b -> fT t = fN (Nf t).
Lemma TN_p1 t : a < t < b -> p1 t = HN (Nf t) * q1 (Nf t).
Proof.
  intros Ht. destruct (S t Ht) as [P [Hn [DN E]]]. destruct FT as [F _]. destruct (F t Ht) as [D _]. destruct FN as [G _]. destruct (G _ Hn) as [E0 _].
  apply (uniq_in fT (fun s => fN (Nf s)) a b t); [exact Ht|exact SF|exact D|].
  evar_last; [auto_derive; [repeat split; try exd|reflexivity]|]. undd. rewrite E. toR. ring.
Qed.
Lemma TN_p2 t : a < t < b -> let n := Nf t in p2 t = HN n * h1 n * q1 n + HN n ^ 2 * q2 n.
Proof.
  intros Ht n. unfold n. destruct (S t Ht) as [P [Hn [DN E]]]. destruct FT as [F _]. destruct (F t Ht) as [_ [D _]]. destruct FN as [G _]. destruct (G _ Hn) as [G0 [G1 _]].
  destruct (CN _ Hn) as [E0 [E1 _]].
  apply (uniq_in p1 (fun s => HN (Nf s) * q1 (Nf s)) a b t); [exact Ht|intros s Hs; apply TN_p1, Hs|exact D|].
  evar_last; [auto_derive; [repeat split; try exd|reflexivity]|]. undd. rewrite E. toR. simpl. ring.
Qed.
Lemma TN_p3 t : a < t < b -> let n := Nf t in
  p3 t = HN n * (h1 n ^ 2 + HN n * h2 n) * q1 n + 3 * HN n ^ 2 * h1 n * q2 n + HN n ^ 3 * q3 n.
Proof.
  intros Ht n. unfold n. destruct (S t Ht) as [P [Hn [DN E]]]. destruct FT as [F _]. destruct (F t Ht) as [_ [_ D]]. destruct FN as [G _]. destruct (G _ Hn) as [G0 [G1 G2]].
  destruct (CN _ Hn) as [E0 [E1 E2]].
  apply (uniq_in p2 (fun s => HN (Nf s) * h1 (Nf s) * q1 (Nf s) + HN (Nf s) ^ 2 * q2 (Nf s)) a b t); [exact Ht|intros s Hs; apply TN_p2, Hs|exact D|].
  evar_last; [auto_derive; [repeat split; try exd|reflexivity]|]. undd. rewrite E. toR. simpl. ring.
Qed.
Lemma TN_p4 t : a < t < b -> let n := Nf t in
  p4 t = HN n * (h1 n ^ 3 + 4 * HN n * h1 n * h2 n + HN n ^ 2 * h3 n) * q1 n
       + HN n ^ 2 * (7 * h1 n ^ 2 + 4 * HN n * h2 n) * q2 n + 6 * HN n ^ 3 * h1 n * q3 n + HN n ^ 4 * q4 n.
Proof.
  intros Ht n. unfold n. destruct (S t Ht) as [P [Hn [DN E]]]. destruct FT as [_ F]. pose proof (F t Ht) as D. destruct FN as [G G']. destruct (G _ Hn) as [G0 [G1 G2]]. specialize (G' _ Hn).
  destruct (CN _ Hn) as [E0 [E1 E2]].
  apply (uniq_in p3 (fun s => HN (Nf s) * (h1 (Nf s) ^ 2 + HN (Nf s) * h2 (Nf s)) * q1 (Nf s) + 3 * HN (Nf s) ^ 2 * h1 (Nf s) * q2 (Nf s) + HN (Nf s) ^ 3 * q3 (Nf s)) a b t); [exact Ht|intros s Hs; apply TN_p3, Hs|exact D|].
  evar_last; [auto_derive; [repeat split; try exd|reflexivity]|]. undd. rewrite E. toR. simpl. ring.
Qed.
Lemma TN_delta t : a < t < b -> p1 t <> 0 -> let n := Nf t in
  N_get_delta_1 (HN n) (h1 n) (q1 n) (q2 n) = p2 t / (HT t * p1 t) /\
  N_get_delta_2 (HN n) (h1 n) (h2 n) (q1 n) (q2 n) (q3 n) = p3 t / (HT t ^ 2 * p1 t) /\
  N_get_delta_3 (HN n) (h1 n) (h2 n) (h3 n) (q1 n) (q2 n) (q3 n) (q4 n) = p4 t / (HT t ^ 3 * p1 t).
Proof.
  intros Ht N0 n. pose proof (TN_p1 t Ht) as E1. pose proof (TN_p2 t Ht) as E2. pose proof (TN_p3 t Ht) as E3. pose proof (TN_p4 t Ht) as E4.
  cbv zeta in E1, E2, E3, E4. destruct (S t Ht) as [P [_ [_ E0]]]. fold n in E0, E1, E2, E3, E4. rewrite E1 in N0. rewrite E1, E2, E3, E4. rewrite E0 in P |- *.
  assert (Q : q1 n <> 0) by (intros C; apply N0; rewrite C; ring).
  unfold N_get_delta_1, N_get_delta_2, N_get_delta_3.
  repeat split; field; lra.
Qed.
End TN.
