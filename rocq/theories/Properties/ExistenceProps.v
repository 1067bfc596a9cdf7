(** C119: every admissible start has an evolution, and an evolution that stays among admissible states
    can be continued. *)
From Coq Require Import Reals List String Lra Lia.
From Coquelicot Require Import Coquelicot.
From Verif Require Import Base Model.Potentials Model.Equations Model.Background Model.Float Model.Solution Model.InitCond Spec.PotentialSpec Spec.BackgroundSpec
  Proofs.Unique Proofs.LipBox Proofs.Exist Proofs.BackgroundT Proofs.BackgroundN Proofs.BackgroundEx Proofs.FloatLemmas Properties.UniqueProps Properties.InitProps.
Import ListNotations.
Open Scope R_scope.

(** C119: every state with a smooth potential around its field value and H^2 > 0 has an evolution through it *)
Theorem C119_time : forall K U te phi0 dphi0 N0 eta0 t0 r,
  0 < r -> (forall x, Rabs (x - phi0) <= r -> smooth_pot U x) -> 0 < T_get_H2 N0 dphi0 (pV U phi0) K ->
  exists y a b, a < t0 < b /\ T_background K U te y a b /\ y t0 = ([phi0; dphi0; N0] ++ (if te then [eta0] else []))%list.
Proof.
  intros K U te phi0 dphi0 N0 eta0 t0 r Hr SM HP.
  assert (SMr : forall s, s <= r -> forall x, phi0 - s <= x <= phi0 + s -> smooth_pot U x) by (intros s Hs x Hx; apply SM, Rabs_le; lra).
  set (a := fun j => match j with 0%nat => phi0 | 1%nat => dphi0 | _ => N0 end).
  destruct (LB_near (phi0 - r) (phi0 + r) (dphi0 - r) (dphi0 + r) (N0 - r) (N0 + r) (Th2 K U) a) as (s & Hs & LO).
  - apply LB_Th2; [lra|apply (SMr r); lra].
  - intros x. reflexivity.
  - split; [|split]; cbn; lra.
  - exact HP.
  - set (r1 := Rmin r s). assert (R1 : 0 < r1 /\ r1 <= r /\ r1 <= s) by (unfold r1, Rmin; destruct (Rle_dec _ _); lra).
    destruct (T_exist_box K U te (phi0 - r1) (phi0 + r1) (dphi0 - r1) (dphi0 + r1) (N0 - r1) (N0 + r1) ltac:(lra) (SMr r1 ltac:(lra)) (Th2 K U a / 2) (r1 / 2)) as (d & Hd & EX); try lra.
    + unfold Th2, a. cbn [Nat.eqb]. cbv beta iota. lra.
    + intros x Hx. destruct Hx as (X0 & X1 & X2). apply LO; [split; [|split]; lra|].
      intros [|[|[|j] ] ] Hj; try lia; cbn [a]; apply Rabs_le; lra.
    + destruct (EX phi0 dphi0 N0 eta0 t0) as (y & B & E); try lra. exists y, (t0 - d), (t0 + d). split; [lra|]. split; assumption.
Qed.
Theorem C119_efolds : forall K U tm te phi0 v0 t0 eta0 n0 r,
  0 < r -> (forall x, Rabs (x - phi0) <= r -> smooth_pot U x) -> 0 < N_get_H2 n0 v0 (pV U phi0) K -> v0 ^ 2 <> 6 ->
  exists y a b, a < n0 < b /\ N_background K U tm te y a b /\ y n0 = ([phi0; v0] ++ (if tm then [t0] else []) ++ (if te then [eta0] else []))%list.
Proof.
  intros K U tm te phi0 v0 t0 eta0 n0 r Hr SM HP H6.
  assert (SMr : forall s, s <= r -> forall x, phi0 - s <= x <= phi0 + s -> smooth_pot U x) by (intros s Hs x Hx; apply SM, Rabs_le; lra).
  set (a := fun j => match j with 0%nat => phi0 | 1%nat => v0 | _ => n0 end).
  set (g := fun x : nat -> R => (6 - x 1%nat ^ 2) * (6 - v0 ^ 2)).
  assert (G0 : 0 < g a) by (unfold g; cbn [a]; assert (6 - v0 ^ 2 <> 0) by lra; pose proof (Rsqr_pos_lt _ H); unfold Rsqr in *; lra).
  destruct (LB_near (phi0 - r) (phi0 + r) (v0 - r) (v0 + r) (n0 - r) (n0 + r) g a) as (s & Hs & LO6).
  { unfold g. apply LB_mult; [|apply LB_const]. apply LB_minus; [apply LB_const|apply LB_p2]. }
  { intros x. reflexivity. }
  { split; [|split]; cbn; lra. }
  { exact G0. }
  set (r1 := Rmin r s). assert (R1 : 0 < r1 /\ r1 <= r /\ r1 <= s) by (unfold r1, Rmin; destruct (Rle_dec _ _); lra).
  set (w := Rabs (6 - v0 ^ 2)). assert (W0 : 0 < w) by (apply Rabs_pos_lt; lra).
  assert (V6 : forall v, v0 - r1 <= v <= v0 + r1 -> w / 2 <= Rabs (6 - v ^ 2)).
  { intros v Hv. pose proof (LO6 (fun j => match j with 0%nat => phi0 | 1%nat => v | _ => n0 end)) as Q.
    assert (X : g a / 2 <= (6 - v ^ 2) * (6 - v0 ^ 2)).
    { apply Q; [split; [|split]; cbn; lra|]. intros [|[|[|j] ] ] Hj; try lia; cbn [a]; apply Rabs_le; lra. }
    assert (GA : g a = w * w) by (unfold g, w; cbn [a]; rewrite <- Rabs_mult, Rabs_right; [ring|nra]).
    rewrite GA in X. apply Rmult_le_reg_r with w; [exact W0|]. unfold w at 3. rewrite <- Rabs_mult. pose proof (Rle_abs ((6 - v ^ 2) * (6 - v0 ^ 2))). lra. }
  destruct (LB_near (phi0 - r1) (phi0 + r1) (v0 - r1) (v0 + r1) (n0 - r1) (n0 + r1) (Nh2 K U) a) as (s2 & Hs2 & LO).
  - apply (LB_Nh2 K U (phi0 - r1) (phi0 + r1) (v0 - r1) (v0 + r1) (n0 - r1) (n0 + r1) ltac:(lra) (SMr r1 ltac:(lra)) (w / 2) ltac:(lra) V6).
  - intros x. reflexivity.
  - split; [|split]; cbn; lra.
  - exact HP.
  - set (r2 := Rmin r1 s2). assert (R2 : 0 < r2 /\ r2 <= r1 /\ r2 <= s2) by (unfold r2, Rmin; destruct (Rle_dec _ _); lra).
    destruct (N_exist_box K U tm te (phi0 - r2) (phi0 + r2) (v0 - r2) (v0 + r2) (n0 - r2) (n0 + r2) ltac:(lra) (SMr r2 ltac:(lra)) (w / 2) ltac:(lra) (fun v Hv => V6 v ltac:(lra)) (Nh2 K U a / 2) (r2 / 2)) as (d & Hd & EX); try lra.
    + unfold Nh2, a. cbv beta iota. lra.
    + intros x Hx. destruct Hx as (X0 & X1 & X2). apply LO; [split; [|split]; lra|].
      intros [|[|[|j] ] ] Hj; try lia; cbn [a]; apply Rabs_le; lra.
    + destruct (EX phi0 v0 t0 eta0 n0) as (y & B & E); try lra. exists y, (n0 - d), (n0 + d). split; [lra|]. split; assumption.
Qed.

(** ** gluing *)
Lemma loc_open (t c d : R) : c < t < d -> locally t (fun s => c < s < d).
Proof.
  intros H. assert (E : 0 < Rmin (t - c) (d - t)) by (apply Rmin_pos; lra). exists (mkposreal _ E). intros s Hs.
  change (Rabs (s - t) < Rmin (t - c) (d - t)) in Hs. pose proof (Rmin_l (t - c) (d - t)). pose proof (Rmin_r (t - c) (d - t)). apply Rabs_lt_between in Hs. lra.
Qed.
Lemma sol_local f n (w y : R -> list R) a b c d : is_solution f n y a b -> (forall t, c < t < d -> a < t < b -> w t = y t) ->
  forall t, c < t < d -> a < t < b -> List.length (w t) = n /\ forall i, (i < n)%nat -> is_derive (fun s => nth i (w s) 0) t (nth i (f t (w t)) 0).
Proof.
  intros S E t H1 H2. rewrite (E t H1 H2). destruct (S t H2) as [L D]. split; [exact L|]. intros i Hi.
  apply (is_derive_ext_loc (fun s => nth i (y s) 0)); [|apply D, Hi].
  generalize (filter_and _ _ (loc_open t c d H1) (loc_open t a b H2)). apply filter_imp. intros s [A B]. rewrite (E s A B). reflexivity.
Qed.
Definition glued (s : R) (y z : R -> list R) (t : R) : list R := if Rlt_dec t s then y t else z t.
Lemma T_glue K U te y z a b a' b' s : T_background K U te y a b -> T_background K U te z a' b' -> a <= a' -> a' < s < b -> s < b' -> y s = z s ->
  let w := glued s y z in T_background K U te w a b' /\ (forall t, a < t < b -> t < b' -> w t = y t) /\ (forall t, a' < t < b' -> t < b -> w t = z t).
Proof.
  intros By Bz L Hs Hb E w.
  assert (U0 : forall t, a < t < b -> a' < t < b' -> y t = z t) by (apply (C110_time K U te y z a b a' b' s); try assumption; lra).
  assert (W1 : forall t, a < t < b -> t < b' -> w t = y t) by (intros t H1 H2; unfold w, glued; destruct (Rlt_dec t s); [reflexivity|]; symmetry; apply U0; lra).
  assert (W2 : forall t, a' < t < b' -> t < b -> w t = z t) by (intros t H1 H2; rewrite W1 by lra; apply U0; lra).
  assert (W3 : forall t, s < t < b' -> w t = z t) by (intros t H1; unfold w, glued; destruct (Rlt_dec t s); [lra|reflexivity]).
  split; [|split; assumption]. split.
  - intros t Ht. destruct (Rlt_dec t b) as [Q|Q].
    + apply (sol_local _ _ w y a b a b' (proj1 By)); [intros; apply W1; lra|lra|lra].
    + apply (sol_local _ _ w z a' b' s b' (proj1 Bz)); [intros; apply W3; lra|lra|lra].
  - intros t Ht. unfold T_phi. destruct (Rlt_dec t b) as [Q|Q].
    + rewrite (W1 t) by lra. apply (proj2 By). lra.
    + rewrite (W3 t) by lra. apply (proj2 Bz). lra.
Qed.
Lemma N_glue K U tm te y z a b a' b' s : N_background K U tm te y a b -> N_background K U tm te z a' b' -> a <= a' -> a' < s < b -> s < b' -> y s = z s ->
  let w := glued s y z in N_background K U tm te w a b' /\ (forall t, a < t < b -> t < b' -> w t = y t) /\ (forall t, a' < t < b' -> t < b -> w t = z t).
Proof.
  intros By Bz L Hs Hb E w.
  assert (U0 : forall t, a < t < b -> a' < t < b' -> y t = z t) by (apply (C110_efolds K U tm te y z a b a' b' s); try assumption; lra).
  assert (W1 : forall t, a < t < b -> t < b' -> w t = y t) by (intros t H1 H2; unfold w, glued; destruct (Rlt_dec t s); [reflexivity|]; symmetry; apply U0; lra).
  assert (W2 : forall t, a' < t < b' -> t < b -> w t = z t) by (intros t H1 H2; rewrite W1 by lra; apply U0; lra).
  assert (W3 : forall t, s < t < b' -> w t = z t) by (intros t H1; unfold w, glued; destruct (Rlt_dec t s); [lra|reflexivity]).
  split; [|split; assumption]. split.
  - intros t Ht. destruct (Rlt_dec t b) as [Q|Q].
    + apply (sol_local _ _ w y a b a b' (proj1 By)); [intros; apply W1; lra|lra|lra].
    + apply (sol_local _ _ w z a' b' s b' (proj1 Bz)); [intros; apply W3; lra|lra|lra].
  - intros t Ht. unfold N_phi, N_dphi. destruct (Rlt_dec t b) as [Q|Q].
    + rewrite (W1 t) by lra. apply (proj2 By). lra.
    + rewrite (W3 t) by lra. apply (proj2 Bz). lra.
Qed.
Lemma T_state K U te y a b t : T_background K U te y a b -> a < t < b ->
  y t = ([T_phi te y t; T_dphi te y t; T_N te y t] ++ (if te then [T_eta te y t] else []))%list.
Proof.
  intros [S _] Ht. destruct (S t Ht) as [L _]. unfold T_phi, T_dphi, T_N, T_eta. destruct te; cbn in L; lenn L; reflexivity.
Qed.
Lemma N_state K U tm te y a b t : N_background K U tm te y a b -> a < t < b ->
  y t = ([N_phi tm te y t; N_dphi tm te y t] ++ (if tm then [N_t tm te y t] else []) ++ (if te then [N_eta tm te y t] else []))%list.
Proof.
  intros [S _] Ht. destruct (S t Ht) as [L _]. unfold N_phi, N_dphi, N_t, N_eta. destruct tm, te; cbn in L; lenn L; reflexivity.
Qed.

(** C119: an evolution whose state stays in a box of admissible states (smooth potential, H^2 bounded away from 0)
    does not stop: it can be continued past any time *)
Theorem C119_time_continues : forall K U te m M p q k l h r, 0 < h -> 0 < r ->
  (forall x, m <= x <= M -> smooth_pot U x) ->
  (forall phi dphi N, m <= phi <= M -> p <= dphi <= q -> k <= N <= l -> h <= T_get_H2 N dphi (pV U phi) K) ->
  exists d, 0 < d /\ forall y a b t0, T_background K U te y a b -> a < t0 < b ->
    (forall t, t0 <= t < b -> m + r <= T_phi te y t <= M - r /\ p + r <= T_dphi te y t <= q - r /\ k + r <= T_N te y t <= l - r) ->
    exists z, T_background K U te z a (b + d) /\ forall t, a < t < b -> z t = y t.
Proof.
  intros K U te m M p q k l h r Hh Hr SM LO.
  destruct (Rle_dec m M) as [LM|NM]; [|exists 1; split; [lra|]; intros y a b t0 _ H0 Q; destruct (Q t0 ltac:(lra)) as (A & _); lra].
  destruct (Rle_dec p q) as [LP|NP]; [|exists 1; split; [lra|]; intros y a b t0 _ H0 Q; destruct (Q t0 ltac:(lra)) as (_ & A & _); lra].
  destruct (Rle_dec k l) as [LK|NK]; [|exists 1; split; [lra|]; intros y a b t0 _ H0 Q; destruct (Q t0 ltac:(lra)) as (_ & _ & A); lra].
  destruct (T_exist_box K U te m M p q k l LM SM h r LP LK Hh) as (d & Hd & EX); [intros x (X0 & X1 & X2); apply LO; assumption|exact Hr|].
  exists (d / 2). split; [lra|]. intros y a b t0 By H0 Q.
  set (s := Rmax t0 (b - d / 2)). assert (S0 : t0 <= s < b /\ b - d / 2 <= s) by (unfold s, Rmax; destruct (Rle_dec _ _); lra).
  destruct (Q s ltac:(lra)) as (A0 & A1 & A2).
  destruct (EX (T_phi te y s) (T_dphi te y s) (T_N te y s) (T_eta te y s) s A0 A1 A2) as (z & Bz & Ez).
  rewrite <- (T_state K U te y a b s By ltac:(lra)) in Ez.
  set (a' := Rmax a (s - d)). assert (A' : a <= a' /\ s - d <= a' /\ a' < s) by (unfold a', Rmax; destruct (Rle_dec _ _); lra).
  assert (Bz' : T_background K U te z a' (b + d / 2)) by (apply (T_restrict K U te z (s - d) (s + d)); [exact Bz|lra|lra]).
  destruct (T_glue K U te y z a b a' (b + d / 2) s By Bz' ltac:(lra) ltac:(lra) ltac:(lra) (eq_sym Ez)) as (Bw & W1 & _).
  exists (glued s y z). split; [exact Bw|]. intros t Ht. apply W1; lra.
Qed.
Theorem C119_efolds_continues : forall K U tm te m M p q k l h c r, 0 < h -> 0 < c -> 0 < r ->
  (forall x, m <= x <= M -> smooth_pot U x) -> (forall v, p <= v <= q -> c <= Rabs (6 - v ^ 2)) ->
  (forall phi v n, m <= phi <= M -> p <= v <= q -> k <= n <= l -> h <= N_get_H2 n v (pV U phi) K) ->
  exists d, 0 < d /\ forall y a b n0, N_background K U tm te y a b -> a < n0 < b -> k + r <= n0 -> b <= l - r ->
    (forall n, n0 <= n < b -> m + r <= N_phi tm te y n <= M - r /\ p + r <= N_dphi tm te y n <= q - r) ->
    exists z, N_background K U tm te z a (b + d) /\ forall n, a < n < b -> z n = y n.
Proof.
  intros K U tm te m M p q k l h c r Hh Hc Hr SM V6 LO.
  destruct (Rle_dec m M) as [LM|NM]; [|exists 1; split; [lra|]; intros y a b n0 _ H0 _ _ Q; destruct (Q n0 ltac:(lra)) as (A & _); lra].
  destruct (Rle_dec p q) as [LP|NP]; [|exists 1; split; [lra|]; intros y a b n0 _ H0 _ _ Q; destruct (Q n0 ltac:(lra)) as (_ & A); lra].
  destruct (Rle_dec k l) as [LK|NK]; [|exists 1; split; [lra|]; intros y a b n0 _ H0 A B; lra].
  destruct (N_exist_box K U tm te m M p q k l LM SM c Hc V6 h r LP LK Hh) as (d & Hd & EX); [intros x (X0 & X1 & X2); apply LO; assumption|exact Hr|].
  exists (d / 2). split; [lra|]. intros y a b n0 By H0 Hk Hl Q.
  set (s := Rmax n0 (b - d / 2)). assert (S0 : n0 <= s < b /\ b - d / 2 <= s) by (unfold s, Rmax; destruct (Rle_dec _ _); lra).
  destruct (Q s ltac:(lra)) as (A0 & A1).
  destruct (EX (N_phi tm te y s) (N_dphi tm te y s) (N_t tm te y s) (N_eta tm te y s) s A0 A1 ltac:(lra)) as (z & Bz & Ez).
  rewrite <- (N_state K U tm te y a b s By ltac:(lra)) in Ez.
  set (a' := Rmax a (s - d)). assert (A' : a <= a' /\ s - d <= a' /\ a' < s) by (unfold a', Rmax; destruct (Rle_dec _ _); lra).
  assert (Bz' : N_background K U tm te z a' (b + d / 2)) by (apply (N_restrict K U tm te z (s - d) (s + d)); [exact Bz|lra|lra]).
  destruct (N_glue K U tm te y z a b a' (b + d / 2) s By Bz' ltac:(lra) ltac:(lra) ltac:(lra) (eq_sym Ez)) as (Bw & W1 & _).
  exists (glued s y z). split; [exact Bw|]. intros t Ht. apply W1; lra.
Qed.

(** the same for any state vector a user or an initial-conditions object hands to the solver *)
Theorem C119_time_state : forall K U te t0 y1 r, List.length y1 = List.length (T_idx te) ->
  0 < r -> (forall x, Rabs (x - var (T_idx te) "phi" y1) <= r -> smooth_pot U x) -> 0 < T_H2 K U te t0 y1 ->
  exists y a b, a < t0 < b /\ T_background K U te y a b /\ y t0 = y1.
Proof.
  intros K U te t0 y1 r L Hr SM HP. destruct te; cbn in L.
  - destruct (len4 y1 L) as (u & v & n & e & ->). destruct (C119_time K U true u v n e t0 r Hr SM HP) as (y & a & b & Q). exists y, a, b. exact Q.
  - destruct (len3 y1 L) as (u & v & n & ->). destruct (C119_time K U false u v n 0 t0 r Hr SM HP) as (y & a & b & Q). exists y, a, b. exact Q.
Qed.
Theorem C119_efolds_state : forall K U tm te n0 y1 r, List.length y1 = List.length (N_idx tm te) ->
  0 < r -> (forall x, Rabs (x - var (N_idx tm te) "phi" y1) <= r -> smooth_pot U x) -> 0 < N_H2 K U tm te n0 y1 -> var (N_idx tm te) "dphidN" y1 ^ 2 <> 6 ->
  exists y a b, a < n0 < b /\ N_background K U tm te y a b /\ y n0 = y1.
Proof.
  intros K U tm te n0 y1 r L Hr SM HP H6. destruct tm, te; cbn in L.
  - destruct (len4 y1 L) as (u & v & t & e & ->). destruct (C119_efolds K U true true u v t e n0 r Hr SM HP H6) as (y & a & b & Q). exists y, a, b. exact Q.
  - destruct (len3 y1 L) as (u & v & t & ->). destruct (C119_efolds K U true false u v t 0 n0 r Hr SM HP H6) as (y & a & b & Q). exists y, a, b. exact Q.
  - destruct (len3 y1 L) as (u & v & e & ->). destruct (C119_efolds K U false true u v 0 e n0 r Hr SM HP H6) as (y & a & b & Q). exists y, a, b. exact Q.
  - destruct (len2 y1 L) as (u & v & ->). destruct (C119_efolds K U false false u v 0 0 n0 r Hr SM HP H6) as (y & a & b & Q). exists y, a, b. exact Q.
Qed.

(** what the two initial-conditions classes write in cosmic time always has an evolution, in any geometry they accept *)
Lemma wrote_T {K U te} {d n : fl} {phi : R} {eta : option R} {y0 : list fl} {y1 : list R} : List.length y0 = List.length (T_idx te) ->
  (do y <- assign (T_idx te) "dphidt" d y0; do y <- assign (T_idx te) "_N" n y; do y <- assign (T_idx te) "phi" (Fin phi) y;
   if te then assign_opt (T_idx te) "eta" eta y else Ok y) = Ok (map Fin y1) ->
  List.length y1 = List.length (T_idx te) /\ var (T_idx te) "phi" y1 = phi /\ d = Fin (var (T_idx te) "dphidt" y1) /\ n = Fin (var (T_idx te) "_N" y1) /\
  forall t, T_H2 K U te t y1 = T_get_H2 (var (T_idx te) "_N" y1) (var (T_idx te) "dphidt" y1) (pV U phi) K.
Proof.
  intros L C. destruct te; cbn in L; lenn L; [destruct eta|]; cbn in C; try discriminate; injection C as C.
  - destruct y1 as [|a1 [|a2 [|a3 [|a4 [|] ] ] ] ]; try discriminate. injection C as C1 C2 C3 C4. subst. repeat split.
  - destruct y1 as [|a1 [|a2 [|a3 [|] ] ] ]; try discriminate. injection C as C1 C2 C3. subst. repeat split.
Qed.
Theorem C119_slow_roll_start : forall K U te phi t0 eta xe n ic y0 y1 r,
  0 < pV U phi -> 0 < pV U phi / 3 * exp (2 * n) - K -> 0 < r -> (forall x, Rabs (x - phi) <= r -> smooth_pot U x) ->
  sr_init (IT K U te) phi (Some t0) eta xe (kw_of (InN n)) = Ok ic -> List.length y0 = List.length (T_idx te) -> sr_call ic y0 = Ok (map Fin y1) ->
  exists y a b, a < t0 < b /\ T_background K U te y a b /\ y t0 = y1.
Proof.
  intros K U te phi t0 eta xe n ic y0 y1 r HV HP Hr SM SI L C.
  rewrite (sr_from_N (IT K U te) phi (Some t0) eta xe n HP) in SI. injection SI as <-.
  unfold sr_call, sr_obj in C. cbn [ic_eqs ic_dphi ic_N ic_phi ic_eta ie_te ie_idx ie_U ie_K attr_of bind] in C.
  assert (BA : forall {A B D} (x : res A) (f : A -> res B) (g : B -> res D), bind (bind x f) g = bind x (fun u => bind (f u) g)) by (intros A B D [u|u] f g; reflexivity).
  rewrite BA in C. destruct (wrote_T (K := K) (U := U) L C) as (L1 & E1 & E2 & E3 & E4). injection E3 as E3.
  apply (C119_time_state K U te t0 y1 r L1 Hr); [rewrite E1; exact SM|]. rewrite E4, <- E3. unfold T_get_H2.
  pose proof (pow2_ge_0 (var (T_idx te) "dphidt" y1)) as Q. pose proof (exp_pos (-2 * n)) as EP.
  assert (X : 0 < (pV U phi / 3 * exp (2 * n) - K) * exp (-2 * n)) by (apply Rmult_lt_0_compat; assumption).
  replace ((pV U phi / 3 * exp (2 * n) - K) * exp (-2 * n)) with (pV U phi / 3 * (exp (2 * n) * exp (-2 * n)) - K * exp (-2 * n)) in X by ring.
  rewrite <- exp_plus in X. replace (2 * n + -2 * n) with 0 in X by ring. rewrite exp_0 in X. lra.
Qed.
Theorem C119_inflation_start : forall K U te phi t0 eta xe n ic ic' y0 y1 r,
  0 < pV U phi -> 0 < pV U phi / 2 * exp (2 * n) - K -> 0 < r -> (forall x, Rabs (x - phi) <= r -> smooth_pot U x) ->
  is_init (IT K U te) phi (Some t0) eta xe (kw_of (InN n)) = Ok ic -> List.length y0 = List.length (T_idx te) -> is_call ic y0 = Ok (ic', map Fin y1) ->
  exists y a b, a < t0 < b /\ T_background K U te y a b /\ y t0 = y1 /\ T_inflating U te t0 y1 = 0.
Proof.
  intros K U te phi t0 eta xe n ic ic' y0 y1 r HV HP Hr SM SI L C.
  assert (N1 : ic_N ic = Fin n /\ ic_V ic = pV U phi /\ ic_phi ic = phi /\ ic_eqs ic = IT K U te /\ ic_eta ic = eta).
  { unfold is_init in SI. cbn [kw_of kw_N kw_O ie_U ie_K] in SI. rewrite fdiv_fin in SI by lra. cbn [fexp fmul fsub] in SI. rewrite flt_false in SI by lra. cbn [bind] in SI. injection SI as <-. repeat split. }
  destruct N1 as (N1 & N2 & N3 & N4 & N5). unfold is_call in C. rewrite N1, N2, N3, N4, N5 in C. cbn [ie_te ie_idx] in C.
  rewrite fsqrt_fin in C by lra. cbn [fneg] in C.
  assert (C' : (do y <- assign (T_idx te) "dphidt" (Fin (- sqrt (pV U phi))) y0; do y <- assign (T_idx te) "_N" (Fin n) y; do y <- assign (T_idx te) "phi" (Fin phi) y;
      if te then assign_opt (T_idx te) "eta" eta y else Ok y) = Ok (map Fin y1)).
  { destruct (assign (T_idx te) "dphidt" (Fin (- sqrt (pV U phi))) y0) as [l|]; cbn [bind] in *; [|discriminate].
    destruct (assign (T_idx te) "_N" (Fin n) l) as [l0|]; cbn [bind fst snd] in *; [|discriminate].
    destruct (assign (T_idx te) "phi" (Fin phi) l0) as [l1|]; cbn [bind] in *; [|discriminate].
    destruct (if te then assign_opt (T_idx te) "eta" eta l1 else Ok l1); cbn [bind] in *; [|discriminate]. injection C as _ C. rewrite C. reflexivity. }
  destruct (wrote_T (K := K) (U := U) L C') as (L1 & E1 & E2 & E3 & E4). injection E3 as E3. injection E2 as E2.
  assert (S2 : sqrt (pV U phi) ^ 2 = pV U phi) by (apply pow2_sqrt; lra).
  assert (D2 : var (T_idx te) "dphidt" y1 ^ 2 = pV U phi) by (rewrite <- E2; replace ((- sqrt (pV U phi)) ^ 2) with (sqrt (pV U phi) ^ 2) by ring; exact S2).
  destruct (C119_time_state K U te t0 y1 r L1 Hr) as (y & a & b & I & B & E); [rewrite E1; exact SM| |].
  - rewrite E4, <- E3. unfold T_get_H2. rewrite D2. pose proof (exp_pos (-2 * n)) as EP.
    assert (X : 0 < (pV U phi / 2 * exp (2 * n) - K) * exp (-2 * n)) by (apply Rmult_lt_0_compat; assumption).
    replace ((pV U phi / 2 * exp (2 * n) - K) * exp (-2 * n)) with (pV U phi / 2 * (exp (2 * n) * exp (-2 * n)) - K * exp (-2 * n)) in X by ring.
    rewrite <- exp_plus in X. replace (2 * n + -2 * n) with 0 in X by ring. rewrite exp_0 in X. lra.
  - exists y, a, b. split; [exact I|]. split; [exact B|]. split; [exact E|]. unfold T_inflating. rewrite E1, D2. ring.
Qed.
