(** C127: an integrator and a root finder that meet the hypotheses. *)
From Coq Require Import Reals List String Lra Lia Classical ZArith.
From Coquelicot Require Import Coquelicot.
From Verif Require Import Base Model.Potentials Model.SlowRoll Model.Equations Model.Background Model.Float Model.Solution Model.InitCond Model.Events
  Spec.PotentialSpec Spec.SlowRollSpec Spec.BackgroundSpec Spec.SolutionSpec Spec.ExactRun Proofs.PhiEnd Proofs.SRN Proofs.Bracket Proofs.BackgroundT Proofs.BackgroundN Proofs.BackgroundEx Proofs.FloatLemmas Proofs.Unique
  Proofs.SolLemmas Proofs.PostProc Proofs.SlowRollBound Proofs.Roll Proofs.RollEnd Proofs.FastRoll Proofs.StartCont Proofs.StartMono Proofs.ShootRun Properties.BackgroundProps Properties.InitProps Properties.UniqueProps Properties.BracketProps Properties.EndNonvacuity
  Properties.StartEndsProps Properties.StartEndsNonvacuity Properties.StartContProps Properties.ExactShootProps.
Import ListNotations.
Open Scope R_scope.
Open Scope string_scope.

(** the exact root finder: the supremum of the points of the bracket at which the function is negative *)
Definition sup_find : ieqs -> rootfinder := fun _ f br =>
  match br with
  | [lo; hi] => Ok (real (Lub_Rbar (fun s => lo <= s <= hi /\ exists v, f s = Ok (Fin v) /\ v < 0)))
  | _ => Raise ValueError
  end.
Lemma sup_find_ok tol : 0 <= tol -> brackets_to tol sup_find.
Proof.
  intros Ht q f lo hi x Hx NEG Z POS. cbn [sup_find].
  assert (E : Lub_Rbar (fun s => lo <= s <= hi /\ exists v, f s = Ok (Fin v) /\ v < 0) = x).
  { apply is_lub_Rbar_unique. split.
    - intros s (Hs & v & F & Hv). cbn. apply Rnot_lt_le. intros X. destruct (POS s ltac:(lra)) as (w & G & Hw). rewrite F in G. injection G as G. lra.
    - intros l UB. destruct l as [l| |]; cbn; [|exact I|].
      + apply Rnot_lt_le. intros X. set (s := Rmax lo ((l + x) / 2)). pose proof (Rmax_l lo ((l + x) / 2)) as Q1. pose proof (Rmax_r lo ((l + x) / 2)) as Q2.
        assert (Q3 : s < x) by (unfold s; apply Rmax_lub_lt; lra). fold s in Q1, Q2. assert (Y : Rbar_le s l) by (apply UB; split; [lra|apply NEG; lra]). cbn in Y. lra.
      + apply (UB lo). split; [lra|apply NEG; lra]. }
  rewrite E. cbn [real]. exists x. split; [reflexivity|]. split; [lra|]. rewrite Rminus_eq_0, Rabs_R0. exact Ht.
Qed.

(** the exact integrator for the shooting runs in a flat universe without tracked clocks, starting at N = 0 *)
Definition at_N (U : potfun) (y0 : list R) (n : R) (i : nat) : R :=
  real (Lub_Rbar (fun v => exists z a b, N_background 0 U false false z a b /\ a < 0 /\ 0 <= n < b /\ z 0 = y0 /\ v = nth i (z n) 0)).
Lemma at_N_ok U y0 y a b n i : N_background 0 U false false y a b -> a < 0 -> 0 <= n < b -> y 0 = y0 -> at_N U y0 n i = nth i (y n) 0.
Proof.
  intros B A1 A2 Ey. unfold at_N. rewrite (is_lub_Rbar_unique _ (nth i (y n) 0)); [reflexivity|]. split.
  - intros v (z & a' & b' & Bz & A1' & A2' & Ez & ->). cbn. right. f_equal. apply (C110_efolds 0 U false false z y a' b' a b 0 Bz B); try lra. congruence.
  - intros l UB. apply UB. exists y, a, b. split; [exact B|]. split; [exact A1|]. split; [exact A2|]. split; [exact Ey|reflexivity].
Qed.
Definition exact_ivp (P : pot) (L : R) : integrator := fun _ _ _ y0 events =>
  let until := match events with [_; _; UntilN u; _] => u | _ => 0 end in
  let state n := [at_N (potfun_of P L) y0 n 0; at_N (potfun_of P L) y0 n 1] in
  let M := dur P L (nth 0 y0 0) in
  if Rlt_dec M until
  then (mkraw [0; M] [state 0; state M] [[]; [M]; []; []] [[]; [state M]; []; []], false)
  else (mkraw [0; until] [state 0; state until] [[]; []; [until]; []] [[]; []; [state until]; []], false).

Section Exact.
Variables (P : pot) (L e : R).
Let U := potfun_of P L.
Hypotheses (HF : featureless P) (HV : valid P) (HL : L <> 0) (HD : dw_ge1 P).
Hypotheses (Be : branch P e) (Ee : eps1V P e = 1) (Ne : Nfun P e e = 0).
Lemma exact_ivp_ok W x_end phi : branch P phi -> e < phi -> 0 < W -> W + 10 < x_end -> exact_from (exact_ivp P L) U false false None None x_end 0 W phi.
Proof.
  intros HB LE W0 XE ic ic' y1 SI SC. destruct (branch_pos P L phi HF HV HL HB) as [V0 V1].
  destruct (is_start_N U false false phi None None x_end 0 ic (repeat (Fin 0) (List.length (N_idx false false))) ic' y1 V0 SI eq_refl SC) as (E1 & E2 & L1).
  assert (EY : y1 = [phi; - sqrt 2]).
  { destruct y1 as [|u [|w [|? ?] ] ]; try discriminate L1. cbv in E1. unfold var in E1, E2. change (pos_of (N_idx false false) "phi") with 0%nat in E1. change (pos_of (N_idx false false) "dphidN") with 1%nat in E2. cbn [nth] in E1, E2. congruence. }
  subst y1. clear E1 E2 L1 SC SI. destruct (lasts_ex P L e 0 HF HV HL HD Be Ee phi Ne HB LE) as (M & DM).
  pose proof (dur_ok P L 0 phi M DM) as ED. destruct DM as (M0 & y & a & b & B & A1 & A2 & Ey & I1 & Z). rewrite !Rplus_0_l in *. change (potfun_of P L) with U in B, I1, Z.
  unfold exact_ivp. cbn [nth shoot_events]. rewrite ED. change (potfun_of P L) with U.
  assert (ST : forall n, 0 <= n <= M -> [at_N U [phi; - sqrt 2] n 0; at_N U [phi; - sqrt 2] n 1] = y n).
  { intros n Hn. rewrite (at_N_ok U _ y a b n 0 B A1) by (try lra; exact Ey). rewrite (at_N_ok U _ y a b n 1 B A1) by (try lra; exact Ey).
    rewrite (N_pair U y a b n B) by lra. reflexivity. }
  set (T := Rmin M (W + 10)). assert (HT : 0 < T <= x_end /\ T <= M /\ T <= W + 10) by (unfold T; pose proof (Rmin_l M (W + 10)); pose proof (Rmin_r M (W + 10)); pose proof (Rmin_glb_lt M (W + 10) 0); lra).
  assert (NI : forall t, 0 < t < T -> ~ passes 1 (fun s => N_inflating 0 U false false s (y s) - 0) t /\ ~ passes (-1) (fun s => N_inflating 0 U false false s (y s) - 0) t).
  { intros t Ht. pose proof (I1 t ltac:(lra)) as X. split; intros [ (_ & Q & _) | (_ & Q & _) ]; lra. }
  assert (NC : forall t, 0 <= t <= T -> N_H2 0 U false false t (y t) - 0 <> 0) by (intros t Ht; destruct (proj2 B t ltac:(lra)) as (Q & _); lra).
  destruct (Rlt_dec M (W + 10)) as [C|C].
  - assert (ET : T = M) by (unfold T; rewrite Rmin_left; lra). rewrite ET in *. cbn [fst]. rewrite !ST by lra.
    exists y, a, b, M. split; [exact B|]. split; [lra|]. split; [lra|]. split; [exact Ey|]. split; [lra|]. split; [reflexivity|]. split; [reflexivity|]. split; [reflexivity|]. split; [reflexivity|]. split; [reflexivity|]. split.
    + intros [|[|[|[|[|i] ] ] ] ] ev ts N1 N2; cbn in N1, N2; try discriminate; injection N1 as <-; injection N2 as <-; cbn [event_call event_terminal event_direction]; cbn [e_inflating e_N e_H2 N_eqs].
      * split; [constructor|]. split; [intros t []|]. intros t Ht Q. destruct (NI t Ht) as (X & _). exact (X Q).
      * split; [constructor; [intros []|constructor]|]. split; [intros t [<-|[] ]; split; [lra|]; split; [rewrite Z; ring|reflexivity]|]. intros t Ht Q. destruct (NI t Ht) as (_ & X). destruct (X Q).
      * split; [constructor|]. split; [intros t []|]. intros t Ht [ (_ & Q & _) | (_ & Q & _) ]; exfalso; lra.
      * split; [constructor|]. split; [intros t []|]. intros t Ht [ (_ & Q & _) | (_ & Q & _) ]; exfalso; apply (NC t ltac:(lra)); lra.
    + right. exists 1%nat, (Inflation (-1) true 0 None), [M]. split; [reflexivity|]. split; [reflexivity|]. split; [reflexivity|left; reflexivity].
  - assert (ET : T = W + 10) by (unfold T; rewrite Rmin_right; lra). rewrite ET in *. cbn [fst]. rewrite !ST by lra.
    exists y, a, b, (W + 10). split; [exact B|]. split; [lra|]. split; [lra|]. split; [exact Ey|]. split; [lra|]. split; [reflexivity|]. split; [reflexivity|]. split; [reflexivity|]. split; [reflexivity|]. split; [reflexivity|]. split.
    + intros [|[|[|[|[|i] ] ] ] ] ev ts N1 N2; cbn in N1, N2; try discriminate; injection N1 as <-; injection N2 as <-; cbn [event_call event_terminal event_direction]; cbn [e_inflating e_N e_H2 N_eqs].
      * split; [constructor|]. split; [intros t []|]. intros t Ht Q. destruct (NI t Ht) as (X & _). exact (X Q).
      * split; [constructor|]. split; [intros t []|]. intros t Ht Q. destruct (NI t Ht) as (_ & X). exact (X Q).
      * split; [constructor; [intros []|constructor]|]. split; [intros t [<-|[] ]; split; [lra|]; split; [ring|reflexivity]|]. intros t Ht [ (_ & Q & _) | (_ & Q & _) ]; exfalso; lra.
      * split; [constructor|]. split; [intros t []|]. intros t Ht [ (_ & Q & _) | (_ & Q & _) ]; exfalso; apply (NC t ltac:(lra)); lra.
    + right. exists 2%nat, (UntilN (W + 10)), [W + 10]. split; [reflexivity|]. split; [reflexivity|]. split; [reflexivity|left; reflexivity].
Qed.
End Exact.

(** ISIC_Nt for 20 e-folds of quadratic inflation, bracket [6, 10]: the hypotheses are met, the search succeeds *)
Theorem C127_nonvacuous : forall fmt_e, exists ic ic' y1 phi,
  (forall s, 6 <= s <= 10 -> exact_from (exact_ivp Quadratic 1) (potfun_of Quadratic 1) false false None None 1000 0 20 s) /\ brackets_to 0 sup_find /\
  nt_init (IN 0 (potfun_of Quadratic 1) false false) [6; 10] None None 1000 (kw_of (InN 0)) = Ok ic /\
  nt_call fmt_e (exact_ivp Quadratic 1) sup_find true ic 20 [6; 10] [Fin 0; Fin 0] = Ok (ic', map Fin y1, phi) /\ 6 <= phi <= 10 /\
  exists y a b, N_background 0 (potfun_of Quadratic 1) false false y a b /\ a < 0 /\ 20 < b /\ y 0 = y1 /\
    (forall n, 0 < n < 20 -> 0 < N_inflating 0 (potfun_of Quadratic 1) false false n (y n)) /\ N_inflating 0 (potfun_of Quadratic 1) false false 20 (y 20) = 0.
Proof.
  intros fmt_e. destruct C125_nonvacuous as (root & HR & PE & _ & _ & LO & N & SR & HI). pose proof sq2 as S2.
  pose proof (phi_end_branch root Quadratic 1 (sqrt 2) HR I I ltac:(lra) ltac:(discriminate) PE) as Be. destruct (phi_end_spec root Quadratic 1 (sqrt 2) HR I I ltac:(lra) PE) as [_ Ee].
  pose proof (Nfun_end root Quadratic 1 (sqrt 2) I I PE) as Ne.
  assert (HD : dw_ge1 Quadratic) by (intros p phi0 Q; discriminate Q).
  assert (EX : forall s, 6 <= s <= 10 -> exact_from (exact_ivp Quadratic 1) (potfun_of Quadratic 1) false false None None 1000 0 20 s).
  { intros s Hs. apply (exact_ivp_ok Quadratic 1 (sqrt 2) I I ltac:(lra) HD Be Ee Ne); [cbn; lra|lra|lra|lra]. }
  assert (NM : ~ missing (IN 0 (potfun_of Quadratic 1) false false) None None) by (intros [ [Q _] | [Q _] ]; discriminate).
  destruct (C127_shooting root Quadratic 1 (sqrt 2) 6 10 20 N false false None None 1000 0 (exact_ivp Quadratic 1) true fmt_e HR I I ltac:(intros; discriminate) ltac:(discriminate) ltac:(lra) PE
    ltac:(cbn; lra) ltac:(cbn; lra) ltac:(lra) ltac:(lra) ltac:(lra) ltac:(lra) NM LO SR HI EX 1 ltac:(lra)) as (delta & Hd & W).
  destruct (W 0 sup_find ltac:(lra) (sup_find_ok 0 ltac:(lra))) as (ic & SI & W2). destruct (W2 [Fin 0; Fin 0] eq_refl) as (ic' & y1 & phi & M & CALL & Hp & _ & _ & EM & (y & a & b & B & A1 & A2 & Ey) & W3).
  rewrite (EM eq_refl) in *. rewrite Rplus_0_l in *. destruct (W3 y a b B ltac:(lra) Ey) as (_ & J1 & J2).
  exists ic, ic', y1, phi. split; [exact EX|]. split; [exact (sup_find_ok 0 ltac:(lra))|]. split; [exact SI|]. split; [exact CALL|]. split; [exact Hp|].
  exists y, a, b. split; [exact B|]. split; [lra|]. split; [lra|]. split; [exact Ey|]. split; [intros n Hn; apply J1; lra|apply J2; lra].
Qed.
