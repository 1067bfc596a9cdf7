(** Concrete case for C118/C120 in an open universe: quadratic inflation started by SlowRollIC at phi = 10 with K = -1. *)
From Coq Require Import Reals List String Lra Lia.
From Coquelicot Require Import Coquelicot.
From Verif Require Import Base Model.Potentials Model.SlowRoll Model.Equations Model.Background Model.Float Model.Solution Model.InitCond
  Spec.PotentialSpec Spec.SlowRollSpec Spec.BackgroundSpec Proofs.PhiEnd Proofs.SRN Proofs.BackgroundT Proofs.BackgroundN Proofs.BackgroundEx Proofs.FloatLemmas
  Properties.BackgroundProps Properties.BracketProps Properties.InitProps Properties.SlowRollBoundProps Properties.ExistenceProps Properties.InflationEndsProps Properties.EndNonvacuity
  Properties.OpenRollProps Properties.OpenEndProps.
Import ListNotations.
Open Scope R_scope.

Lemma startsK_T K U phi t eta xe n : 0 < pV U phi -> K <= 0 -> exists ic y1,
  sr_init (IT K U true) phi (Some t) (Some eta) xe (kw_of (InN n)) = Ok ic /\ sr_call ic [Fin 0; Fin 0; Fin 0; Fin 0] = Ok (map Fin y1).
Proof.
  intros HV HK. destruct (srK_pos _ n K HV HK) as [HP HQ].
  assert (S0 : 0 < sqrt (pV U phi / 3 - K * exp (-2 * n))) by (apply sqrt_lt_R0; lra).
  eexists. exists [phi; - pdV U phi / (3 * sqrt (pV U phi / 3 - K * exp (-2 * n))); n; eta]. split; [apply (sr_from_N (IT K U true) phi (Some t) (Some eta) xe n HP)|].
  assert (D : fdiv (Fin (- pdV U phi)) (fmul (Fin 3) (fmul (Fin (sqrt (pV U phi / 3 * exp (2 * n) - K))) (fexp (fneg (Fin n))))) = Fin (- pdV U phi / (3 * sqrt (pV U phi / 3 - K * exp (-2 * n))))).
  { cbn [fmul fexp fneg]. rewrite (sr_aHK _ _ _ HP). apply fdiv_fin. lra. }
  unfold sr_call, sr_obj. cbn [ic_eqs ic_dphi ic_N ic_phi ic_eta ie_te ie_idx ie_U ie_K attr_of bind]. rewrite D. reflexivity.
Qed.
Lemma startsK_N K U phi t eta xe n : 0 < pV U phi -> K <= 0 -> exists ic y1,
  sr_init (IN K U true true) phi (Some t) (Some eta) xe (kw_of (InN n)) = Ok ic /\ sr_call ic [Fin 0; Fin 0; Fin 0; Fin 0] = Ok (map Fin y1).
Proof.
  intros HV HK. destruct (srK_pos _ n K HV HK) as [HP HQ].
  eexists. exists [phi; - pdV U phi / (3 * (pV U phi / 3 - K * exp (-2 * n))); t; eta]. split; [apply (sr_from_N (IN K U true true) phi (Some t) (Some eta) xe n HP)|].
  assert (D : let h := fmul (Fin (sqrt (pV U phi / 3 * exp (2 * n) - K))) (fexp (fneg (Fin n))) in fdiv (Fin (- pdV U phi)) (fmul (Fin 3) (fmul h h)) = Fin (- pdV U phi / (3 * (pV U phi / 3 - K * exp (-2 * n))))).
  { cbn [fmul fexp fneg]. rewrite (sr_aHK _ _ _ HP). rewrite sqrt_sqrt by lra. apply fdiv_fin. lra. }
  cbv zeta in D. unfold sr_call, sr_obj. cbn [ic_eqs ic_dphi ic_N ic_phi ic_eta ic_t ie_te ie_idx ie_U ie_K attr_of bind]. rewrite D. reflexivity.
Qed.
Theorem C120_open_nonvacuous : exists root, root_spec root /\ phi_end root Quadratic 1 = Ok (sqrt 2) /\
  (exists ic y1 y a b N_end, sr_init (IN (-1) (potfun_of Quadratic 1) true true) 10 (Some 1) (Some 0) 0 (kw_of (InN 0)) = Ok ic /\
     sr_call ic [Fin 0; Fin 0; Fin 0; Fin 0] = Ok (map Fin y1) /\ a < 0 /\ N_end < b /\
     N_background (-1) (potfun_of Quadratic 1) true true y a b /\ y 0 = y1 /\
     (forall n, 0 <= n < N_end -> 0 < N_inflating (-1) (potfun_of Quadratic 1) true true n (y n)) /\
     N_inflating (-1) (potfun_of Quadratic 1) true true N_end (y N_end) = 0 /\ 49/2 <= N_end) /\
  (exists ic y1 y a b t_end, sr_init (IT (-1) (potfun_of Quadratic 1) true) 10 (Some 1) (Some 0) 0 (kw_of (InN 0)) = Ok ic /\
     sr_call ic [Fin 0; Fin 0; Fin 0; Fin 0] = Ok (map Fin y1) /\ a < 1 < t_end /\ t_end < b /\
     T_background (-1) (potfun_of Quadratic 1) true y a b /\ y 1 = y1 /\ T_inflating (potfun_of Quadratic 1) true t_end (y t_end) = 0 /\
     49/2 <= T_N true y t_end - T_N true y 1).
Proof.
  destruct C87_root_finder_exists as (root & HR & _). exists root. split; [exact HR|]. pose proof sq2 as S2.
  assert (PE : phi_end root Quadratic 1 = Ok (sqrt 2)) by (cbn; unfold mono_phi_end; do 2 f_equal; lra). split; [exact PE|].
  assert (HB : branch Quadratic 10) by (cbn; lra). split.
  - destruct (startsK_N (-1) (potfun_of Quadratic 1) 10 1 0 0 0 quad_V10 ltac:(lra)) as (ic & y1 & SI & SC).
    destruct (C120_open_efolds root Quadratic 1 (-1) true true 10 (Some 1) (Some 0) 0 0 (sqrt 2) ic [Fin 0; Fin 0; Fin 0; Fin 0] y1 HR I I ltac:(intros; discriminate) ltac:(discriminate) ltac:(lra) ltac:(lra) HB PE ltac:(lra) SI eq_refl SC)
      as (y & a & b & N_end & N_sr & A1 & A2 & B & Ey & IN & Z & SR & LO).
    rewrite (quad_Nsr root N_sr SR) in LO.
    exists ic, y1, y, a, b, N_end. split; [exact SI|]. split; [exact SC|]. split; [lra|]. split; [exact A2|]. split; [exact B|]. split; [exact Ey|]. split; [exact IN|]. split; [exact Z|]. lra.
  - destruct (startsK_T (-1) (potfun_of Quadratic 1) 10 1 0 0 0 quad_V10 ltac:(lra)) as (ic & y1 & SI & SC).
    destruct (C120_open_time root Quadratic 1 (-1) true 10 1 (Some 0) 0 0 (sqrt 2) ic [Fin 0; Fin 0; Fin 0; Fin 0] y1 HR I I ltac:(intros; discriminate) ltac:(discriminate) ltac:(lra) ltac:(lra) HB PE ltac:(lra) SI eq_refl SC)
      as (y & a & b & t_end & N_sr & A1 & A2 & B & Ey & IN & Z & SR & LO).
    rewrite (quad_Nsr root N_sr SR) in LO.
    exists ic, y1, y, a, b, t_end. split; [exact SI|]. split; [exact SC|]. split; [exact A1|]. split; [exact A2|]. split; [exact B|]. split; [exact Ey|]. split; [exact Z|]. exact LO.
Qed.
