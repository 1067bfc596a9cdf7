(** Properties C11 and C12 (/repo/primpy/potentials.py). *)
From Coq Require Import Reals ZArith Lra Lia List String.
From Coquelicot Require Import Coquelicot.
From Verif Require Import Base Model.Potentials Model.SlowRoll Spec.PotentialSpec Spec.SlowRollSpec
  Proofs.PhiEnd Proofs.SRN Proofs.Ctor Proofs.Efolds.
Import ListNotations.
Open Scope R_scope.

(** C11: only the documented keyword combinations construct an object ... *)
Theorem C11_only_accepted : forall root W c l P L, construct root W c l = Ok (P, L) -> accepted c l.
Proof. exact construct_ok. Qed.
(** ... all of them without A_s do, with the given Lambda or 1 ... *)
Theorem C11_without_As : forall root W c l, accepted c l -> ~ given l "A_s" ->
  construct root W c l = Ok (object c (val l), match get "Lambda" l with Some v => v | None => 1 end).
Proof.
  intros root W c l HA Hn. rewrite (construct_val root W c l HA).
  destruct (get "A_s" l) eqn:E; [|reflexivity]. exfalso. apply Hn. apply given_get. congruence.
Qed.
(** ... and with A_s the amplitude is exactly the one sr_As2Lambda returns for the one given of
    N_star, phi_star. [val l k] is the value passed for [k]. *)
Theorem C11_with_As : forall root W c l, accepted c l -> given l "A_s" ->
  construct root W c l =
    do t <- sr_As2Lambda root W (object c (val l)) (match get "Lambda" l with Some v => v | None => 1 end)
              (val l "A_s") (get "phi_star" l) (get "N_star" l);
    Ok (object c (val l), fst (fst t)).
Proof.
  intros root W c l HA Hn. rewrite (construct_val root W c l HA). apply given_get in Hn.
  destruct (get "A_s" l) as [A|] eqn:E; [|congruence].
  replace (val l "A_s") with A by (unfold val; rewrite E; reflexivity). reflexivity.
Qed.
(** [val] and [get] read the keyword's value *)
Theorem C11_lookup : forall l k v, NoDup (map fst l) -> (In (k, v) l <-> get k l = Some v).
Proof.
  induction l as [|[q w] t IH]; intros k v Hn; simpl; [split; [intros []|discriminate]|].
  inversion Hn; subst. destruct (String.eqb_spec k q) as [->|E].
  - split; [intros [H|H]; [congruence|]|intros H; left; congruence].
    exfalso. apply H1. apply (in_map fst) in H. exact H.
  - rewrite <- IH by assumption. split; [intros [H|H]; [congruence|exact H]|right; assumption].
Qed.
Theorem C11_nonvacuous :
  accepted KDoubleWell [("phi0", 10); ("p", 3); ("A_s", 2); ("N_star", 50)]%string /\
  ~ accepted KNatural [("phi0", 10); ("A_s", 2); ("N_star", 50); ("phi_star", 3)]%string.
Proof.
  unfold accepted. setoid_rewrite given_get. split.
  - split; [|split].
    + simpl. intros k [<-|[<-|[]]]; simpl; discriminate.
    + intros k Hk. simpl in Hk. simpl.
      repeat match type of Hk with context [String.eqb k ?s] => destruct (String.eqb_spec k s); [subst; tauto|] end. congruence.
    + right; left. simpl. repeat match goal with |- _ /\ _ => split end; try discriminate. intros H; apply H; reflexivity.
  - intros [_ [_ [H|[H|H]]]]; simpl in H; destruct H as [H1 [H2 H3]]; try (apply H1; discriminate); try (apply H3; discriminate); apply H2; discriminate.
Qed.

(** ** Which exception a rejected call raises *)
(** classes whose power is fixed by the class *)
Definition fixed_power (c : klass) : Prop :=
  In c [KLinear; KQuadratic; KCubic; KQuartic; KDoubleWell2; KDoubleWell4; KRadionGauge2].
(** a reason to reject the class's own parameters, in the order the code checks them *)
Definition bad_mass (c : klass) (l : kwargs) : Prop := c = KQuadratic /\ given l "mass".
Definition bad_power (c : klass) (l : kwargs) : Prop := ~ bad_mass c l /\ fixed_power c /\ given l "p".
Definition missing (c : klass) (l : kwargs) : Prop := ~ bad_mass c l /\ ~ bad_power c l /\ exists k, In k (own_keys c) /\ ~ given l k.
Definition own_fine (c : klass) (l : kwargs) : Prop := ~ bad_mass c l /\ ~ bad_power c l /\ ~ missing c l.

Lemma own_fails c l : (bad_mass c l -> own_params c l = Raise ValueError) /\
  (bad_power c l -> own_params c l = Raise TypeError) /\ (missing c l -> own_params c l = Raise KeyError).
Proof.
  unfold missing, bad_power, bad_mass, fixed_power. setoid_rewrite given_get. 
  split; [|split].
  - intros [-> H]. unfold own_params, has. destruct (get "mass" l); [reflexivity|congruence].
  - intros [HM [HF HP]]. simpl in HF. unfold own_params, fixed_p, has.
    destruct (get "p" l) eqn:EP; [|congruence].
    repeat match goal with H : _ \/ _ |- _ => destruct H as [H|H] end; try contradiction; subst c; try reflexivity.
    destruct (get "mass" l) eqn:EM; [|reflexivity]. exfalso. apply HM. split; [reflexivity|congruence].
  - intros [HM [HB [k [Hk HN]]]]. assert (HN' : get k l = None) by (destruct (get k l); [exfalso; apply HN; discriminate|reflexivity]). clear HN.
    assert (NP : In c [KLinear; KQuadratic; KCubic; KQuartic; KDoubleWell2; KDoubleWell4; KRadionGauge2] -> get "p" l = None).
    { intros HF. destruct (get "p" l) eqn:E; [|reflexivity]. exfalso. apply HB. split; [exact HM|]. split; [exact HF|congruence]. }
    destruct c; simpl in Hk; unfold own_params, fixed_p, has, pop, bind; simpl in NP;
      try (rewrite NP by tauto);
      repeat match goal with H : _ \/ _ |- _ => destruct H as [H|H] end; try contradiction; subst k;
      repeat (match goal with
        | |- context [match get ?k ?m with _ => _ end] => let E := fresh "E" in destruct (get k m) eqn:E; cbn [fst snd] in *; try reflexivity
        end);
      rewrite ?get_remove in *; simpl String.eqb in *; cbv iota in *; congruence.
Qed.
Lemma own_succeeds c l : own_fine c l -> exists l', own_params c l = Ok (object c (val l), l') /\
  (forall k, get k l' = if in_dec string_dec k (own_keys c) then None else get k l).
Proof.
  intros [HM [HB HMi]].
  assert (A : forall k, In k (own_keys c) -> get k l <> None).
  { intros k Hk E. apply HMi. split; [exact HM|]. split; [exact HB|]. exists k. split; [exact Hk|]. rewrite given_get. intros C; apply C; exact E. }
  assert (NP : In c [KLinear; KQuadratic; KCubic; KQuartic; KDoubleWell2; KDoubleWell4; KRadionGauge2] -> get "p" l = None).
  { intros HF. destruct (get "p" l) eqn:E; [|reflexivity]. exfalso. apply HB. split; [exact HM|]. split; [exact HF|]. apply given_get. congruence. }
  assert (NM : c = KQuadratic -> get "mass" l = None).
  { intros HF. destruct (get "mass" l) eqn:E; [|reflexivity]. exfalso. apply HM. split; [exact HF|]. apply given_get. congruence. }
  destruct (own_params c l) as [[P l']|e] eqn:EO.
  - destruct (own_ok (fun _ _ _ => Raise KeyError) (fun x => x) _ _ _ _ EO) as [_ [-> H3]]. exists l'. split; [reflexivity|exact H3].
  - exfalso. destruct c; unfold own_params, fixed_p, has, pop, bind in EO; simpl in NP, A;
      try (rewrite NP in EO by tauto); try (rewrite NM in EO by reflexivity); try discriminate EO;
      repeat (match type of EO with
        | context [match get ?k ?m with _ => _ end] => let E := fresh "E" in destruct (get k m) eqn:E; cbn [fst snd] in *; try discriminate EO
        end);
      rewrite ?get_remove in *; simpl String.eqb in *; cbv iota in *;
      match goal with E : get ?k l = None |- _ => apply (A k); [tauto|exact E] end.
Qed.

(** C11: every rejected keyword combination is rejected with a definite exception: a [mass] for the
    quadratic potential with ValueError, a second power for a class with fixed power with TypeError,
    a missing parameter of the class with KeyError, A_s without N_star and phi_star with
    PrimpyError, A_s with both, or any keyword that is neither the class's own nor a common one
    (when no A_s conversion comes first) with a plain Exception. *)
Theorem C11_exceptions : forall root W c l,
  (bad_mass c l -> construct root W c l = Raise ValueError) /\
  (bad_power c l -> construct root W c l = Raise TypeError) /\
  (missing c l -> construct root W c l = Raise KeyError) /\
  (own_fine c l -> given l "A_s" -> ~ given l "N_star" -> ~ given l "phi_star" -> construct root W c l = Raise PrimpyError) /\
  (own_fine c l -> given l "A_s" -> given l "N_star" -> given l "phi_star" -> construct root W c l = Raise GenericException) /\
  (own_fine c l -> ~ given l "A_s" -> (exists k, given l k /\ ~ In k (own_keys c) /\ k <> "Lambda"%string) ->
     construct root W c l = Raise GenericException).
Proof.
  intros root W c l. destruct (own_fails c l) as [F1 [F2 F3]].
  split; [intros H; unfold construct; rewrite (F1 H); reflexivity|].
  split; [intros H; unfold construct; rewrite (F2 H); reflexivity|].
  split; [intros H; unfold construct; rewrite (F3 H); reflexivity|].
  setoid_rewrite given_get.
  assert (B : own_fine c l -> exists l', own_params c l = Ok (object c (val l), l') /\
     (forall k, In k common_keys -> get k l' = get k l) /\ (forall k, ~ In k (own_keys c) -> get k l' = get k l)).
  { intros H. destruct (own_succeeds c l H) as [l' [E G]]. exists l'. split; [exact E|]. split; intros k Hk; rewrite G;
    destruct (in_dec string_dec k (own_keys c)) as [i|n]; try reflexivity; [destruct (own_common root W c k i Hk)|contradiction]. }
  assert (ND : forall k : string, ~ get k l <> None -> get k l = None) by (intros k H; destruct (get k l); [exfalso; apply H; discriminate|reflexivity]).
  split; [|split]; intros HF HA.
  - intros HN HP. apply ND in HN, HP. destruct (B HF) as [l' [E [G _]]]. unfold construct. rewrite E. cbn [bind fst snd].
    unfold base_init, has. rewrite !get_remove. simpl String.eqb. cbv iota. rewrite !G by (simpl; tauto). rewrite HN, HP.
    destruct (get "A_s" l); [reflexivity|congruence].
  - intros HN HP. destruct (B HF) as [l' [E [G _]]]. unfold construct. rewrite E. cbn [bind fst snd].
    unfold base_init, has, pop. rewrite !get_remove. simpl String.eqb. cbv iota. rewrite !G by (simpl; tauto).
    destruct (get "A_s" l) eqn:EA; [|congruence]. destruct (get "N_star" l) eqn:EN; [|congruence]. destruct (get "phi_star" l) eqn:EP; [|congruence].
    cbn [andb negb bind fst snd]. rewrite !get_remove. simpl String.eqb. cbv iota. rewrite !G by (simpl; tauto). rewrite EN, EP. reflexivity.
  - intros [k [Hk [Hko HkL]]]. apply ND in HA. destruct (B HF) as [l' [E [G G2]]]. unfold construct. rewrite E. cbn [bind fst snd].
    unfold base_init, has. rewrite !get_remove. simpl String.eqb. cbv iota. rewrite !G by (simpl; tauto). rewrite HA. cbn [bind fst snd].
    destruct (SlowRoll.remove "Lambda" l') eqn:EL; [|reflexivity]. exfalso. rewrite get_nil in EL. specialize (EL k). rewrite get_remove in EL.
    destruct (String.eqb_spec k "Lambda"); [contradiction|]. rewrite G2 in EL by exact Hko. contradiction.
Qed.
Theorem C11_exceptions_nonvacuous :
  bad_mass KQuadratic [("mass", 1)]%string /\ bad_power KDoubleWell2 [("p", 3)]%string /\
  missing KDoubleWell [("p", 3)]%string /\ own_fine KNatural [("phi0", 10); ("A_s", 2)]%string.
Proof.
  unfold own_fine, missing, bad_power, bad_mass, fixed_power. setoid_rewrite given_get. simpl.
  split; [split; [reflexivity|discriminate]|].
  split; [split; [intros [H _]; discriminate|split; [tauto|discriminate]]|].
  split; [split; [intros [H _]; discriminate|split; [intros [_ [H _]]; intuition discriminate|exists "phi0"%string; split; [tauto|intros H; apply H; reflexivity]]]|].
  split; [intros [H _]; discriminate|]. split; [intros [_ [H _]]; intuition discriminate|].
  intros [_ [_ [k [[H|[]] H2]]]]. subst k. apply H2. discriminate.
Qed.

(** C12: the deprecated closed forms return the same number of e-folds as sr_phi2N
    (and do not fail) on the inflating branch. *)
Theorem C12_phi2efolds : forall root L phi0 phi, root_spec root -> L <> 0 -> 0 < phi0 -> 0 < phi < phi0 ->
  Ok (star_phi2efolds phi) = sr_phi2N root Starobinsky L phi /\
  nat_phi2efolds phi phi0 = sr_phi2N root (Natural phi0) L phi /\
  dw2_phi2efolds phi phi0 = sr_phi2N root (DoubleWell2 phi0) L phi /\
  (forall N, sr_phi2N root (DoubleWell4 phi0) L phi = Ok N -> dw4_phi2efolds phi phi0 = Ok N).
Proof.
  intros root L phi0 phi HR HL H0 Hp. splits.
  - unfold sr_phi2N. f_equal. apply star_efolds.
  - apply nat_efolds; assumption.
  - apply dw2_efolds; assumption.
  - intros N HN. unfold sr_phi2N in HN. unfold bind in HN.
    destruct (phi_end root (DoubleWell4 phi0) L) as [e|] eqn:E; [|discriminate].
    rewrite <- HN. apply (dw4_efolds root); assumption.
Qed.
(** the quartic radical: its square root is the distance of phi_end to the hilltop,
    i.e. the only point of the branch with epsilon_1V = 1 *)
Theorem C12_phi_end_squared : forall phi0 e, 0 < e < phi0 ->
  (eps1V (DoubleWell4 phi0) e = 1 <-> (phi0 - e)^2 = dw4_phi_end_squared phi0) /\
  0 < dw4_phi_end_squared phi0 < phi0^2.
Proof.
  intros phi0 e He. split; [exact (dw4_eps_iff phi0 e He)|]. exact (u_range phi0 ltac:(lra)).
Qed.
