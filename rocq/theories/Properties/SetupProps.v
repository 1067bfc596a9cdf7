(** C101: what the slow-roll wrapper for Cobaya makes of its parameters. *)
From Coq Require Import Reals List String Lra Lia Bool.
From Coquelicot Require Import Coquelicot.
From Verif Require Import Base Model.Potentials Model.SlowRoll Model.Float Model.Cobaya Model.SlowRollWrapper Model.SlowRollSetup
  Spec.PotentialSpec Spec.SlowRollSpec Proofs.Ctor Properties.SlowRollProps Properties.CobayaProps.
Import ListNotations.
Open Scope R_scope.
Open Scope string_scope.

Lemma get_pot_kwargs d k : get k (pot_kwargs d) = if in_dec string_dec k ["phi0"; "p"; "alpha"] then get k d else None.
Proof.
  unfold pot_kwargs. destruct (get "phi0" d) as [a|] eqn:E1, (get "p" d) as [b|] eqn:E2, (get "alpha" d) as [e|] eqn:E3; cbn [app get];
    (destruct (in_dec string_dec k ["phi0"; "p"; "alpha"]) as [I|I];
     [destruct I as [<-|[<-|[<-|[]] ] ]; cbn; congruence|
      repeat match goal with |- context [String.eqb k ?s] => destruct (String.eqb_spec k s) as [->|?]; [exfalso; apply I; cbn; tauto|] end; reflexivity]).
Qed.
Lemma pot_kwargs_ext d d' : (forall k, In k ["phi0"; "p"; "alpha"] -> get k d = get k d') -> pot_kwargs d = pot_kwargs d'.
Proof. intros H. unfold pot_kwargs. rewrite !H by (cbn; tauto). reflexivity. Qed.

(** 1. only the parameters the wrapper declares as supported have any influence *)
Theorem C101_inputs : forall root W background calibrate c d d', (forall k, In k supported -> get k d = get k d') ->
  slowroll_pps root W background calibrate c d = slowroll_pps root W background calibrate c d'.
Proof.
  intros root W bg cal c d d' H. unfold slowroll_pps, sr_setup. rewrite (pot_kwargs_ext d d').
  - rewrite !H by (cbn; tauto). reflexivity.
  - intros k I. apply H. cbn in *. tauto.
Qed.
(** 2. the potential's parameters must be exactly those of the wrapper's potential class; the base class
    never works *)
Lemma no_common k : In k ["phi0"; "p"; "alpha"] -> In k common_keys -> False.
Proof. cbn. intuition (subst; discriminate). Qed.
Lemma accepted_kw c d : (forall k, In k ["phi0"; "p"; "alpha"] -> (given d k <-> In k (own_keys c))) -> (forall k, In k (own_keys c) -> In k ["phi0"; "p"; "alpha"]) ->
  forall L, accepted c (pot_kwargs d) /\ accepted c (("Lambda", L) :: pot_kwargs d).
Proof.
  intros H HO L. unfold accepted. setoid_rewrite given_get.
  assert (G : forall k, get k (pot_kwargs d) <> None <-> In k (own_keys c)).
  { intros k. rewrite get_pot_kwargs. destruct (in_dec string_dec k ["phi0"; "p"; "alpha"]) as [I|I].
    - rewrite <- given_get. apply H. exact I.
    - split; [congruence|]. intros X. exfalso. exact (I (HO k X)). }
  assert (NC : forall k, In k common_keys -> get k (pot_kwargs d) = None).
  { intros k I. rewrite get_pot_kwargs. destruct (in_dec string_dec k ["phi0"; "p"; "alpha"]) as [J|J]; [exfalso; exact (no_common k J I)|reflexivity]. }
  split; (split; [|split]).
  - intros k I. apply G. exact I.
  - intros k I. left. apply G. exact I.
  - left. rewrite !NC by (cbn; tauto). repeat split; intros X; apply X; reflexivity.
  - intros k I. cbn [get]. destruct (String.eqb k "Lambda"); [discriminate|]. apply G. exact I.
  - intros k. cbn [get]. destruct (String.eqb_spec k "Lambda") as [->|]; [intros _; right; cbn; tauto|]. intros I. left. apply G. exact I.
  - left. cbn [get String.eqb Ascii.eqb Bool.eqb]. rewrite !NC by (cbn; tauto). repeat split; intros X; apply X; reflexivity.
Qed.
Theorem C101_parameters : forall root W background calibrate c d r,
  slowroll_pps root W background calibrate c d = Ok r ->
  given d "A_s" /\
  exists K, c = Some K /\ (forall k, In k ["phi0"; "p"; "alpha"] -> (given d k <-> In k (own_keys K))).
Proof.
  intros root W bg cal c d r E. unfold slowroll_pps in E. destruct (sr_setup root W c d) as [s|] eqn:ES; [|discriminate]. cbn [bind] in E.
  split. { rewrite given_get. destruct (get "A_s" d); discriminate. }
  unfold sr_setup in ES. destruct c as [K|]; [|discriminate]. exists K. split; [reflexivity|]. cbn [instantiate] in ES.
  destruct (construct root W K (pot_kwargs d)) as [[P L]|] eqn:EC; [|discriminate]. apply construct_ok in EC. destruct EC as (A1 & A2 & _).
  intros k I. rewrite given_get. split.
  - intros G. destruct (A2 k) as [X|X]; [apply given_get; rewrite get_pot_kwargs; destruct (in_dec _ _ _); [exact G|contradiction]|exact X|]. exfalso. exact (no_common k I X).
  - intros X. specialize (A1 k X). rewrite given_get, get_pot_kwargs in A1. destruct (in_dec string_dec k ["phi0"; "p"; "alpha"]); [exact A1|contradiction].
Qed.
(** the wrapper of a potential class is named after it; [class_name] are the names in primpy/potentials.py *)
Definition class_name (c : klass) : string :=
  match c with
  | KMonomial => "Monomial" | KLinear => "Linear" | KQuadratic => "Quadratic" | KCubic => "Cubic" | KQuartic => "Quartic"
  | KStarobinsky => "Starobinsky" | KNatural => "Natural" | KDoubleWell => "DoubleWell" | KDoubleWell2 => "DoubleWell2"
  | KDoubleWell4 => "DoubleWell4" | KTmodel => "Tmodel" | KRadionGauge => "RadionGauge" | KRadionGauge2 => "RadionGauge2"
  | KStarobinskyGaussianDip => "StarobinskyGaussianDip" | KStarobinskyTanhStep => "StarobinskyTanhStep"
  end.
Theorem C101_names : forall name c, In (name, c) wrappers ->
  name = match c with Some K => class_name K ++ "SlowRollPPS" | None => "SlowRollPPS" end /\
  (forall K, c = Some K -> forall k, In k (own_keys K) -> In k supported) /\
  (c = None -> forall root W bg cal d, slowroll_pps root W bg cal c d = Raise TypeError).
Proof.
  intros name c I. cbn in I. repeat (destruct I as [I|I]; [injection I as <- <-; split; [reflexivity|]; split; [intros K X; try discriminate X; injection X as <-; cbn; tauto|intros X; try discriminate X; intros; reflexivity]|]). contradiction.
Qed.
(** 3. every background is solved for the potential object with the given parameters and the trial amplitude,
    and 4. the first amplitude has the requested A_s in slow roll, 5. the field starts at 90 e-folds *)
Definition start_N (d : kwargs) : R := match get "N_star" d with Some v => v | None => 75 end.
Theorem C101_setup : forall root W K d A, (forall k, In k (own_keys K) -> In k ["phi0"; "p"; "alpha"]) ->
  (forall k, In k ["phi0"; "p"; "alpha"] -> (given d k <-> In k (own_keys K))) -> get "A_s" d = Some A ->
  let P := object K (val d) in
  (forall L, instantiate root W (Some K) (("Lambda", L) :: pot_kwargs d) = Ok (P, L)) /\
  (forall phi_s phi_90, sr_N2phi root W P 1 (start_N d) = Ok phi_s -> sr_N2phi root W P 1 90 = Ok phi_90 ->
    exists Lambda phi_i, sr_setup root W (Some K) d = Ok (Lambda, phi_i, start_N d) /\
      (0 < A -> 0 < V P 1 phi_s -> 0 < eps1V P phi_s -> 0 < Lambda /\ V P Lambda phi_s / (24 * PI ^ 2 * eps1V P phi_s) = A) /\
      phi_i <= phi_90 /\ (In "phi0" (own_keys K) -> phi_i <= val d "phi0") /\
      (branch P phi_90 -> phi_i = phi_90)).
Proof.
  intros root W K d A HO HG HA P.
  assert (VK : forall k, In k (own_keys K) -> val (pot_kwargs d) k = val d k /\ forall L, val (("Lambda", L) :: pot_kwargs d) k = val d k).
  { intros k I. unfold val. rewrite get_pot_kwargs. destruct (in_dec string_dec k ["phi0"; "p"; "alpha"]) as [J|J]; [|exfalso; exact (J (HO k I))].
    split; [reflexivity|]. intros L. cbn [get]. destruct (String.eqb_spec k "Lambda") as [->|]; [exfalso; cbn in J; intuition discriminate|].
    rewrite get_pot_kwargs. destruct (in_dec string_dec k ["phi0"; "p"; "alpha"]); [reflexivity|contradiction]. }
  assert (OB : object K (val (pot_kwargs d)) = P /\ forall L, object K (val (("Lambda", L) :: pot_kwargs d)) = P).
  { unfold P. destruct K; cbn [object own_keys] in *; (split; [|intros L]); rewrite ?(proj1 (VK _ ltac:(cbn; tauto))), ?(proj2 (VK _ ltac:(cbn; tauto))); try reflexivity;
      repeat match goal with |- context [val (?x :: ?y) ?k] => rewrite (proj2 (VK k ltac:(cbn; tauto))) end; repeat match goal with |- context [val (pot_kwargs d) ?k] => rewrite (proj1 (VK k ltac:(cbn; tauto))) end; reflexivity. }
  destruct OB as [OB OB'].
  assert (NC : forall k, In k common_keys -> get k (pot_kwargs d) = None).
  { intros k I. rewrite get_pot_kwargs. destruct (in_dec string_dec k ["phi0"; "p"; "alpha"]) as [J|J]; [exfalso; exact (no_common k J I)|reflexivity]. }
  assert (CO : construct root W K (pot_kwargs d) = Ok (P, 1)).
  { rewrite construct_val by exact (proj1 (accepted_kw K d HG HO 0)). rewrite (NC "A_s" ltac:(cbn; tauto)). rewrite OB. unfold L0. rewrite (NC "Lambda" ltac:(cbn; tauto)). reflexivity. }
  split.
  - intros L. cbn [instantiate]. rewrite construct_val by exact (proj2 (accepted_kw K d HG HO L)). cbn [get String.eqb Ascii.eqb Bool.eqb]. rewrite (NC "A_s" ltac:(cbn; tauto)), OB'. reflexivity.
  - intros ps p9 E1 E2. unfold sr_setup. cbn [instantiate]. rewrite CO. cbn [bind fst snd]. rewrite HA. fold (start_N d).
    unfold sr_As2Lambda at 1. rewrite E1. cbn [bind fst snd]. rewrite E2. cbn [bind fst snd].
    set (Lam := 1 * pypow _ (1/4)). eexists Lam, _. split; [reflexivity|]. split; [|split; [|split]].
    + intros PA PV PE. pose proof (C10_amplitude root W P 1 A None (Some (start_N d)) Lam ps (start_N d) ltac:(lra) PA) as X.
      unfold sr_As2Lambda in X. rewrite E1 in X. cbn [bind] in X. destruct (X eq_refl PV PE) as (X1 & X2 & _). split; [exact X1|exact X2].
    + destruct (get "phi0" (pot_kwargs d)) as [f|]; [destruct (Rlt_dec f p9); lra|lra].
    + intros I. specialize (VK "phi0" I). destruct (HG "phi0" ltac:(cbn; tauto)) as [_ G]. specialize (G I). rewrite given_get in G.
      rewrite get_pot_kwargs. destruct (in_dec string_dec "phi0" ["phi0"; "p"; "alpha"]) as [_|J]; [|exfalso; apply J; cbn; tauto].
      unfold val. destruct (get "phi0" d) as [f|]; [|congruence]. destruct (Rlt_dec f p9); lra.
    + intros B. rewrite get_pot_kwargs. destruct (in_dec string_dec "phi0" ["phi0"; "p"; "alpha"]) as [_|J]; [|exfalso; apply J; cbn; tauto].
      destruct (get "phi0" d) as [f|] eqn:EF; [|reflexivity]. destruct (Rlt_dec f p9) as [LT|]; [|reflexivity]. exfalso.
      assert (I : In "phi0" (own_keys K)) by (apply HG; [cbn; tauto|]; rewrite given_get, EF; discriminate).
      assert (VF : val d "phi0" = f) by (unfold val; rewrite EF; reflexivity).
      unfold P in B. clear - I B VF LT. destruct K; cbn in I; try contradiction; cbn [object branch] in B; rewrite ?VF in B; try lra; exfalso; repeat (destruct I as [I|I]; [discriminate I|]); contradiction.
Qed.
(** for all classes but the double wells (whose inverse is tabulated, C08) the start is exactly 90 e-folds
    before the end, so any N_star < 90 lies on the trajectory *)
Theorem C101_ninety : forall root W K d A phi_s phi_90, root_spec root -> lambert_spec W ->
  (forall k, In k (own_keys K) -> In k ["phi0"; "p"; "alpha"]) ->
  (forall k, In k ["phi0"; "p"; "alpha"] -> (given d k <-> In k (own_keys K))) -> get "A_s" d = Some A ->
  let P := object K (val d) in featureless P -> ~ double_well P -> valid P ->
  sr_N2phi root W P 1 (start_N d) = Ok phi_s -> sr_N2phi root W P 1 90 = Ok phi_90 ->
  exists Lambda phi_i, sr_setup root W (Some K) d = Ok (Lambda, phi_i, start_N d) /\ branch P phi_i /\ sr_phi2N root P 1 phi_i = Ok 90.
Proof.
  intros root W K d A ps p9 HR HL HO HG HA P HF HD HV E1 E2.
  destruct (C101_setup root W K d A HO HG HA) as [_ X]. destruct (X ps p9 E1 E2) as (L & f & S1 & _ & _ & _ & S2).
  destruct (C08_right root W P 1 90 p9 HR HL HF HD HV ltac:(lra) ltac:(lra) E2) as [B N]. exists L, f. rewrite (S2 B). rewrite (S2 B) in S1. auto.
Qed.
Lemma shoot_first bg cal A n rho w fuel i L N o : shoot bg cal A n rho w (S fuel) i L N [] = Ok o -> hd_error (snd o) = Some L.
Proof.
  assert (G : forall fuel i L N tr o, shoot bg cal A n rho w fuel i L N tr = Ok o -> exists t, snd o = (tr ++ t)%list).
  { clear. intros fuel. induction fuel as [|f IH]; intros i L N tr o E; [discriminate|]. cbn [shoot] in E.
    destruct (bg L) as [b|]; [|discriminate]. cbn [bind] in E. destruct (negb _); [discriminate|]. destruct (match rho with Some _ => _ | None => _ end); [discriminate|].
    destruct (choose _ _ _ _ _) as [m|]; [|discriminate]. cbn [bind] in E. destruct (cal L (fst m)) as [c|]; [|discriminate]. cbn [bind] in E.
    destruct (Rlt_dec _ _); [injection E as <-; eexists; reflexivity|]. destruct (Nat.ltb i 10); [|discriminate].
    destruct (IH _ _ _ _ _ E) as [t ->]. rewrite <- app_assoc. eexists. reflexivity. }
  intros E. cbn [shoot] in E.
  destruct (bg L) as [b|]; [|discriminate]. cbn [bind] in E. destruct (negb _); [discriminate|]. destruct (match rho with Some _ => _ | None => _ end); [discriminate|].
  destruct (choose _ _ _ _ _) as [m|]; [|discriminate]. cbn [bind] in E. destruct (cal L (fst m)) as [c|]; [|discriminate]. cbn [bind] in E.
  destruct (Rlt_dec _ _); [injection E as <-; reflexivity|]. destruct (Nat.ltb i 10); [|discriminate].
  destruct (G _ _ _ _ _ _ E) as [t ->]. reflexivity.
Qed.
(** how a dictionary of parameters asks the final background to be calibrated; N is the reference N_star of a fit of
    n_s and only matters for that *)
Definition requested (d : kwargs) (N : R) : calmode :=
  match get "w_reh" d, get "rho_reh_GeV" d, get "n_s" d with
  | Some w, Some rho, _ => ByReheating rho w
  | _, rho, Some n => ByNs N n rho
  | _, rho, None => ByNstar (start_N d) rho
  end.
(** whenever the wrapper succeeds, its result is the calibration, as asked for by the parameters, of a background of the
    wrapper's potential with the given parameters, started at the field of [sr_setup]; it has the requested A_s, and the
    first amplitude tried is the slow-roll one *)
Theorem C101_run : forall root W background calibrate K d L c trace,
  slowroll_pps root W background calibrate (Some K) d = Ok (L, c, trace) ->
  let P := object K (val d) in
  exists A Lambda phi_i N b, get "A_s" d = Some A /\ sr_setup root W (Some K) d = Ok (Lambda, phi_i, start_N d) /\
    hd_error trace = Some Lambda /\
    background P L phi_i = Ok b /\ so_success b = true /\ (forall rho, get "rho_reh_GeV" d = Some rho -> rho <= so_rho_end b) /\
    calibrate P L phi_i (requested d N) = Ok c /\ Rabs (c_As c - A) < 1 / 10^14 + 1 / 10^6 * A /\
    N <= start_N d /\ (forall L' b', In L' trace -> background P L' phi_i = Ok b' -> N <= so_N_tot b' - 1/10) /\
    ((forall L' b', In L' trace -> background P L' phi_i = Ok b' -> start_N d <= so_N_tot b' - 1/10) -> N = start_N d).
Proof.
  intros root W bg cal K d L c tr E P.
  destruct (C101_parameters _ _ _ _ _ _ _ E) as (GA & K' & EK & HG). injection EK as <-. rewrite given_get in GA.
  destruct (get "A_s" d) as [A|] eqn:EA; [|congruence]. clear GA.
  unfold slowroll_pps in E. destruct (sr_setup root W (Some K) d) as [s|] eqn:ES; [|discriminate]. cbn [bind] in E. rewrite EA in E.
  assert (HO : forall k, In k (own_keys K) -> In k ["phi0"; "p"; "alpha"]).
  { unfold sr_setup in ES. cbn [instantiate] in ES. destruct (construct root W K (pot_kwargs d)) as [[P0 L0]|] eqn:EC; [|discriminate].
    apply construct_ok in EC. destruct EC as (A1 & _ & _). intros k I. specialize (A1 k I). rewrite given_get, get_pot_kwargs in A1.
    destruct (in_dec string_dec k ["phi0"; "p"; "alpha"]); [assumption|congruence]. }
  destruct (C101_setup root W K d A HO HG EA) as [HI _]. fold P in HI.
  destruct s as [[Lam phi_i] Ns]. cbn [fst snd] in E.
  assert (NS : Ns = start_N d).
  { unfold sr_setup in ES.
    repeat match type of ES with bind ?x _ = Ok _ => destruct x; [cbn [bind] in ES|discriminate ES] end.
    injection ES as _ _ <-. reflexivity. }
  subst Ns.
  match type of E with slowroll_calculate ?b ?k _ _ _ _ _ _ = _ => set (B := b) in E; set (C := k) in E end.
  assert (EB : forall x, B x = bg P x phi_i) by (intros x; unfold B; rewrite HI; reflexivity).
  assert (EC : forall x m, C x m = cal P x phi_i m) by (intros x m; unfold C; rewrite HI; reflexivity).
  destruct (C71_calibration _ _ _ _ _ _ _ _ _ _ _ E) as (C1 & C2 & C3).
  destruct (C71_verified_amplitude _ _ _ _ _ _ _ _ _ _ _ E) as (V1 & _).
  assert (S : exists b, B L = Ok b /\ so_success b = true /\ (forall rho, get "rho_reh_GeV" d = Some rho -> rho <= so_rho_end b) /\ hd_error tr = Some Lam).
  { unfold slowroll_calculate in E. destruct (shoot B C A (get "n_s" d) (get "rho_reh_GeV" d) (get "w_reh" d) 11 0 Lam (Some (start_N d)) []) as [o|] eqn:EO; [|discriminate].
    cbn [bind] in E. destruct (unrealistic _); [discriminate|]. injection E as ->.
    destruct (shoot_spec _ _ _ _ _ _ _ _ _ _ _ _ EO) as (_ & (m & b & B1 & B2 & _ & B4) & _). cbn [fst snd] in *. exists b.
    repeat (split; [assumption|]). exact (shoot_first _ _ _ _ _ _ _ _ _ _ _ EO). }
  destruct S as (b & S1 & S2 & S3 & S4). rewrite EB in S1. rewrite EC in C1.
  set (lg := longest B (start_N d) tr) in *.
  assert (I : In L tr).
  { destruct (C71_verified_amplitude _ _ _ _ _ _ _ _ _ _ _ E) as (_ & _ & _ & (t & ->) & _). apply in_or_app. right. left. reflexivity. }
  exists A, Lam, phi_i, lg, b. repeat (split; [first [assumption|reflexivity]|]). split; [|split; [exact V1|split; [|split] ] ].
  - rewrite <- C1. f_equal. unfold requested, how. fold lg. destruct (get "w_reh" d), (get "rho_reh_GeV" d), (get "n_s" d); reflexivity.
  - rewrite <- EB in S1. exact (proj1 (C2 L b I S1)).
  - intros L' b' I' E'. rewrite <- EB in E'. exact (proj2 (C2 L' b' I' E')).
  - intros H. apply C3. intros L' b' I' E'. rewrite EB in E'. exact (H L' b' I' E').
Qed.
Theorem C101_nonvacuous :
  (exists r, slowroll_pps (fun _ _ _ => Raise ValueError) (fun x => x) (fun _ _ _ => Ok (mksolved true 1 90))
      (fun P L _ _ => Ok (mkcal (V P L (mono_N2phi 2 75) / (24 * PI ^ 2 * eps1V P (mono_N2phi 2 75))) (Fin 0) (Fin 0) (Fin 0) (Fin 0)))
      (Some KQuadratic) [("A_s", 2)] = Ok r /\ List.length (snd r) = 1%nat) /\
  (forall r, slowroll_pps (fun _ _ _ => Raise ValueError) (fun x => x) (fun _ _ _ => Ok (mksolved true 1 90)) (fun _ _ _ _ => Raise ValueError)
      (Some KNatural) [("A_s", 2); ("phi0", 10); ("p", 2)] <> Ok r).
Proof.
  split.
  - assert (G : forall k, In k ["phi0"; "p"; "alpha"] -> (given [("A_s", 2)] k <-> In k (own_keys KQuadratic))).
    { intros k I. rewrite given_get. cbn in I. destruct I as [<-|[<-|[<-|[]] ] ]; cbn; split; (congruence || tauto). }
    destruct (C101_setup (fun _ _ _ => Raise ValueError) (fun x => x) KQuadratic [("A_s", 2)] 2 ltac:(intros k []) G eq_refl) as [X1 X2].
    cbn [object] in X1, X2. destruct (X2 (mono_N2phi 2 75) (mono_N2phi 2 90) eq_refl eq_refl) as (L & f & S1 & S2 & _).
    assert (PH : 0 < mono_N2phi 2 75).
    { unfold mono_N2phi. apply Rdiv_lt_0_compat; [|lra]. apply Rmult_lt_0_compat; apply sqrt_lt_R0; lra. }
    destruct (S2 ltac:(lra)) as [PL S3]. { cbn [V]. unfold quad_V. nra. } { cbn [eps1V]. unfold mono_eps1. apply Rdiv_lt_0_compat; nra. }
    unfold slowroll_pps. rewrite S1. cbn [bind fst snd get String.eqb Ascii.eqb Bool.eqb]. unfold slowroll_calculate.
    cbn [shoot]. rewrite !X1. cbn [bind fst snd so_success negb so_N_tot choose c_As].
    rewrite S3. destruct (Rlt_dec (Rabs (2 - 2)) _) as [_|Y].
    + cbn [bind fst snd]. unfold unrealistic, fle, flt, feq. cbn [c_w c_DeltaN c_Nreh c_N0]. destruct (Rlt_dec 0 (-1 / 3)); [lra|]. destruct (Req_EM_T 0 (-1/3)); [lra|]. destruct (Rlt_dec 1 0); [lra|]. destruct (Req_EM_T 1 0); [lra|].
      destruct (Rlt_dec 0 0); [lra|]. cbn. eexists. split; reflexivity.
    + exfalso. apply Y. replace (2 - 2) with 0 by ring. rewrite Rabs_R0. unfold atol, rtol. lra.
  - intros r E. destruct (C101_parameters _ _ _ _ _ _ _ E) as (_ & K & EK & H). injection EK as <-.
    destruct (H "p" ltac:(cbn; tauto)) as [X _]. specialize (X ltac:(exists 2; cbn; tauto)). cbn in X. intuition discriminate.
Qed.
