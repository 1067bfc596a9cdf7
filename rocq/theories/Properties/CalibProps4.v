(** Errors of calibrate_scale_factor: property C43. *)
From Coq Require Import Reals List String ZArith Bool Lra Lia.
From Verif Require Import Base Model.Equations Model.Background Model.Float Model.Solution Model.Interp Model.State Model.Reheating
  Model.ApproxPower Model.Calibrate Spec.CalibSpec Spec.CalibErrorSpec Proofs.BaseLemmas Proofs.FloatLemmas Proofs.DictLemmas Proofs.StateLemmas Proofs.CalibFrame
  Proofs.CalibPure Proofs.CalibPure2 Proofs.CalibPure3 Proofs.CalibRun Proofs.PowerRun Proofs.CalibResult Proofs.CalibTotal Proofs.CalibErrors Properties.CalibProps.
Import ListNotations.
Open Scope R_scope.
Open Scope string_scope.

(** A rejected call raises the exception of its class. *)
Theorem C43_rejected : forall C S q a s b e,
  consts_ok C -> sane a -> background s b -> ca_background a = None -> a_K q = b_K b -> (b_K b = 0 \/ b_K b = 1 \/ b_K b = -1) ->
  reject C a b e -> snd (calibrate_scale_factor C S q a s) = Raise e.
Proof.
  intros C S q a s b e HC HA HB HN EK HK RJ. pose proof (calibrate_run C S q a s b HC HA HB HN) as R. rewrite EK in R.
  apply first_reject in RJ; [|apply HB|apply HB|exact HK]. rewrite RJ in R. exact R.
Qed.
(** With the default spectrum approximation (any order it knows) and a spline constructor that accepts the
    knots, these are the only errors: a call that is not rejected succeeds. *)
Theorem C43_exact : forall C S q a s b e ph dp n,
  consts_ok C -> sane a -> background s b -> ca_background a = None -> a_K q = b_K b -> (b_K b = 0 \/ b_K b = 1 \/ b_K b = -1) ->
  fields s ph dp -> (3 <= o_k (ca_opts a))%nat -> accepting S -> ca_approx a = "CGS" -> ca_order a = Some (Z.of_nat n) -> (n <= 3)%nat ->
  (snd (calibrate_scale_factor C S q a s) = Raise e <-> reject C a b e).
Proof.
  intros C S q a s b e ph dp n HC HA HB HN EK HK HF H3 AC EA EO Hn. split; [|apply C43_rejected; assumption].
  intros E. apply first_reject; [apply HB|apply HB|exact HK|]. rewrite <- EK.
  pose proof (calibrate_run C S q a s b HC HA HB HN) as R. destruct (pure_first C a (a_K q) b) as [o|e'] eqn:EP.
  - destruct (calibrate_succeeds C S q a s b o ph dp n HC HA HB HN EP HF H3 AC EA EO Hn) as (s' & w & E' & _). rewrite E' in E. discriminate.
  - rewrite R in E. injection E as ->. reflexivity.
Qed.
(** At most one class of exception applies. *)
Theorem C43_unambiguous : forall C a b e e', List.length (b_H b) = List.length (b_N b) -> List.length (b_mask b) = List.length (b_N b) ->
  (b_K b = 0 \/ b_K b = 1 \/ b_K b = -1) -> reject C a b e -> reject C a b e' -> e = e'.
Proof. intros C a b e e' L1 L2 HK H H'. apply first_reject in H, H'; try assumption. congruence. Qed.

(** every exception occurs on the example background; and some calls are accepted *)
Definition arg (me : string) (ns w dn : option R) (h : option R) (om : option R) : calargs :=
  mkargs (Some me) om h ns None dn w None 100 None "CGS" (Some 3%Z) default_opts.
Theorem C43_nonvacuous : forall C U,
  consts_ok C ->
  let q := mkaeqs AT 0 U in let q' := mkaeqs AT 1 U in
  snd (calibrate_scale_factor C exS q (arg "N_star" None None None None None) (exs 0)) = Raise ValueError /\
  snd (calibrate_scale_factor C exS q (arg "magic" (Some 2) None None None None) (exs 0)) = Raise NotImplementedError /\
  snd (calibrate_scale_factor C exS q (arg "N_star" (Some 6) None None None None) (exs 0)) = Raise InsufficientInflationError /\
  snd (calibrate_scale_factor C exS q (arg "N_star" (Some 2) None None None (Some (1/100))) (exs 0)) = Raise ValueError /\
  snd (calibrate_scale_factor C exS q' (arg "Omega_K0" None None None (Some 1) (Some (1/100))) (exs 1)) = Raise ValueError /\
  exists s w, calibrate_scale_factor C exS q (arg "N_star" (Some 2) None None None None) (exs 0) = (s, Ok w).
Proof.
  intros C U HC. cbv zeta.
  assert (SN : forall me ns w dn h om, sane (arg me ns w dn h om)) by (intros; split; cbn; [lra|discriminate]).
  assert (RJ : forall K a e, ca_background a = None -> sane a -> (K = 0 \/ K = 1 \/ K = -1) -> reject C a (exb K) e -> snd (calibrate_scale_factor C exS (mkaeqs AT K U) a (exs K)) = Raise e).
  { intros K a e HN HS HK R. eapply C43_rejected with (b := exb K); try assumption; [apply exs_bg|reflexivity]. }
  split; [|split; [|split; [|split; [|split]]]].
  - apply RJ; auto. left. split; [reflexivity|]. apply fr_star; cbn; auto. left; reflexivity.
  - apply RJ; auto. left. split; [reflexivity|]. apply fr_method; cbn; try discriminate. left; reflexivity.
  - apply RJ; auto. left. split; [reflexivity|]. apply fr_insufficient with 6; cbn; auto; try lra. left; reflexivity.
  - apply RJ; auto. left. split; [reflexivity|]. apply fr_curvature with (1/100); [reflexivity|lra].
  - apply RJ; auto. right. split; [cbn; lra|]. apply cr_sign with 1 (1/100); cbn; try reflexivity; [repeat split; lra|]. unfold curvature_ok; cbn; lra.
  - assert (EP : exists o, pure_first C (arg "N_star" (Some 2) None None None None) (b_K (exb 0)) (exb 0) = Ok o).
    { destruct (pure_first C (arg "N_star" (Some 2) None None None None) (b_K (exb 0)) (exb 0)) as [o|e] eqn:E; [eauto|exfalso].
      apply first_reject in E; [|reflexivity|reflexivity|left; reflexivity]. destruct E as [[_ E]|[E _]]; [|apply E; reflexivity].
      destruct E as [om E N|NC M M'|NC M NS|ns NC M ENS P L|ns NC M [ENS P] SP|ns NC M [ENS P] SP MANY|ns ls w NC M [ENS P] EI ED ER EW HW
    |NC M U0|NC M U0 X|NC M U0 X G G'|NC M U0 X G G'|dm NC M U0 FC M1 OUT|dm NC M U0 FC M1 IN SP]; cbn in *; try discriminate; try congruence.
      + destruct NS as [NS|(ns & NS & L)]; [discriminate|]. injection NS as <-. lra.
      + injection ENS as <-. lra.
      + injection ENS as <-. apply SP. split; [exists 2|exists 2]; cbn; split; auto; lra.
      + destruct MANY as [H|[H _]]; apply H; reflexivity. }
    destruct EP as (o & EP).
    destruct (calibrate_succeeds C exS (mkaeqs AT 0 U) (arg "N_star" (Some 2) None None None None) (exs 0) (exb 0) o _ _ 3%nat HC (SN _ _ _ _ _ _) (exs_bg 0) eq_refl EP (exs_fields 0) ltac:(cbn; lia) exS_ok eq_refl eq_refl ltac:(lia)) as (s' & w & E & _).
    eauto.
Qed.
