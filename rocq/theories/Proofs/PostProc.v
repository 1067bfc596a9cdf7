From Coq Require Import Reals List String Arith Lia Lra Bool Ascii ZArith.
From Verif Require Import Base Model.Equations Model.Background Model.Float Model.Solution Spec.SolutionSpec Proofs.DictLemmas Proofs.SolLemmas.
Import ListNotations.
Open Scope string_scope.
Open Scope R_scope.

Lemma record_cases fmt_e p name events r n :
  (forall e, event_name fmt_e e = name <-> p e = true) ->
  ivp_ok n (List.length (map (event_name fmt_e) events)) r ->
  (~ In name (map (event_name fmt_e) events) /\ recorded p events r = []) \/
  (exists j te ye, nth_error (map (event_name fmt_e) events) j = Some name /\
     nth_error (r_t_events r) j = Some te /\ nth_error (r_y_events r) j = Some ye /\
     List.length te = List.length ye /\ recorded p events r = combine te ye).
Proof.
  intros Hp [_ [_ [L1 [L2 L3]]]]. rewrite map_length in L1, L2. unfold recorded.
  revert L1 L2 L3. generalize (r_t_events r), (r_y_events r).
  induction events as [|e events IH]; intros tes yes L1 L2 L3; [left; split; [intros []|reflexivity]|].
  destruct tes as [|t tes]; [discriminate|]. destruct yes as [|y yes]; [discriminate|]. simpl.
  destruct (p e) eqn:Pe.
  - right. exists 0%nat, t, y. apply Hp in Pe. rewrite Pe. repeat split; auto. apply (L3 0%nat); reflexivity.
  - assert (NE : event_name fmt_e e <> name) by (intros C; apply Hp in C; congruence).
    destruct (IH tes yes) as [[A B]|[j [t' [y' [A [B [C [D E]]]]]]]].
    + simpl in L1; lia.
    + simpl in L2; lia.
    + intros j a b Ha Hb. apply (L3 (S j)); assumption.
    + left. split; [|exact B]. intros [X|X]; contradiction.
    + right. exists (S j), t', y'. auto.
Qed.

Ltac gs := unfold setattr; repeat first [rewrite get_set_eq | rewrite get_set_neq by discriminate].

Section Start.
Variables (q : eqs) (verbose : bool) (s : attrs) (xs : list R) (ys : list (list R)) (n : nat) (w : list R).
Variables (dN dphi dx : dict (list R)) (dy : dict (list (list R))) (x0 : R) (xs' : list R) (y0 : list R) (ys' : list (list R)) (w0 : R) (w' : list R) (n0 : R) (Ns : list R).
Hypothesis Hx : dict_get "x" s = Some (VA (map Fin (x0 :: xs'))).
Hypothesis Hy : dict_get "y" s = Some (VM n (y0 :: ys')).
Hypothesis Hw : dict_get "w" s = Some (VA (map Fin (w0 :: w'))).
Hypothesis HN : dict_get "_N" s = Some (VA (map Fin (n0 :: Ns))).
Hypothesis HNe : dict_get "_N_events" s = Some (VDT dN).
Hypothesis Hpe : dict_get "phi_events" s = Some (VDT dphi).
Hypothesis Hxe : dict_get "x_events" s = Some (VDT dx).
Hypothesis Hye : dict_get "y_events" s = Some (VDY dy).
(** keys are consistent *)
Hypothesis HC : forall k v vs, dict_get k dN = Some (v :: vs) -> exists x xl y yl p pl,
  dict_get k dx = Some (x :: xl) /\ dict_get k dy = Some (y :: yl) /\ dict_get k dphi = Some (p :: pl).

Let starts : bool := (fle (Fin 0) (Fin (e_inflating q x0 y0)) || fle (Fin w0) (Fin (-1/3)))%bool.
Definition beg_values : fl * fl :=
  if fired "Collapse" dN then (NaN, NaN) else if starts then (Fin n0, e_H q x0 y0)
  else match dict_get "Inflation_dir1_term0" dN, dict_get "Inflation_dir1_term0" dx, dict_get "Inflation_dir1_term0" dy with
       | Some (nn :: _), Some (x :: _), Some (y :: _) => (Fin nn, e_H q x y) | _, _, _ => (NaN, NaN) end.
Definition beg_warns : list warning :=
  if fired "Collapse" dN then vwarn verbose CollapseWarning else if starts then []
  else if fired "Inflation_dir1_term0" dN then [] else vwarn verbose (InflationStartWarning (start_warning_untracked dN)).

Lemma start_ok : exists s', postprocessing_inflation_start q verbose s = Ok (s', beg_warns) /\
  dict_get "_N_beg" s' = Some (VF (fst beg_values)) /\ dict_get "H_beg" s' = Some (VF (snd beg_values)) /\
  dict_get "_logaH_beg" s' = Some (VF (fadd (fst beg_values) (flog (snd beg_values)))) /\
  forall k, k <> "_N_beg"%string -> k <> "H_beg"%string -> k <> "_logaH_beg"%string -> dict_get k s' = dict_get k s.
Proof.
  unfold postprocessing_inflation_start, get_DT, get_A, get_F, get_DY, getattr.
  gs. rewrite HNe. cbn [bind as_DT]. unfold beg_values, beg_warns.
  destruct (fired "Collapse" dN) eqn:FC.
  - cbn [bind fst snd]. gs. cbn [bind as_F]. eexists. split; [reflexivity|]. gs. repeat split; try reflexivity.
    intros k K1 K2 K3. rewrite !get_set_neq by assumption. reflexivity.
  - gs. rewrite Hx. cbn [bind as_A map head_of as_R]. gs. rewrite Hy. cbn [bind as_M snd head_of]. gs. rewrite Hw. cbn [bind as_A map head_of].
    fold starts. destruct starts eqn:ST.
    + gs. rewrite HN. cbn [bind as_A map head_of fst snd]. gs. cbn [bind as_F]. eexists. split; [reflexivity|]. gs. repeat split; try reflexivity.
      intros k K1 K2 K3. rewrite !get_set_neq by assumption. reflexivity.
    + destruct (fired "Inflation_dir1_term0" dN) eqn:FI.
      * unfold fired in FI. unfold item. destruct (dict_get "Inflation_dir1_term0" dN) as [[|v vs]|] eqn:ED; try discriminate.
        destruct (HC _ _ _ ED) as [x [xl [y [yl [p [pl [A [B C]]]]]]]]. cbn [bind head_of]. gs. rewrite Hxe. cbn [bind as_DT]. rewrite A. cbn [bind head_of]. gs.
        rewrite Hye. cbn [bind as_DY]. rewrite B. cbn [bind head_of fst snd]. gs. cbn [bind as_F]. eexists. split; [reflexivity|]. gs. repeat split; try reflexivity.
        intros k K1 K2 K3. rewrite !get_set_neq by assumption. reflexivity.
      * cbn [bind fst snd]. gs. cbn [bind as_F]. eexists. split; [reflexivity|]. gs.
        assert (EV : match dict_get "Inflation_dir1_term0" dN, dict_get "Inflation_dir1_term0" dx, dict_get "Inflation_dir1_term0" dy with
          | Some (nn :: _), Some (x :: _), Some (y :: _) => (Fin nn, e_H q x y) | _, _, _ => (NaN, NaN) end = (NaN, NaN)).
        { unfold fired in FI. destruct (dict_get "Inflation_dir1_term0" dN) as [[|v vs]|]; try discriminate; reflexivity. }
        rewrite EV. repeat split; try reflexivity.
        intros k K1 K2 K3. rewrite !get_set_neq by assumption. reflexivity.
Qed.

Definition end_key : option string :=
  if fired "Inflation_dir-1_term1" dN then Some "Inflation_dir-1_term1"%string
  else if fired "Inflation_dir-1_term0" dN then Some "Inflation_dir-1_term0"%string else None.
Definition end_values : fl * fl * fl * fl :=
  match end_key with
  | Some k => match dict_get k dN, dict_get k dx, dict_get k dy, dict_get k dphi with
              | Some (nn :: _), Some (x :: _), Some (y :: _), Some (p :: _) => (Fin nn, Fin p, e_H q x y, Fin (e_V q p))
              | _, _, _, _ => (NaN, NaN, NaN, NaN) end
  | None => (NaN, NaN, NaN, NaN)
  end.
Definition end_warns : list warning :=
  match end_key with Some _ => [] | None => vwarn verbose (InflationEndWarning (end_warning_untracked dN)) end.
Lemma end_from_ok k s0 v vs x xl y yl p pl :
  dict_get "_N_events" s0 = Some (VDT dN) -> dict_get "phi_events" s0 = Some (VDT dphi) ->
  dict_get "x_events" s0 = Some (VDT dx) -> dict_get "y_events" s0 = Some (VDY dy) ->
  dict_get k dN = Some (v :: vs) -> dict_get k dx = Some (x :: xl) -> dict_get k dy = Some (y :: yl) -> dict_get k dphi = Some (p :: pl) ->
  end_from q k s0 = Ok (setattr "_logaH_end" (VF (fadd (Fin v) (flog (e_H q x y)))) (setattr "H_end" (VF (e_H q x y)) (setattr "phi_end" (VF (Fin p)) (setattr "_N_end" (VF (Fin v)) s0)))).
Proof.
  intros H1 H2 H3 H4 A B C D. unfold end_from, get_DT, get_DY, getattr, item. rewrite H1. cbn [bind as_DT]. rewrite A. cbn [bind head_of].
  gs. rewrite H2. cbn [bind as_DT]. rewrite D. cbn [bind head_of]. gs. rewrite H3. cbn [bind as_DT]. rewrite B. cbn [bind head_of]. gs.
  rewrite H4. cbn [bind as_DY]. rewrite C. cbn [bind head_of]. reflexivity.
Qed.
Lemma end_ok : exists s', postprocessing_inflation_end q verbose s = Ok (s', end_warns) /\
  dict_get "_N_end" s' = Some (VF (fst (fst (fst end_values)))) /\ dict_get "phi_end" s' = Some (VF (snd (fst (fst end_values)))) /\
  dict_get "H_end" s' = Some (VF (snd (fst end_values))) /\ dict_get "V_end" s' = Some (VF (snd end_values)) /\
  dict_get "_logaH_end" s' = Some (VF (fadd (fst (fst (fst end_values))) (flog (snd (fst end_values))))) /\
  forall k, k <> "_N_end"%string -> k <> "phi_end"%string -> k <> "H_end"%string -> k <> "V_end"%string -> k <> "_logaH_end"%string -> dict_get k s' = dict_get k s.
Proof.
  unfold postprocessing_inflation_end, get_DT at 1, getattr at 1. gs. rewrite HNe. cbn [bind as_DT]. unfold end_values, end_warns, end_key.
  assert (FK : forall k, fired k dN = true -> exists v vs x xl y yl p pl, dict_get k dN = Some (v :: vs) /\ dict_get k dx = Some (x :: xl) /\ dict_get k dy = Some (y :: yl) /\ dict_get k dphi = Some (p :: pl)).
  { intros k F. unfold fired in F. destruct (dict_get k dN) as [[|v vs]|] eqn:E; try discriminate.
    destruct (HC _ _ _ E) as [x [xl [y [yl [p [pl [A [B C]]]]]]]]. exists v, vs, x, xl, y, yl, p, pl. auto. }
  destruct (fired "Inflation_dir-1_term1" dN) eqn:F1; [|destruct (fired "Inflation_dir-1_term0" dN) eqn:F0].
  - destruct (FK _ F1) as [v [vs [x [xl [y [yl [p [pl [A [B [C D]]]]]]]]]]]. rewrite A, B, C, D.
    rewrite (end_from_ok _ _ v vs x xl y yl p pl); [|gs; assumption..|exact A|exact B|exact C|exact D]. cbn [bind]. unfold get_F, getattr. gs. cbn [bind as_F].
    eexists. split; [reflexivity|]. gs. cbn [fst snd]. repeat split; try reflexivity.
    intros k K1 K2 K3 K4 K5. rewrite !get_set_neq by assumption. reflexivity.
  - destruct (FK _ F0) as [v [vs [x [xl [y [yl [p [pl [A [B [C D]]]]]]]]]]]. rewrite A, B, C, D.
    rewrite (end_from_ok _ _ v vs x xl y yl p pl); [|gs; assumption..|exact A|exact B|exact C|exact D]. cbn [bind]. unfold get_F, getattr. gs. cbn [bind as_F].
    eexists. split; [reflexivity|]. gs. cbn [fst snd]. repeat split; try reflexivity.
    intros k K1 K2 K3 K4 K5. rewrite !get_set_neq by assumption. reflexivity.
  - cbn [bind]. unfold get_F, getattr. gs. cbn [bind as_F].
    eexists. split; [reflexivity|]. gs. cbn [fst snd]. repeat split; try reflexivity.
    intros k K1 K2 K3 K4 K5. rewrite !get_set_neq by assumption. reflexivity.
Qed.
End Start.

Lemma columnwise_ok f xs ys : List.length xs = List.length ys -> columnwise f (map Fin xs) ys = Ok (zipw f xs ys).
Proof. revert ys; induction xs as [|x xs IH]; intros [|y ys] H; simpl in *; try discriminate; [reflexivity|]. rewrite IH by lia. reflexivity. Qed.

(** values read off the recorded events *)
Definition N_beg_of (q : eqs) (events : list event) (r : raw_sol) : fl * fl :=
  match recorded is_collapse events r with
  | _ :: _ => (NaN, NaN)
  | [] =>
    match r_t r, r_y r with
    | x0 :: _, y0 :: _ =>
      if (fle (Fin 0) (Fin (e_inflating q x0 y0)) || fle (Fin (e_w q x0 y0)) (Fin (-1/3)))%bool
      then (Fin (e_N q x0 y0), e_H q x0 y0)
      else match recorded (is_inflation 1 false) events r with
           | (x, y) :: _ => (Fin (e_N q x y), e_H q x y) | [] => (NaN, NaN) end
    | _, _ => (NaN, NaN)
    end
  end.
Definition end_record (events : list event) (r : raw_sol) : list (R * list R) :=
  match recorded (is_inflation (-1) true) events r with
  | [] => recorded (is_inflation (-1) false) events r
  | l => l
  end.
Definition N_end_of (q : eqs) (events : list event) (r : raw_sol) : fl * fl * fl * fl :=
  match end_record events r with
  | (x, y) :: _ => (Fin (e_N q x y), Fin (e_phi q x y), e_H q x y, Fin (e_V q (e_phi q x y)))
  | [] => (NaN, NaN, NaN, NaN)
  end.

Definition solved (q : eqs) (events : list event) (r : raw_sol) (s : attrs) : Prop :=
  let nb := fst (N_beg_of q events r) in let hb := snd (N_beg_of q events r) in
  let ne := fst (fst (fst (N_end_of q events r))) in let he := snd (fst (N_end_of q events r)) in
  let Ns := map Fin (zipw (e_N q) (r_t r) (r_y r)) in
  let H := map (fun h => fsqrt (Fin h)) (zipw (e_H2 q) (r_t r) (r_y r)) in
  let laH := zipw (fun n h => fadd n (flog h)) Ns H in
  dict_get "_N_beg" s = Some (VF nb) /\ dict_get "H_beg" s = Some (VF hb) /\
  dict_get "_logaH_beg" s = Some (VF (fadd nb (flog hb))) /\
  dict_get "_N_end" s = Some (VF ne) /\ dict_get "phi_end" s = Some (VF (snd (fst (fst (N_end_of q events r))))) /\
  dict_get "H_end" s = Some (VF he) /\ dict_get "V_end" s = Some (VF (snd (N_end_of q events r))) /\
  dict_get "_logaH_end" s = Some (VF (fadd ne (flog he))) /\
  dict_get "N_tot" s = Some (VF (fsub ne nb)) /\
  dict_get "K" s = Some (VF (Fin (e_K q))) /\
  dict_get "_N" s = Some (VA Ns) /\ dict_get "H" s = Some (VA H) /\ dict_get "_logaH" s = Some (VA laH) /\
  dict_get "Omega_K" s = Some (VA (map (fun a => fmul (Fin (- e_K q)) (fexp (fmul (Fin (-2)) a))) laH)) /\
  dict_get "inflation_mask" s = (if (isfinite nb && isfinite ne)%bool then Some (VB (map (fun n => (flt nb n && flt n ne)%bool) Ns)) else None).

Lemma key_start fmt_e e : event_name fmt_e e = "Inflation_dir1_term0"%string <-> is_inflation 1 false e = true.
Proof. exact (name_inflation fmt_e 1 false e). Qed.
Lemma key_end1 fmt_e e : event_name fmt_e e = "Inflation_dir-1_term1"%string <-> is_inflation (-1) true e = true.
Proof. exact (name_inflation fmt_e (-1) true e). Qed.
Lemma key_end0 fmt_e e : event_name fmt_e e = "Inflation_dir-1_term0"%string <-> is_inflation (-1) false e = true.
Proof. exact (name_inflation fmt_e (-1) false e). Qed.

Lemma solve_ok_more fmt_e q verbose events r : inflation_eqs q -> NoDup (map (event_name fmt_e) events) ->
  ivp_ok (List.length (e_idx q)) (List.length events) r ->
  exists s, solve fmt_e q verbose events r = Ok (s, 
     (match recorded is_collapse events r with
      | _ :: _ => vwarn verbose CollapseWarning
      | [] => match r_t r, r_y r with
              | x0 :: _, y0 :: _ =>
                 if (fle (Fin 0) (Fin (e_inflating q x0 y0)) || fle (Fin (e_w q x0 y0)) (Fin (-1/3)))%bool then []
                 else match recorded (is_inflation 1 false) events r with _ :: _ => [] | [] => vwarn verbose (InflationStartWarning true) end
              | _, _ => [] end
      end ++
      match end_record events r with _ :: _ => [] | [] => vwarn verbose (InflationEndWarning
         (negb (existsb (is_inflation (-1) true) events) && negb (existsb (is_inflation (-1) false) events))) end)%list) /\
    solved q events r s /\
    exists dN, dict_get "_N_events" s = Some (VDT dN) /\
      (forall j name te ye, nth_error (map (event_name fmt_e) events) j = Some name -> nth_error (r_t_events r) j = Some te ->
        nth_error (r_y_events r) j = Some ye -> dict_get name dN = Some (zipw (e_N q) te ye)) /\
      start_warning_untracked dN = true /\
      end_warning_untracked dN = (negb (existsb (is_inflation (-1) true) events) && negb (existsb (is_inflation (-1) false) events))%bool /\
      dict_get "w" s = Some (VA (map Fin (zipw (e_w q) (r_t r) (r_y r)))) /\
      dict_get "phi" s = Some (VA (map Fin (zipw (e_phi q) (r_t r) (r_y r)))).
Proof.
  intros Hq ND IV. rewrite <- (map_length (event_name fmt_e)) in IV.
  destruct (eqs_sol q _ r Hq ND IV) as [s0 [dN [dphi [dx [dy [E [Hx [Hy [HN [Hp [HNe [Hpe [Hxe [Hye [Hmask [Hno Hyes]]]]]]]]]]]]]]]].
  destruct IV as [I0 [I1 IV2]] eqn:EIV. pose proof (conj I0 (conj I1 IV2)) as IV'. fold (ivp_ok (List.length (e_idx q)) (List.length (map (event_name fmt_e) events)) r) in IV'. clear EIV IV.
  destruct (r_t r) as [|x0 xs'] eqn:Et; [congruence|]. destruct (r_y r) as [|y0 ys'] eqn:Ey; [discriminate|].
  set (keys := map (event_name fmt_e) events) in *.
  (* dictionaries versus records *)
  assert (GEN : forall p name, (forall e, event_name fmt_e e = name <-> p e = true) ->
     (recorded p events r = [] /\ fired name dN = false) \/
     (exists x xl y yl rest, recorded p events r = (x, y) :: rest /\ fired name dN = true /\
        dict_get name dx = Some (x :: xl) /\ dict_get name dy = Some (y :: yl) /\
        dict_get name dN = Some (e_N q x y :: zipw (e_N q) xl yl) /\ dict_get name dphi = Some (e_phi q x y :: zipw (e_phi q) xl yl))).
  { intros p name Hpn. destruct (record_cases fmt_e p name events r _ Hpn IV') as [[A B]|[j [te [ye [A [B [C [D F]]]]]]]].
    - left. split; [exact B|]. unfold fired. rewrite (Hno name A). reflexivity.
    - destruct (Hyes j name te ye A B C) as [D1 [D2 [D3 D4]]]. rewrite F.
      destruct te as [|x xl]; destruct ye as [|y yl]; try discriminate.
      + left. split; [reflexivity|]. unfold fired. rewrite D3. reflexivity.
      + right. exists x, xl, y, yl, (combine xl yl). unfold fired. rewrite D3. repeat split; auto. }
  assert (HC : forall k v vs, dict_get k dN = Some (v :: vs) -> exists x xl y yl p pl,
    dict_get k dx = Some (x :: xl) /\ dict_get k dy = Some (y :: yl) /\ dict_get k dphi = Some (p :: pl)).
  { intros k v vs Hk. assert (IK : In k keys). { destruct (in_dec string_dec k keys); [assumption|]. rewrite (Hno k n) in Hk. discriminate. }
    apply In_nth_error in IK. destruct IK as [j Hj]. assert (Lj : (j < List.length keys)%nat) by (apply nth_error_Some; congruence).
    destruct IV2 as [L1 [L2 _]]. 
    destruct (nth_error (r_t_events r) j) as [te|] eqn:T1; [|apply nth_error_None in T1; lia].
    destruct (nth_error (r_y_events r) j) as [ye|] eqn:T2; [|apply nth_error_None in T2; lia].
    destruct (Hyes j k te ye Hj T1 T2) as [D1 [D2 [D3 D4]]]. rewrite D3 in Hk.
    destruct te as [|x xl]; destruct ye as [|y yl]; try discriminate. exists x, xl, y, yl, (e_phi q x y), (zipw (e_phi q) xl yl). auto. }
  unfold solve, inflation_sol. fold keys. rewrite E. cbn [bind]. unfold get_A at 1. unfold getattr at 1. rewrite Hx. cbn [bind as_A].
  unfold getattr at 1. rewrite Hy. cbn [bind as_M snd]. rewrite columnwise_ok by (rewrite <- Et, <- Ey in I1 |- *; exact I1). cbn [bind].
  set (s1 := setattr "w" _ s0).
  cbn [zipw map] in HN.
  destruct (start_ok q verbose s1 (List.length (e_idx q)) dN dphi dx dy x0 xs' y0 ys' (e_w q x0 y0) (zipw (e_w q) xs' ys') (e_N q x0 y0) (zipw (e_N q) xs' ys')) as [s2 [E2 [B1 [B2 [B3 B4]]]]];
    try (unfold s1; gs; assumption); try exact HC.
  { unfold s1. gs. reflexivity. }
  rewrite E2. cbn [bind fst snd].
  destruct (end_ok q verbose s2 dN dphi dx dy) as [s3 [E3 [C1 [C2 [C3 [C4 [C5 C6]]]]]]]; try exact HC; try (rewrite B4 by discriminate; unfold s1; gs; assumption).
  rewrite E3. cbn [bind fst snd]. rewrite columnwise_ok by (rewrite <- Et, <- Ey in I1 |- *; exact I1). cbn [bind].
  unfold get_A, getattr. gs. rewrite C6 by discriminate. rewrite B4 by discriminate. unfold s1 at 1. gs. rewrite HN. cbn [bind as_A].
  unfold get_F, getattr. gs. rewrite C1. cbn [bind as_F]. gs. rewrite C6 by discriminate. rewrite B1. cbn [bind as_F].
  (* relate the values *)
  pose proof (GEN _ _ (name_collapse fmt_e)) as GC. pose proof (GEN _ _ (key_start fmt_e)) as GS.
  pose proof (GEN _ _ (key_end1 fmt_e)) as G1. pose proof (GEN _ _ (key_end0 fmt_e)) as G0.
  assert (VB : beg_values q dN dx dy x0 y0 (e_w q x0 y0) (e_N q x0 y0) = N_beg_of q events r).
  { unfold beg_values, N_beg_of. rewrite Et, Ey. destruct GC as [[A ->]|[? [? [? [? [? [A [-> _]]]]]]]]; rewrite A; [|reflexivity].
    destruct (fle (Fin 0) (Fin (e_inflating q x0 y0)) || fle (Fin (e_w q x0 y0)) (Fin (-1/3)))%bool; [reflexivity|].
    destruct GS as [[B F]|[x [xl [y [yl [rest [B [F [D1 [D2 [D3 D4]]]]]]]]]]]; rewrite B.
    - unfold fired in F. destruct (dict_get "Inflation_dir1_term0" dN) as [[|]|]; try discriminate; reflexivity.
    - rewrite D1, D2, D3. reflexivity. }
  assert (VE : end_values q dN dphi dx dy = N_end_of q events r /\ (match end_key dN with Some _ => true | None => false end) = (match end_record events r with [] => false | _ => true end)).
  { unfold end_values, end_key, N_end_of, end_record.
    destruct G1 as [[A ->]|[x [xl [y [yl [rest [A [-> [D1 [D2 [D3 D4]]]]]]]]]]]; rewrite A; [|rewrite D1, D2, D3, D4; split; reflexivity].
    destruct G0 as [[B ->]|[x [xl [y [yl [rest [B [-> [D1 [D2 [D3 D4]]]]]]]]]]]; rewrite B; [split; reflexivity|rewrite D1, D2, D3, D4; split; reflexivity]. }
  destruct VE as [VE VK].
  assert (KEY : forall p name, (forall e, event_name fmt_e e = name <-> p e = true) -> has_key name dN = existsb p events).
  { intros p name Hpn. unfold has_key. destruct (existsb p events) eqn:X.
    - apply existsb_exists in X. destruct X as [e [Hin He]]. apply Hpn in He.
      assert (IK : In name keys) by (rewrite <- He; apply in_map; exact Hin).
      apply In_nth_error in IK. destruct IK as [j Hj]. assert (Lj : (j < List.length keys)%nat) by (apply nth_error_Some; congruence).
      destruct IV2 as [L1 [L2 _]]. 
      destruct (nth_error (r_t_events r) j) as [te|] eqn:T1; [|apply nth_error_None in T1; lia].
      destruct (nth_error (r_y_events r) j) as [ye|] eqn:T2; [|apply nth_error_None in T2; lia].
      destruct (Hyes j name te ye Hj T1 T2) as [_ [_ [-> _]]]. reflexivity.
    - rewrite Hno; [reflexivity|]. intros C. apply in_map_iff in C. destruct C as [e [He Hin]]. apply Hpn in He.
      assert (existsb p events = true) by (apply existsb_exists; exists e; auto). congruence. }
  assert (SU : start_warning_untracked dN = true).
  { unfold start_warning_untracked. 
    assert (NK : forall t, has_key ("Inflation_dir+1_term" ++ fmt_b t) dN = false).
    { intros t. unfold has_key. rewrite Hno; [reflexivity|]. intros C. apply in_map_iff in C. destruct C as [e [He _]].
      destruct e; try discriminate He. cbn [event_name] in He. 
      change ("Inflation_dir+1_term" ++ fmt_b t)%string with ("Inflation_dir" ++ ("+1_term" ++ fmt_b t))%string in He.
      apply append_inj_l in He. unfold fmt_d in He. destruct (Z.to_int dir) as [u|u]; [destruct u; discriminate|discriminate]. }
    rewrite (NK true : has_key "Inflation_dir+1_term1" dN = false), (NK false : has_key "Inflation_dir+1_term0" dN = false). reflexivity. }
  assert (EU : end_warning_untracked dN = (negb (existsb (is_inflation (-1) true) events) && negb (existsb (is_inflation (-1) false) events))%bool).
  { unfold end_warning_untracked. rewrite (KEY _ _ (key_end1 fmt_e)), (KEY _ _ (key_end0 fmt_e)). reflexivity. }
  assert (WB : beg_warns q verbose dN x0 y0 (e_w q x0 y0) = (match recorded is_collapse events r with
      | _ :: _ => vwarn verbose CollapseWarning
      | [] => 
                 if (fle (Fin 0) (Fin (e_inflating q x0 y0)) || fle (Fin (e_w q x0 y0)) (Fin (-1/3)))%bool then []
                 else match recorded (is_inflation 1 false) events r with _ :: _ => [] | [] => vwarn verbose (InflationStartWarning true) end
      end)).
  { unfold beg_warns. rewrite SU. destruct GC as [[A ->]|[? [? [? [? [? [A [-> _]]]]]]]]; rewrite A; [|reflexivity].
    destruct (fle (Fin 0) (Fin (e_inflating q x0 y0)) || fle (Fin (e_w q x0 y0)) (Fin (-1/3)))%bool; [reflexivity|].
    destruct GS as [[B F]|[x [xl [y [yl [rest [B [F _]]]]]]]]; rewrite B, F; reflexivity. }
  assert (WE : end_warns verbose dN = match end_record events r with _ :: _ => [] | [] => vwarn verbose (InflationEndWarning
         (negb (existsb (is_inflation (-1) true) events) && negb (existsb (is_inflation (-1) false) events))) end).
  { unfold end_warns. rewrite EU. destruct (end_key dN); destruct (end_record events r); try discriminate; reflexivity. }
  rewrite WB, WE. eexists. split; [reflexivity|].
  unfold solved. rewrite Et, Ey. cbn [zipw map].
  rewrite VB in *. rewrite VE in *.
  assert (NM : dict_get "inflation_mask" s3 = None).
  { rewrite C6 by discriminate. rewrite B4 by discriminate. unfold s1. gs. exact Hmask. }
  match goal with |- _ /\ exists dN, dict_get "_N_events" ?st = _ /\ _ =>
    assert (EVN : dict_get "_N_events" st = Some (VDT dN)) end.
  { destruct (isfinite (fst (N_beg_of q events r)) && isfinite (fst (fst (fst (N_end_of q events r)))))%bool; gs;
    rewrite C6 by discriminate; rewrite B4 by discriminate; unfold s1; gs; assumption. }
  split; [|exists dN; split; [exact EVN|split; [intros j name te ye A1 A2 A3; exact (proj1 (proj2 (proj2 (Hyes j name te ye A1 A2 A3))))|]]; split; [exact SU|]; split; [exact EU|]; split].
  2,3: destruct (isfinite (fst (N_beg_of q events r)) && isfinite (fst (fst (fst (N_end_of q events r)))))%bool; gs;
    rewrite C6 by discriminate; rewrite B4 by discriminate; unfold s1; gs; try assumption; reflexivity.
  clear EVN.
  destruct (isfinite (fst (N_beg_of q events r)) && isfinite (fst (fst (fst (N_end_of q events r)))))%bool; gs;
  repeat match goal with |- _ /\ _ => split end; try reflexivity; try assumption; try (rewrite C6 by discriminate; try assumption; rewrite B4 by discriminate; unfold s1; gs; assumption).
Qed.
Lemma solve_ok_full fmt_e q verbose events r : inflation_eqs q -> NoDup (map (event_name fmt_e) events) ->
  ivp_ok (List.length (e_idx q)) (List.length events) r ->
  exists s, solve fmt_e q verbose events r = Ok (s, 
     (match recorded is_collapse events r with
      | _ :: _ => vwarn verbose CollapseWarning
      | [] => match r_t r, r_y r with
              | x0 :: _, y0 :: _ =>
                 if (fle (Fin 0) (Fin (e_inflating q x0 y0)) || fle (Fin (e_w q x0 y0)) (Fin (-1/3)))%bool then []
                 else match recorded (is_inflation 1 false) events r with _ :: _ => [] | [] => vwarn verbose (InflationStartWarning true) end
              | _, _ => [] end
      end ++
      match end_record events r with _ :: _ => [] | [] => vwarn verbose (InflationEndWarning
         (negb (existsb (is_inflation (-1) true) events) && negb (existsb (is_inflation (-1) false) events))) end)%list) /\
    solved q events r s /\
    exists dN, dict_get "_N_events" s = Some (VDT dN) /\
      forall j name te ye, nth_error (map (event_name fmt_e) events) j = Some name -> nth_error (r_t_events r) j = Some te ->
        nth_error (r_y_events r) j = Some ye -> dict_get name dN = Some (zipw (e_N q) te ye).
Proof.
  intros Hq ND IV. destruct (solve_ok_more fmt_e q verbose events r Hq ND IV) as [s [E [S [dN [EN [HJ _]]]]]]. exists s. split; [exact E|]. split; [exact S|]. exists dN. split; assumption.
Qed.
Lemma solve_ok fmt_e q verbose events r : inflation_eqs q -> NoDup (map (event_name fmt_e) events) ->
  ivp_ok (List.length (e_idx q)) (List.length events) r ->
  exists s, solve fmt_e q verbose events r = Ok (s, 
     (match recorded is_collapse events r with
      | _ :: _ => vwarn verbose CollapseWarning
      | [] => match r_t r, r_y r with
              | x0 :: _, y0 :: _ =>
                 if (fle (Fin 0) (Fin (e_inflating q x0 y0)) || fle (Fin (e_w q x0 y0)) (Fin (-1/3)))%bool then []
                 else match recorded (is_inflation 1 false) events r with _ :: _ => [] | [] => vwarn verbose (InflationStartWarning true) end
              | _, _ => [] end
      end ++
      match end_record events r with _ :: _ => [] | [] => vwarn verbose (InflationEndWarning
         (negb (existsb (is_inflation (-1) true) events) && negb (existsb (is_inflation (-1) false) events))) end)%list) /\
    solved q events r s.
Proof.
  intros Hq ND IV. destruct (solve_ok_full fmt_e q verbose events r Hq ND IV) as [s [E [S _]]]. exists s. split; assumption.
Qed.
