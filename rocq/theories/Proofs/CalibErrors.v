(** The errors of calibrate_scale_factor are the documented ones. *)
From Coq Require Import Reals List String ZArith Bool Lra Lia Classical.
From Verif Require Import Base Model.Equations Model.Background Model.Float Model.Solution Model.Interp Model.State Model.Reheating
  Model.ApproxPower Model.Calibrate Spec.CalibSpec Spec.CalibErrorSpec Proofs.BaseLemmas Proofs.FloatLemmas Proofs.DictLemmas Proofs.StateLemmas Proofs.CalibFrame
  Proofs.CalibPure Proofs.CalibPure2 Proofs.CalibPure3 Proofs.CalibRun Proofs.PowerRun Proofs.CalibResult Proofs.CalibTotal Properties.CalibProps.
Import ListNotations.
Open Scope R_scope.
Open Scope string_scope.

(** ** interpolation fails exactly outside the samples *)
Lemma In_insert p q l : In p (insert_x q l) <-> p = q \/ In p l.
Proof.
  induction l as [|a l IH]; cbn [insert_x In]; [intuition|]. destruct (Rle_dec (fst q) (fst a)); cbn [In]; [intuition|]. rewrite IH. intuition.
Qed.
Lemma In_sort p l : In p (sort_x l) <-> In p l.
Proof. induction l as [|a l IH]; cbn [sort_x In]; [tauto|]. rewrite In_insert, IH. intuition. Qed.
Fixpoint sortedx (l : list (R * R)) : Prop :=
  match l with p :: t => (forall p', In p' t -> fst p <= fst p') /\ sortedx t | [] => True end.
Lemma insert_sortedx q l : sortedx l -> sortedx (insert_x q l).
Proof.
  induction l as [|a l IH]; cbn [insert_x sortedx]; [intros _; split; [intros p []|exact I]|]. intros [H1 H2].
  destruct (Rle_dec (fst q) (fst a)) as [L|L].
  - cbn [sortedx]. split; [|split; assumption]. intros p [<-|J]; [exact L|]. specialize (H1 p J). lra.
  - cbn [sortedx]. split; [|apply IH, H2]. intros p J. apply In_insert in J. destruct J as [->|J]; [lra|]. apply H1, J.
Qed.
Lemma sort_sortedx l : sortedx (sort_x l).
Proof. induction l as [|a l IH]; cbn [sort_x]; [exact I|]. apply insert_sortedx, IH. Qed.
Lemma sorted_last l d : l <> [] -> sortedx l -> In (last l d) l /\ forall p, In p l -> fst p <= fst (last l d).
Proof.
  induction l as [|a l IH]; [contradiction|]. intros _ [H1 H2]. destruct l as [|b l]; [cbn; split; [auto|]; intros p [<-|[]]; lra|].
  destruct (IH ltac:(discriminate) H2) as [I1 I2]. change (last (a :: b :: l) d) with (last (b :: l) d). split; [right; exact I1|].
  intros p [<-|J]; [|apply I2, J]. apply H1, I1.
Qed.
Lemma interp_total l x : spanned (map fst l) x -> exists y, interp1d l x = Ok y.
Proof.
  intros [(y1 & I1 & L1) (y2 & I2 & L2)]. apply in_map_iff in I1, I2. destruct I1 as (p1 & <- & I1), I2 as (p2 & <- & I2).
  apply In_sort in I1, I2. unfold interp1d. pose proof (sort_sortedx l) as SO. destruct (sort_x l) as [|h t]; [contradiction|].
  destruct SO as [S1 S2]. destruct (sorted_last (h :: t) h ltac:(discriminate) (conj S1 S2)) as [_ SL].
  assert (fst h <= fst p1) by (destruct I1 as [<-|I1]; [lra|apply S1, I1]). specialize (SL p2 I2).
  destruct (Rlt_dec x (fst h)); [lra|]. destruct (Rlt_dec _ x); [lra|]. destruct t; eauto.
Qed.
Lemma interp_spanned l x y : interp1d l x = Ok y -> spanned (map fst l) x.
Proof.
  unfold interp1d. pose proof (sort_sortedx l) as SO. pose proof (fun p => proj1 (In_sort p l)) as IS. destruct (sort_x l) as [|h t]; [discriminate|].
  destruct (Rlt_dec x (fst h)); [discriminate|]. destruct (Rlt_dec _ x); [discriminate|]. intros _.
  destruct (sorted_last (h :: t) h ltac:(discriminate) SO) as [SL _].
  split; [exists (fst h); split; [apply in_map, IS; left; reflexivity|lra]|]. eexists. split; [apply in_map, IS, SL|lra].
Qed.
Lemma interp_error l x e : interp1d l x = Raise e -> e = ValueError.
Proof. unfold interp1d. destruct (sort_x l) as [|h t]; [congruence|]. destruct (Rlt_dec _ _); [congruence|]. destruct (Rlt_dec _ _); [congruence|]. destruct t; discriminate. Qed.
Lemma interp_cases l x : (exists y, interp1d l x = Ok y /\ spanned (map fst l) x) \/ (interp1d l x = Raise ValueError /\ ~ spanned (map fst l) x).
Proof.
  destruct (interp1d l x) as [y|e] eqn:E; [left; exists y; split; [reflexivity|eapply interp_spanned, E]|right].
  rewrite (interp_error _ _ _ E). split; [reflexivity|]. intros S. apply interp_total in S. destruct S as [y S]. congruence.
Qed.

(** ** samples *)
Lemma samplesN_masked b : List.length (b_H b) = List.length (b_N b) -> List.length (b_mask b) = List.length (b_N b) ->
  samplesN b = maskedN b /\ samplesL b = maskedL b.
Proof.
  unfold samplesN, samplesL, maskedN, maskedL, logaH. generalize (b_N b) (b_H b) (b_mask b). clear b.
  induction l as [|n N IH]; intros [|h H] [|m M] L1 L2; try discriminate; [split; reflexivity|].
  destruct (IH H M ltac:(cbn in L1; lia) ltac:(cbn in L2; lia)) as [E1 E2]. destruct m; cbn [used logaH_of select map fst snd]; rewrite ?E1, ?E2; split; reflexivity.
Qed.
Lemma masked_length b : List.length (b_H b) = List.length (b_N b) -> List.length (maskedN b) = List.length (maskedL b).
Proof.
  unfold maskedN, maskedL, logaH. generalize (b_N b) (b_H b) (b_mask b). clear b.
  induction l as [|n N IH]; intros [|h H] M L1; try discriminate; [destruct M as [|[] M]; reflexivity|].
  destruct M as [|[] M]; cbn [logaH_of select]; [reflexivity| |apply IH; cbn in L1; lia]. cbn [List.length]. f_equal. apply IH. cbn in L1; lia.
Qed.
Lemma fst_combine {A B} (l : list A) (l' : list B) : List.length l = List.length l' -> map fst (combine l l') = l.
Proof. revert l'; induction l as [|a l IH]; intros [|b l'] L; try discriminate; [reflexivity|]. cbn. f_equal. apply IH. cbn in L; lia. Qed.
Lemma retained_masked b x : List.length (b_H b) = List.length (b_N b) -> List.length (b_mask b) = List.length (b_N b) ->
  (retained b x <-> In x (maskedL (remask b))).
Proof.
  intros L1 L2. assert (L3 : List.length (logaH b) = List.length (b_N b)) by (apply logaH_length, L1). assert (L4 : List.length (b_mask b) = List.length (logaH b)) by congruence.
  unfold retained, maskedL, remask, umask. cbn [b_mask]. change (logaH (mkbg _ _ _ _ _ _ _ _ _)) with (logaH b). revert L4. generalize (logaH b) (b_mask b). clear.
  intros l m L.
  enough (G : forall l m seen, List.length m = List.length l ->
     (In x (select (zipw andb m (first_occ (map Fin seen) (map Fin l))) l) <->
      exists i, nth_error l i = Some x /\ nth_error m i = Some true /\ (forall j, (j < i)%nat -> nth_error l j <> Some x) /\ ~ In x seen)).
  { rewrite (G l m [] L). split; intros (i & H1 & H2 & H3); exists i; intuition. }
  clear. induction l as [|a l IH]; intros [|c m] seen L; try discriminate.
  { cbn. split; [intros []|intros (i & H & _); destruct i; discriminate]. }
  cbn [map first_occ zipw select].
  assert (ST : (exists i, nth_error (a :: l) i = Some x /\ nth_error (c :: m) i = Some true /\ (forall j, (j < i)%nat -> nth_error (a :: l) j <> Some x) /\ ~ In x seen) <->
    (x = a /\ c = true /\ ~ In a seen) \/ (exists i, nth_error l i = Some x /\ nth_error m i = Some true /\ (forall j, (j < i)%nat -> nth_error l j <> Some x) /\ ~ In x (a :: seen))).
  { split.
    - intros (i & H1 & H2 & H3 & H4). destruct i as [|i]; cbn [nth_error] in *.
      + left. injection H1 as ->. injection H2 as ->. auto.
      + right. exists i. split; [exact H1|]. split; [exact H2|]. split; [intros j J; apply (H3 (Datatypes.S j)); lia|]. intros [->|J]; [|contradiction]. apply (H3 0%nat); [lia|reflexivity].
    - intros [(-> & -> & H)|(i & H1 & H2 & H3 & H4)].
      + exists 0%nat. cbn. repeat split; auto. intros j J; lia.
      + exists (Datatypes.S i). cbn [nth_error]. split; [exact H1|]. split; [exact H2|]. split; [|intros J; apply H4; right; exact J].
        intros [|j] J; cbn [nth_error]; [intros [= ->]; apply H4; left; reflexivity|]. apply H3. lia. }
  rewrite ST. rewrite <- (IH m (a :: seen)) by (cbn in L; lia). cbn [map].
  destruct (existsb (same_fl (Fin a)) (map Fin seen)) eqn:EX; cbn [negb].
  - rewrite andb_false_r. apply existsb_first in EX. intuition.
  - rewrite andb_true_r. assert (NI : ~ In a seen) by (intros J; apply existsb_first in J; congruence). destruct c; cbn [In]; intuition; try congruence.
Qed.

(** ** the reheating keywords *)
Lemma instant_spec a :
  match is_instant_reheating (ca_N_star a) (ca_rho_reh_GeV a) (ca_w_reh a) (ca_DeltaN_reh a) (ca_DeltaN_minus1 a) with
  | Ok true => instant a
  | Ok false => extended a
  | Raise e => e = ValueError /\ contradictory a
  end.
Proof.
  pose proof (C45_instant_reheating (ca_N_star a) (ca_rho_reh_GeV a) (ca_w_reh a) (ca_DeltaN_reh a) (ca_DeltaN_minus1 a)) as X. cbv zeta in X. destruct X as (X1 & X2 & X3 & X4).
  destruct (is_instant_reheating _ _ _ _ _) as [[]|e] eqn:E.
  - apply X1. reflexivity.
  - apply X3. reflexivity.
  - rewrite (X4 e eq_refl). split; [reflexivity|]. apply X2. f_equal. apply X4. reflexivity.
Qed.
Lemma instant_excl a : (instant a -> ~ extended a) /\ (instant a -> ~ contradictory a) /\ (extended a -> ~ contradictory a).
Proof. unfold instant, extended, contradictory. tauto. Qed.
Lemma instant_true a : instant a -> is_instant_reheating (ca_N_star a) (ca_rho_reh_GeV a) (ca_w_reh a) (ca_DeltaN_reh a) (ca_DeltaN_minus1 a) = Ok true.
Proof. intros H. pose proof (instant_spec a) as X. destruct (instant_excl a) as (A & B & _). destruct (is_instant_reheating _ _ _ _ _) as [[]|e]; [reflexivity|destruct (A H X)|destruct (B H (proj2 X))]. Qed.
Lemma instant_false a : extended a -> is_instant_reheating (ca_N_star a) (ca_rho_reh_GeV a) (ca_w_reh a) (ca_DeltaN_reh a) (ca_DeltaN_minus1 a) = Ok false.
Proof. intros H. pose proof (instant_spec a) as X. destruct (instant_excl a) as (A & _ & B). destruct (is_instant_reheating _ _ _ _ _) as [[]|e]; [destruct (A X H)|reflexivity|destruct (B H (proj2 X))]. Qed.
Lemma instant_raise a : contradictory a -> is_instant_reheating (ca_N_star a) (ca_rho_reh_GeV a) (ca_w_reh a) (ca_DeltaN_reh a) (ca_DeltaN_minus1 a) = Raise ValueError.
Proof. intros H. pose proof (instant_spec a) as X. destruct (instant_excl a) as (_ & A & B). destruct (is_instant_reheating _ _ _ _ _) as [[]|e]; [destruct (A X H)|destruct (B X H)|destruct X as [-> _]; reflexivity]. Qed.
Lemma unphysical_bad a : unphysical a <-> bad_reheating a = true.
Proof.
  split; [|apply bad_true]. unfold unphysical, bad_reheating. intros [(d & -> & H)|(w & -> & H)].
  - destruct (Rlt_dec d 0); [reflexivity|lra].
  - destruct (Rlt_dec w (-1/3)); [apply orb_true_r|lra].
Qed.
Lemma given_or {A} (o : option A) : o = None \/ given o.
Proof. destruct o; [right; discriminate|left; reflexivity]. Qed.

Section Cases.
Variables (C : consts) (a : calargs) (b : bg).
Notation f1 := (fun w x => x / (3 * (1 + w))).
(** outcomes of the flat case distinction *)
Lemma flat_cases : match pure_reh_cases C a b with
  | Raise e => (e = ValueError /\ contradictory a) \/
               (e = NotImplementedError /\ extended a /\ given (ca_DeltaN_minus1 a) /\ (given (ca_w_reh a) \/ given (ca_DeltaN_reh a))) \/
               (e = ValueError /\ extended a /\ ca_DeltaN_minus1 a = None /\ ~ pair a)
  | Ok (dm, _, _, _) => flat_combination a /\ minus1 C f1 a b dm
  end.
Proof.
  unfold pure_reh_cases. pose proof (instant_spec a) as X. destruct (is_instant_reheating _ _ _ _ _) as [[]|e]; cbn [bind].
  - split; [left; exact X|constructor; exact X].
  - destruct (ca_DeltaN_minus1 a) as [dm|] eqn:ED.
    + destruct (ca_w_reh a) as [w|] eqn:EW; cbn [is_given is_none negb orb].
      { right; left. split; [reflexivity|]. split; [exact X|]. split; [discriminate|]. left. discriminate. }
      destruct (ca_DeltaN_reh a) as [dn|] eqn:EN; cbn [is_given is_none negb orb].
      { right; left. split; [reflexivity|]. split; [exact X|]. split; [discriminate|]. right. discriminate. }
      assert (Y : flat_combination a /\ minus1 C f1 a b dm).
      { split; [right; split; [exact X|]; left; rewrite ED, EW, EN; split; [discriminate|split; reflexivity]|]. apply m1_given; assumption. }
      destruct (ca_rho_reh_GeV a); exact Y.
    + destruct (ca_w_reh a) as [w|] eqn:EW; [destruct (ca_DeltaN_reh a) as [dn|] eqn:EN; destruct (ca_rho_reh_GeV a) as [rho|] eqn:ER|].
      * right; right. split; [reflexivity|]. split; [exact X|]. split; [reflexivity|]. unfold pair. rewrite EW, EN, ER. intros [(_ & _ & H)|(_ & H & _)]; discriminate.
      * split; [right; split; [exact X|]; right; split; [exact ED|]; left; rewrite EW, EN, ER; repeat split; discriminate|]. eapply m1_wN; eassumption.
      * split; [right; split; [exact X|]; right; split; [exact ED|]; right; rewrite EW, EN, ER; repeat split; discriminate|].
        apply (m1_wrho C f1 a b w rho); assumption.
      * right; right. split; [reflexivity|]. split; [exact X|]. split; [reflexivity|]. unfold pair. rewrite EW, EN, ER. intros [(_ & H & _)|(_ & _ & H)]; apply H; reflexivity.
      * right; right. split; [reflexivity|]. split; [exact X|]. split; [reflexivity|]. unfold pair. rewrite EW. intros [(H & _)|(H & _)]; apply H; reflexivity.
  - left. exact X.
Qed.
Lemma minus1_unique dm dm' : flat_combination a -> minus1 C f1 a b dm -> minus1 C f1 a b dm' -> dm = dm'.
Proof.
  intros FC H H'. destruct (instant_excl a) as (A & _).
  destruct FC as [I|[X FC]].
  - inversion H; inversion H'; try reflexivity; exfalso; eapply A; eassumption.
  - inversion H; inversion H'; subst; try reflexivity; try (exfalso; eapply A; eassumption); try congruence.
    all: destruct FC as [(HH & _)|[_ [(_ & _ & HK)|(_ & HK & _)]]]; [destruct HH; assumption|congruence|congruence].
Qed.
Lemma curved_cases : match pure_curved_cases C a b with
  | Raise e => (e = ValueError /\ contradictory a) \/ (e = ValueError /\ extended a /\ ~ pair a)
  | Ok (dm, _, _, _, _) => (instant a \/ (extended a /\ pair a)) /\ minus1_curved C a b dm
  end.
Proof.
  unfold pure_curved_cases. pose proof (instant_spec a) as X. destruct (is_instant_reheating _ _ _ _ _) as [[]|e]; cbn [bind].
  - split; [left; exact X|constructor; exact X].
  - destruct (ca_w_reh a) as [w|] eqn:EW; [destruct (ca_DeltaN_reh a) as [dn|] eqn:EN; destruct (ca_rho_reh_GeV a) as [rho|] eqn:ER|].
      * right. split; [reflexivity|]. split; [exact X|]. unfold pair. rewrite EW, EN, ER. intros [(_ & _ & H)|(_ & H & _)]; discriminate.
      * split; [right; split; [exact X|]; left; rewrite EW, EN, ER; repeat split; discriminate|]. eapply mc_wN; eassumption.
      * split; [right; split; [exact X|]; right; rewrite EW, EN, ER; repeat split; discriminate|].
        apply (mc_wrho C a b w rho); assumption.
      * right. split; [reflexivity|]. split; [exact X|]. unfold pair. rewrite EW, EN, ER. intros [(_ & H & _)|(_ & _ & H)]; apply H; reflexivity.
      * right. split; [reflexivity|]. split; [exact X|]. unfold pair. rewrite EW. intros [(H & _)|(H & _)]; apply H; reflexivity.
  - left. exact X.
Qed.
Lemma minus1_curved_unique dm dm' : instant a \/ (extended a /\ pair a) -> minus1_curved C a b dm -> minus1_curved C a b dm' -> dm = dm'.
Proof.
  intros FC H H'. destruct (instant_excl a) as (A & _).
  destruct FC as [I|[X FC]].
  - inversion H; inversion H'; try reflexivity; exfalso; eapply A; eassumption.
  - inversion H; inversion H'; subst; try reflexivity; try (exfalso; eapply A; eassumption); try congruence;
    destruct FC as [(_ & _ & K)|(_ & K & _)]; congruence.
Qed.
End Cases.
Lemma lgg_dof C a : lgg C a = log_dof C a. Proof. reflexivity. Qed.
Lemma lgV_V C V : lgV C V = log_V C V. Proof. reflexivity. Qed.

(** ** flat universes *)
Section Flat.
Variables (C : consts) (a : calargs) (b : bg).
Hypothesis L1 : List.length (b_H b) = List.length (b_N b).
Hypothesis L2 : List.length (b_mask b) = List.length (b_N b).
Lemma no_curv_cases : (no_curvature a /\ match ca_Omega_K0 a with Some o => if Req_EM_T o 0 then Ok tt else Raise ValueError | None => Ok tt end = Ok tt) \/
  (exists om, ca_Omega_K0 a = Some om /\ om <> 0 /\ match ca_Omega_K0 a with Some o => if Req_EM_T o 0 then Ok tt else Raise ValueError | None => Ok tt end = Raise ValueError).
Proof.
  unfold no_curvature. destruct (ca_Omega_K0 a) as [o|]; [|left; auto]. destruct (Req_EM_T o 0) as [->|N]; [left; auto|right; eauto].
Qed.
Lemma spanN x : spanned (map fst (combine (maskedN b) (maskedL b))) x <-> spanned (samplesN b) x.
Proof. destruct (samplesN_masked b L1 L2) as [-> _]. rewrite fst_combine by (apply masked_length, L1). tauto. Qed.
Lemma spanL x : spanned (map fst (combine (maskedL b) (maskedN b))) x <-> spanned (samplesL b) x.
Proof. destruct (samplesN_masked b L1 L2) as [_ ->]. rewrite fst_combine by (symmetry; apply masked_length, L1). tauto. Qed.
Lemma pivot_eq dm : 0 + lgK C - (base_end C a b - dm - b_end b) = pivot_flat C a b dm.
Proof. unfold pivot_flat, base_end, lgK. rewrite lgg_dof, lgV_V. ring. Qed.
Lemma pivot_star ns ls w : 4 * (0 - ns - ln (K_STAR_lp C / exp (ls - (b_end b - ns))) - lgg C a - lgV C (b_Vend b)) / (1 - 3 * w) = implied_duration C a b ns ls w.
Proof. unfold implied_duration. rewrite lgg_dof, lgV_V. f_equal. ring. Qed.

Theorem flat_raise e : pure_first C a 0 b = Raise e -> flat_reject C a b e.
Proof.
  unfold pure_first. destruct (Req_EM_T 0 0) as [_|]; [|lra].
  destruct no_curv_cases as [[NC ->]|(om & E & N & ->)]; cbn [bind]; [|intros [= <-]; eapply fr_curvature; eassumption].
  change (match ca_method a with Some x => x | None => "N_star" end) with (flat_method a). cbv zeta.
  destruct (String.eqb_spec (flat_method a) "N_star") as [M|M].
  - unfold pure_N_star. destruct (ca_N_star a) as [ns|] eqn:ENS; [|intros [= <-]; apply fr_star; auto].
    destruct (Rle_dec ns 0); [intros [= <-]; apply fr_star; eauto|].
    destruct (Rlt_dec _ ns); [intros [= <-]; apply fr_insufficient with ns; auto; lra|]. cbv zeta.
    assert (SO : star_ok a b ns) by (split; [exact ENS|lra]).
    destruct (interp_cases (combine (maskedN b) (maskedL b)) (b_end b - ns)) as [(ls & EI & SP)|[EI SP]]; rewrite EI; cbn [bind]; rewrite spanN in SP.
    2:{ intros [= <-]. apply fr_unsampled with ns; auto. }
    unfold pure_N_star_reh. destruct (ca_rho_reh_GeV a) as [rho|] eqn:ER, (ca_w_reh a) as [w|] eqn:EW, (ca_DeltaN_reh a) as [dn|] eqn:EN; cbn [bind]; try discriminate;
      try (intros [= <-]; apply fr_star_many with ns; auto; rewrite ?ER, ?EW, ?EN; solve [left; discriminate|right; split; discriminate]).
    assert (EI' : interp1d (combine (samplesN b) (samplesL b)) (b_end b - ns) = Ok ls) by (destruct (samplesN_masked b L1 L2) as [-> ->]; exact EI).
    destruct (Req_EM_T w (1/3)); [intros [= <-]; apply fr_star_w with ns ls w; auto|].
    rewrite pivot_star. destruct (Rlt_dec _ 0); [intros [= <-]; apply fr_star_w with ns ls w; auto|].
    destruct (Rlt_dec _ _); [intros [= <-]; apply fr_star_w with ns ls w; auto|]. discriminate.
  - destruct (String.eqb_spec (flat_method a) "reheating") as [M'|M']; [|intros [= <-]; apply fr_method; assumption].
    unfold pure_flat_reheating. destruct (bad_reheating a) eqn:BR; [intros [= <-]; apply fr_unphysical; auto; apply unphysical_bad, BR|].
    assert (NU : ~ unphysical a) by (rewrite unphysical_bad; congruence).
    pose proof (flat_cases C a b) as FC. destruct (pure_reh_cases C a b) as [[[[dm dn] w] rho]|e']; cbn [bind fst snd].
    + destruct FC as [FC M1]. cbv zeta. rewrite pivot_eq.
      destruct (Rlt_dec _ _); [intros [= <-]; apply fr_window with dm; auto|].
      destruct (Rlt_dec _ _); [intros [= <-]; apply fr_window with dm; auto|].
      destruct (interp_cases (combine (maskedL b) (maskedN b)) (pivot_flat C a b dm)) as [(nc & EI & SP)|[EI SP]]; rewrite EI; cbn [bind]; [discriminate|].
      rewrite spanL in SP. intros [= <-]. apply fr_window_unsampled with dm; auto; lra.
    + intros [= <-]. destruct FC as [[-> FC]|[(-> & F1 & F2 & F3)|(-> & F1 & F2 & F3)]].
      * apply fr_contradictory; auto.
      * apply fr_agnostic; auto.
      * apply fr_combination; auto.
Qed.
Lemma curv_ok : no_curvature a -> match ca_Omega_K0 a with Some o => if Req_EM_T o 0 then Ok tt else Raise ValueError | None => Ok tt end = Ok tt.
Proof. intros [-> | ->]; [reflexivity|]. destruct (Req_EM_T 0 0); [reflexivity|lra]. Qed.
Lemma reh_cases_ok dm : flat_combination a -> minus1 C (fun w x => x / (3 * (1 + w))) a b dm -> exists x y z, pure_reh_cases C a b = Ok (dm, x, y, z).
Proof.
  intros F M. pose proof (flat_cases C a b) as FC. destruct (pure_reh_cases C a b) as [[[[dm' x] y] z]|e].
  - destruct FC as [_ M']. rewrite (minus1_unique C a b dm dm' F M M'). eauto.
  - exfalso. destruct (instant_excl a) as (X1 & X2 & X3). destruct FC as [[_ FC]|[(_ & F1 & F2 & F3)|(_ & F1 & F2 & F3)]].
    + destruct F as [F|[F _]]; [apply (X2 F FC)|apply (X3 F FC)].
    + destruct F as [F|[_ [(_ & F & F')|[F _]]]]; [apply (X1 F F1)| |apply F2, F]. destruct F3 as [F3|F3]; contradiction.
    + destruct F as [F|[_ [(F & _)|[_ F]]]]; [apply (X1 F F1)|apply F, F2|contradiction].
Qed.
Theorem flat_reject_raise e : flat_reject C a b e -> pure_first C a 0 b = Raise e.
Proof.
  intros H. unfold pure_first. destruct (Req_EM_T 0 0) as [_|]; [|lra].
  change (match ca_method a with Some x => x | None => "N_star" end) with (flat_method a).
  destruct H as [om E N|NC M M'|NC M NS|ns NC M ENS P L|ns NC M [ENS P] SP|ns NC M [ENS P] SP MANY|ns ls w NC M [ENS P] EI ED ER EW HW
    |NC M U|NC M U X|NC M U X G G'|NC M U X G G'|dm NC M U FC M1 OUT|dm NC M U FC M1 IN SP].
  - rewrite E. destruct (Req_EM_T om 0); [contradiction|reflexivity].
  - rewrite (curv_ok NC). cbn [bind]. cbv zeta. destruct (String.eqb_spec (flat_method a) "N_star"); [contradiction|]. destruct (String.eqb_spec (flat_method a) "reheating"); [contradiction|reflexivity].
  - rewrite (curv_ok NC), M. cbn. unfold pure_N_star. destruct NS as [-> | (ns & -> & L)]; [reflexivity|]. destruct (Rle_dec ns 0); [reflexivity|contradiction].
  - rewrite (curv_ok NC), M. cbn. unfold pure_N_star. rewrite ENS. destruct (Rle_dec ns 0); [lra|]. destruct (Rlt_dec _ ns); [reflexivity|contradiction].
  - rewrite (curv_ok NC), M. cbn. unfold pure_N_star. rewrite ENS. destruct (Rle_dec ns 0); [lra|]. destruct (Rlt_dec _ ns); [lra|].
    destruct (interp_cases (combine (maskedN b) (maskedL b)) (b_end b - ns)) as [(ls & EI & SP')|[EI SP']]; rewrite EI; [|reflexivity]. exfalso. apply SP, spanN, SP'.
  - rewrite (curv_ok NC), M. cbn. unfold pure_N_star. rewrite ENS. destruct (Rle_dec ns 0); [lra|]. destruct (Rlt_dec _ ns); [lra|].
    apply spanN, interp_total in SP. destruct SP as [ls ->]. cbn [bind]. unfold pure_N_star_reh.
    destruct MANY as [H|[H H']].
    + destruct (ca_DeltaN_reh a); [|destruct H; reflexivity]. destruct (ca_rho_reh_GeV a), (ca_w_reh a); reflexivity.
    + destruct (ca_w_reh a); [|destruct H; reflexivity]. destruct (ca_rho_reh_GeV a); [|destruct H'; reflexivity]. reflexivity.
  - rewrite (curv_ok NC), M. cbn. unfold pure_N_star. rewrite ENS. destruct (Rle_dec ns 0); [lra|]. destruct (Rlt_dec _ ns); [lra|].
    destruct (samplesN_masked b L1 L2) as [EN EL]. rewrite EN, EL in EI. rewrite EI. cbn [bind]. unfold pure_N_star_reh. rewrite ER, EW, ED.
    cbv zeta. rewrite pivot_star. destruct (Req_EM_T w (1/3)); [reflexivity|]. destruct (Rlt_dec _ 0); [reflexivity|]. destruct (Rlt_dec w (-1/3)); [reflexivity|]. exfalso. tauto.
  - rewrite (curv_ok NC), M. cbn. unfold pure_flat_reheating. apply unphysical_bad in U. rewrite U. reflexivity.
  - rewrite (curv_ok NC), M. cbn. unfold pure_flat_reheating. rewrite unphysical_bad in U. destruct (bad_reheating a); [destruct U; reflexivity|].
    unfold pure_reh_cases. rewrite (instant_raise a X). reflexivity.
  - rewrite (curv_ok NC), M. cbn. unfold pure_flat_reheating. rewrite unphysical_bad in U. destruct (bad_reheating a); [destruct U; reflexivity|].
    unfold pure_reh_cases. rewrite (instant_false a X). cbn [bind]. destruct (ca_DeltaN_minus1 a); [|destruct G; reflexivity].
    destruct G' as [G'|G']; [destruct (ca_w_reh a); [reflexivity|destruct G'; reflexivity]|]. destruct (ca_DeltaN_reh a); [|destruct G'; reflexivity]. destruct (ca_w_reh a); reflexivity.
  - rewrite (curv_ok NC), M. cbn. unfold pure_flat_reheating. rewrite unphysical_bad in U. destruct (bad_reheating a); [destruct U; reflexivity|].
    unfold pure_reh_cases. rewrite (instant_false a X). cbn [bind]. rewrite G. unfold pair, given in G'.
    destruct (ca_w_reh a); [|reflexivity]. destruct (ca_DeltaN_reh a), (ca_rho_reh_GeV a); try reflexivity; exfalso; apply G'; [left|right]; repeat split; discriminate.
  - rewrite (curv_ok NC), M. cbn. unfold pure_flat_reheating. rewrite unphysical_bad in U. destruct (bad_reheating a); [destruct U; reflexivity|].
    destruct (reh_cases_ok dm FC M1) as (x & y & z & ->). cbn [bind fst snd]. cbv zeta. rewrite pivot_eq.
    destruct (Rlt_dec _ _); [reflexivity|]. destruct (Rlt_dec _ _); [reflexivity|]. exfalso. destruct OUT; lra.
  - rewrite (curv_ok NC), M. cbn. unfold pure_flat_reheating. rewrite unphysical_bad in U. destruct (bad_reheating a); [destruct U; reflexivity|].
    destruct (reh_cases_ok dm FC M1) as (x & y & z & ->). cbn [bind fst snd]. cbv zeta. rewrite pivot_eq.
    destruct (Rlt_dec _ _); [lra|]. destruct (Rlt_dec _ _); [lra|].
    destruct (interp_cases (combine (maskedL b) (maskedN b)) (pivot_flat C a b dm)) as [(nc & EI & SP')|[EI SP']]; rewrite EI; [|reflexivity]. exfalso. apply SP, spanL, SP'.
Qed.
End Flat.

(** ** curved universes *)
Section Curved.
Variables (C : consts) (a : calargs) (b : bg).
Hypothesis L1 : List.length (b_H b) = List.length (b_N b).
Hypothesis L2 : List.length (b_mask b) = List.length (b_N b).
Hypothesis HK : b_K b = 1 \/ b_K b = -1.
Lemma sign_ok om : curvature_ok b om <-> om <> 0 /\ np_sign om = - b_K b.
Proof.
  unfold curvature_ok, np_sign. destruct HK as [-> | ->]; destruct (Rlt_dec 0 om); [split; [lra|intros [_ H]; lra]| |split; [intros; split; lra|intros; lra]|].
  - destruct (Rlt_dec om 0); split; intros; try split; lra.
  - destruct (Rlt_dec om 0); split; intros H; try split; try lra; destruct H; lra.
Qed.
Lemma lmin_spec h t : In (lmin h t) (h :: t) /\ forall x, In x (h :: t) -> lmin h t <= x.
Proof.
  unfold lmin. revert h; induction t as [|y t IH]; intros h; cbn [fold_left].
  - split; [left; reflexivity|]. intros x [<-|[]]. lra.
  - destruct (IH (Rmin h y)) as [I1 I2]. split.
    + destruct I1 as [E|I1]; [|right; right; exact I1]. unfold Rmin in *. destruct (Rle_dec h y); [left; exact E|right; left; exact E].
    + pose proof (I2 (Rmin h y) (or_introl eq_refl)). pose proof (Rmin_l h y). pose proof (Rmin_r h y). intros x [<-|[<-|J]]; [lra|lra|]. apply I2. right. exact J.
Qed.
Lemma lmax_spec h t : In (lmax h t) (h :: t) /\ forall x, In x (h :: t) -> x <= lmax h t.
Proof.
  unfold lmax. revert h; induction t as [|y t IH]; intros h; cbn [fold_left].
  - split; [left; reflexivity|]. intros x [<-|[]]. lra.
  - destruct (IH (Rmax h y)) as [I1 I2]. split.
    + destruct I1 as [E|I1]; [|right; right; exact I1]. unfold Rmax in *. destruct (Rle_dec h y); [right; left; exact E|left; exact E].
    + pose proof (I2 (Rmax h y) (or_introl eq_refl)). pose proof (Rmax_l h y). pose proof (Rmax_r h y). intros x [<-|[<-|J]]; [lra|lra|]. apply I2. right. exact J.
Qed.
(** outcome of the last part *)
Lemma finish_cases ko : match pure_finish C b ko with
  | Ok _ => pivot_curved C b (k_a0M ko)
  | Raise e => (e = ValueError /\ forall x, ~ retained b x) \/ (e = InsufficientInflationError /\ (exists x, retained b x) /\ ~ pivot_curved C b (k_a0M ko))
  end.
Proof.
  assert (RM : forall x, retained b x <-> In x (maskedL (remask b))) by (intros x; apply retained_masked; assumption).
  unfold pure_finish. cbv zeta. set (g := fun x => x - ln (k_a0M ko)).
  assert (LEN : List.length (map g (maskedL (remask b))) = List.length (maskedN (remask b))).
  { rewrite map_length. symmetry. apply masked_length. exact L1. }
  assert (PV : pivot_curved C b (k_a0M ko) <-> spanned (map g (maskedL (remask b))) (ln (K_STAR C))).
  { unfold pivot_curved, spanned. split; intros [(x & H1 & H2) (y & H3 & H4)].
    - apply RM in H1, H3. split; [exists (g x)|exists (g y)]; (split; [apply in_map; assumption|unfold g; lra]).
    - apply in_map_iff in H1, H3. destruct H1 as (x' & <- & H1), H3 as (y' & <- & H3). split; [exists x'|exists y']; (split; [apply RM; assumption|unfold g in *; lra]). }
  destruct (map g (maskedL (remask b))) as [|h t] eqn:EM.
  { left. split; [reflexivity|]. intros x R. apply RM in R. apply map_eq_nil in EM. rewrite EM in R. destruct R. }
  assert (NE : exists x, retained b x).
  { destruct (maskedL (remask b)) as [|x l] eqn:EL; [discriminate|]. exists x. apply RM. left. reflexivity. }
  destruct (lmin_spec h t) as [M1 M2], (lmax_spec h t) as [M3 M4].
  destruct (Rlt_dec _ _) as [N|N].
  { right. split; [reflexivity|]. split; [exact NE|]. rewrite PV. intros [(x & H1 & H2) _]. specialize (M2 x H1). lra. }
  destruct (Rlt_dec _ _) as [N'|N'].
  { right. split; [reflexivity|]. split; [exact NE|]. rewrite PV. intros [_ (x & H1 & H2)]. specialize (M4 x H1). lra. }
  assert (SP : spanned (h :: t) (ln (K_STAR C))) by (split; [exists (lmin h t)|exists (lmax h t)]; (split; [assumption|lra])).
  assert (SP' : spanned (map fst (combine (h :: t) (maskedN (remask b)))) (ln (K_STAR C))) by (rewrite fst_combine by exact LEN; exact SP).
  apply interp_total in SP'. destruct SP' as [y ->]. cbn [bind]. apply PV, SP.
Qed.
Lemma Omega_cases h : match pure_Omega C a h b with
  | Ok ko => exists om, ca_Omega_K0 a = Some om /\ curvature_ok b om /\ k_a0M ko = a0_of_Omega C h (b_K b) om
  | Raise e => e = ValueError /\ (ca_Omega_K0 a = None \/ exists om, ca_Omega_K0 a = Some om /\ ~ curvature_ok b om)
  end.
Proof.
  unfold pure_Omega. destruct (ca_Omega_K0 a) as [om|]; [|split; auto].
  destruct (Req_EM_T om 0) as [E|N]; [split; [reflexivity|right; exists om; split; [reflexivity|rewrite sign_ok; tauto]]|].
  destruct (Req_EM_T (np_sign om) (- b_K b)) as [S|S]; [|split; [reflexivity|right; exists om; split; [reflexivity|rewrite sign_ok; tauto]]].
  assert (CO : curvature_ok b om) by (apply sign_ok; split; assumption).
  destruct (ca_rho_reh_GeV a); exists om; (split; [reflexivity|split; [exact CO|reflexivity]]).
Qed.
Lemma reheating_cases h : match pure_curved_reheating C a h b with
  | Ok ko => ca_Omega_K0 a = None /\ ~ unphysical a /\ (instant a \/ (extended a /\ pair a)) /\
      exists dm, minus1_curved C a b dm /\ k_a0M ko = exp (b_end b + log_dof C a + log_V C (b_Vend b) + dm) * lp_m C / Mpc_m C
  | Raise e => e = ValueError /\ (given (ca_Omega_K0 a) \/ (ca_Omega_K0 a = None /\ unphysical a) \/
      (ca_Omega_K0 a = None /\ ~ unphysical a /\ contradictory a) \/ (ca_Omega_K0 a = None /\ ~ unphysical a /\ extended a /\ ~ pair a))
  end.
Proof.
  unfold pure_curved_reheating. destruct (ca_Omega_K0 a) as [om|]; cbn [is_given is_none negb]; [split; [reflexivity|left; discriminate]|].
  destruct (bad_reheating a) eqn:BR; [split; [reflexivity|right; left; split; [reflexivity|apply unphysical_bad, BR]]|].
  assert (NU : ~ unphysical a) by (rewrite unphysical_bad; congruence).
  pose proof (curved_cases C a b) as CC. destruct (pure_curved_cases C a b) as [[[[[dm nr] dn] w] rho]|e]; cbn [bind].
  - destruct CC as [CC M]. split; [reflexivity|]. split; [exact NU|]. split; [exact CC|]. exists dm. split; [exact M|reflexivity].
  - destruct CC as [[-> CC]|(-> & CC & NP)]; (split; [reflexivity|tauto]).
Qed.
Theorem curved_raise e : pure_first C a (b_K b) b = Raise e -> curved_reject C a b e.
Proof.
  unfold pure_first. destruct (Req_EM_T (b_K b) 0) as [E|_]; [destruct HK; lra|].
  destruct (ca_N_star a) as [ns|] eqn:ENS; cbn [is_given is_none negb]; [intros [= <-]; apply cr_star; rewrite ENS; discriminate|].
  destruct (ca_h a) as [h|] eqn:EH; [|intros [= <-]; apply cr_h; auto]. destruct (Rle_dec h 0); [intros [= <-]; apply cr_h; eauto|].
  assert (HH : hubble a h) by (split; [assumption|split; [assumption|lra]]).
  change (match ca_method a with Some x => x | None => "Omega_K0" end) with (curved_method a). cbv zeta.
  assert (FIN : forall ko, a0_calibration C a b h (k_a0M ko) -> pure_finish C b ko = Raise e -> curved_reject C a b e).
  { intros ko A E. pose proof (finish_cases ko) as F. rewrite E in F. destruct F as [[-> F]|(-> & (x & F) & F')]; [eapply cr_nothing|eapply cr_window]; eassumption. }
  destruct (String.eqb_spec (curved_method a) "Omega_K0") as [M|M].
  - pose proof (Omega_cases h) as OC. destruct (pure_Omega C a h b) as [ko|e']; cbn [bind].
    + destruct OC as (om & E1 & E2 & E3). apply FIN. rewrite E3. eapply a0_Omega; eassumption.
    + intros [= <-]. destruct OC as [-> [OC|(om & E1 & E2)]]; [eapply cr_missing|eapply cr_sign]; eassumption.
  - destruct (String.eqb_spec (curved_method a) "reheating") as [M'|M']; [|cbn; intros [= <-]; eapply cr_method; eassumption].
    pose proof (reheating_cases h) as OC. destruct (pure_curved_reheating C a h b) as [ko|e']; cbn [bind].
    + destruct OC as (E1 & E2 & E3 & dm & E4 & E5). apply FIN. rewrite E5. eapply a0_reheating; eassumption.
    + intros [= <-]. destruct OC as [-> [OC|[(O1 & O2)|[(O1 & O2 & O3)|(O1 & O2 & O3 & O4)]]]]; [eapply cr_both|eapply cr_unphysical|eapply cr_contradictory|eapply cr_combination]; eassumption.
Qed.
Lemma calibration_ko h am : hubble a h -> a0_calibration C a b h am ->
  exists ko, k_a0M ko = am /\ pure_first C a (b_K b) b = pure_finish C b ko.
Proof.
  intros (H1 & H2 & H3) A. unfold pure_first. destruct (Req_EM_T (b_K b) 0) as [E|_]; [destruct HK; lra|]. rewrite H1, H2. cbn [is_given is_none negb].
  destruct (Rle_dec h 0); [lra|]. change (match ca_method a with Some x => x | None => "Omega_K0" end) with (curved_method a). cbv zeta.
  destruct A as [om M EO CO|dm M EO NU IE MC]; rewrite M; cbn [String.eqb Ascii.eqb Bool.eqb].
  - pose proof (Omega_cases h) as OC. destruct (pure_Omega C a h b) as [ko|e'].
    + destruct OC as (om' & E1 & _ & E3). exists ko. cbn [bind]. split; [rewrite E3; congruence|reflexivity].
    + exfalso. destruct OC as [_ [OC|(om' & E1 & E2)]]; [congruence|]. apply E2. congruence.
  - pose proof (reheating_cases h) as OC. destruct (pure_curved_reheating C a h b) as [ko|e'].
    + destruct OC as (_ & _ & _ & dm' & E4 & E5). exists ko. cbn [bind]. split; [rewrite E5; rewrite (minus1_curved_unique C a b dm dm' IE MC E4); reflexivity|reflexivity].
    + exfalso. destruct (instant_excl a) as (X1 & X2 & X3).
      destruct OC as [_ [OC|[(O1 & O2)|[(O1 & O2 & O3)|(O1 & O2 & O3 & O4)]]]]; [apply OC, EO|contradiction| |].
      * destruct IE as [IE|[IE _]]; [apply (X2 IE O3)|apply (X3 IE O3)].
      * destruct IE as [IE|[_ IE]]; [apply (X1 IE O3)|contradiction].
Qed.
Theorem curved_reject_raise e : curved_reject C a b e -> pure_first C a (b_K b) b = Raise e.
Proof.
  intros H. assert (NK : b_K b <> 0) by (destruct HK as [-> | ->]; lra).
  assert (CM : forall h, hubble a h -> pure_first C a (b_K b) b =
    (do ko <- (if String.eqb (curved_method a) "Omega_K0" then pure_Omega C a h b else if String.eqb (curved_method a) "reheating" then pure_curved_reheating C a h b else Raise NotImplementedError); pure_finish C b ko)).
  { intros h (H1 & H2 & H3). unfold pure_first. destruct (Req_EM_T (b_K b) 0); [contradiction|]. rewrite H1, H2. cbn [is_given is_none negb]. destruct (Rle_dec h 0); [lra|]. reflexivity. }
  destruct H as [G|NS EH|h HH M M'|h HH M E|h om HH M E S|h HH M G|h HH M E U|h HH M E U X|h HH M E U X P|h am HH A NR|h am x HH A R NP].
  - unfold pure_first. destruct (Req_EM_T (b_K b) 0); [contradiction|]. destruct (ca_N_star a); [reflexivity|destruct G; reflexivity].
  - unfold pure_first. destruct (Req_EM_T (b_K b) 0); [contradiction|]. rewrite NS. cbn [is_given is_none negb].
    destruct EH as [-> | (h & -> & L)]; [reflexivity|]. destruct (Rle_dec h 0); [reflexivity|contradiction].
  - rewrite (CM h HH). destruct (String.eqb_spec (curved_method a) "Omega_K0"); [contradiction|]. destruct (String.eqb_spec (curved_method a) "reheating"); [contradiction|reflexivity].
  - rewrite (CM h HH), M. cbn [String.eqb Ascii.eqb Bool.eqb]. unfold pure_Omega. rewrite E. reflexivity.
  - rewrite (CM h HH), M. cbn [String.eqb Ascii.eqb Bool.eqb]. unfold pure_Omega. rewrite E. rewrite sign_ok in S.
    destruct (Req_EM_T om 0); [reflexivity|]. destruct (Req_EM_T (np_sign om) (- b_K b)); [|reflexivity]. exfalso. tauto.
  - rewrite (CM h HH), M. cbn [String.eqb Ascii.eqb Bool.eqb]. unfold pure_curved_reheating. destruct (ca_Omega_K0 a); [reflexivity|destruct G; reflexivity].
  - rewrite (CM h HH), M. cbn [String.eqb Ascii.eqb Bool.eqb]. unfold pure_curved_reheating. rewrite E. cbn. apply unphysical_bad in U. rewrite U. reflexivity.
  - rewrite (CM h HH), M. cbn [String.eqb Ascii.eqb Bool.eqb]. unfold pure_curved_reheating. rewrite E. cbn. rewrite unphysical_bad in U. destruct (bad_reheating a); [destruct U; reflexivity|].
    unfold pure_curved_cases. rewrite (instant_raise a X). reflexivity.
  - rewrite (CM h HH), M. cbn [String.eqb Ascii.eqb Bool.eqb]. unfold pure_curved_reheating. rewrite E. cbn. rewrite unphysical_bad in U. destruct (bad_reheating a); [destruct U; reflexivity|].
    unfold pure_curved_cases. rewrite (instant_false a X). cbn [bind]. unfold pair, given in P.
    destruct (ca_w_reh a); [|reflexivity]. destruct (ca_DeltaN_reh a), (ca_rho_reh_GeV a); try reflexivity; exfalso; apply P; [left|right]; repeat split; discriminate.
  - destruct (calibration_ko h am HH A) as (ko & EA & ->). pose proof (finish_cases ko) as F. destruct (pure_finish C b ko) as [o|e].
    + exfalso. destruct F as [(x & F & _) _]. apply (NR x F).
    + destruct F as [[-> _]|(_ & (x & F) & _)]; [reflexivity|]. exfalso. apply (NR x F).
  - destruct (calibration_ko h am HH A) as (ko & EA & ->). pose proof (finish_cases ko) as F. rewrite EA in F. destruct (pure_finish C b ko) as [o|e].
    + contradiction.
    + destruct F as [[_ F]|(-> & _)]; [destruct (F x R)|reflexivity].
Qed.
End Curved.

Theorem first_reject C a b e : List.length (b_H b) = List.length (b_N b) -> List.length (b_mask b) = List.length (b_N b) ->
  (b_K b = 0 \/ b_K b = 1 \/ b_K b = -1) -> (pure_first C a (b_K b) b = Raise e <-> reject C a b e).
Proof.
  intros L1 L2 [EK|HK]; unfold reject.
  - rewrite EK. split; [intros H; left; split; [reflexivity|apply flat_raise; assumption]|]. intros [[_ H]|[H _]]; [apply flat_reject_raise; assumption|lra].
  - split; [intros H; right; split; [destruct HK; lra|apply curved_raise; assumption]|]. intros [[H _]|[_ H]]; [destruct HK; lra|apply curved_reject_raise; assumption].
Qed.
