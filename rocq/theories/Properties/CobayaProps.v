(** Cobaya wrappers: C68-C71, C83-C85. *)
From Coq Require Import Reals List String ZArith Bool Lra Lia Psatz.
From Coquelicot Require Import Coquelicot.
From Verif Require Import Base Model.Float Model.Cobaya Proofs.BaseLemmas Proofs.FloatLemmas.
Import ListNotations.
Open Scope R_scope.
Open Scope string_scope.

(** ** C68 *)
Lemma ln_scaled x kp : 0 < kp -> ln (exp x / kp) = x - ln kp.
Proof. intros H. unfold Rdiv. rewrite ln_mult, ln_Rinv, ln_exp; [ring|exact H|apply exp_pos|apply Rinv_0_lt_compat; exact H]. Qed.
Theorem C68_scalar_log_derivatives :
  forall A_s n_s n_run n_runrun k_pivot, 0 < A_s -> 0 < k_pivot ->
  exists d1 d2 d3 : R -> R,
  (forall x, is_derive (fun x => ln (scalar_pk (exp x) A_s n_s n_run n_runrun k_pivot)) x (d1 x)) /\
  (forall x, is_derive d1 x (d2 x)) /\ (forall x, is_derive d2 x (d3 x)) /\
  scalar_pk k_pivot A_s n_s n_run n_runrun k_pivot = A_s /\
  d1 (ln k_pivot) = n_s - 1 /\ d2 (ln k_pivot) = n_run /\ d3 (ln k_pivot) = n_runrun.
Proof.
  intros A ns nr nrr kp HA Hk.
  exists (fun x => (ns - 1) + nr * (x - ln kp) + nrr / 2 * (x - ln kp) ^ 2), (fun x => nr + nrr * (x - ln kp)), (fun _ => nrr).
  split; [|split; [|split; [|split; [|split; [|split]]]]].
  - intros x. apply is_derive_ext with (f := fun x => ln A + ((ns - 1) * (x - ln kp) + nr / 2 * (x - ln kp) ^ 2 + nrr / 6 * (x - ln kp) ^ 3)).
    + intros t. unfold scalar_pk. cbv zeta. rewrite ln_mult, ln_exp, ln_scaled by (try apply exp_pos; assumption). reflexivity.
    + auto_derive; [exact I|]. field.
  - intros x. auto_derive; [exact I|]. field.
  - intros x. auto_derive; [exact I|]. ring.
  - unfold scalar_pk. cbv zeta. replace (kp / kp) with 1 by (field; lra). rewrite ln_1. match goal with |- _ * exp ?e = _ => replace e with 0 by ring end. rewrite exp_0. ring.
  - ring.
  - ring.
  - reflexivity.
Qed.
Theorem C68_tensor_log_derivatives :
  forall A_t n_t n_t_run k_pivot, 0 < A_t -> 0 < k_pivot ->
  exists d1 d2 : R -> R,
  (forall x, is_derive (fun x => ln (tensor_pk (exp x) A_t n_t n_t_run k_pivot)) x (d1 x)) /\ (forall x, is_derive d1 x (d2 x)) /\
  tensor_pk k_pivot A_t n_t n_t_run k_pivot = A_t /\ d1 (ln k_pivot) = n_t /\ d2 (ln k_pivot) = n_t_run.
Proof.
  intros A nt nr kp HA Hk. exists (fun x => nt + nr * (x - ln kp)), (fun _ => nr).
  split; [|split; [|split; [|split]]].
  - intros x. apply is_derive_ext with (f := fun x => ln A + (nt * (x - ln kp) + nr / 2 * (x - ln kp) ^ 2)).
    + intros t. unfold tensor_pk. cbv zeta. rewrite ln_mult, ln_exp, ln_scaled by (try apply exp_pos; assumption). reflexivity.
    + auto_derive; [exact I|]. field.
  - intros x. auto_derive; [exact I|]. ring.
  - unfold tensor_pk. cbv zeta. replace (kp / kp) with 1 by (field; lra). rewrite ln_1. match goal with |- _ * exp ?e = _ => replace e with 0 by ring end. rewrite exp_0. ring.
  - ring.
  - reflexivity.
Qed.

(** ** C69: resolution of the parameters. A dictionary is described by which entries it contains. *)
(** [d] gives [name] the number [x], or does not mention it *)
Definition gives (d : pdict) (name : string) (x : R) : Prop := forall dflt, pget name dflt d = Some x.
Definition absent (d : pdict) (name : string) : Prop := forall dflt, pget name dflt d = dflt.
Definition gives_or (d : pdict) (name : string) (dflt x : R) : Prop := gives d name x \/ (absent d name /\ x = dflt).
Lemma gives_or_get d n df x : gives_or d n df x -> pget n (Some df) d = Some x.
Proof. intros [H|[H ->]]; apply H. Qed.

(** the spectra produced when no exception is raised: the tensor amplitude is r A_s, the tensor tilt and
    running are the given ones or those of the consistency relation *)
Theorem C69_spectra :
  forall ks kp d As ns nr nrr At r,
  0 < As -> 0 <= At -> 0 <= r -> gives d "A_s" As -> gives_or d "n_s" 1 ns -> gives_or d "n_run" 0 nr -> gives_or d "n_runrun" 0 nrr ->
  gives_or d "A_t" 0 At -> gives_or d "r" (At / As) r -> (0 < At -> r = At / As) ->
  (absent d "n_t" -> gives_or d "n_t_run" 0 0 ->
   powerlaw_calculate ks kp d =
     Ok (map (fun k => scalar_pk k As ns nr nrr kp) ks,
         map (fun k => tensor_pk k (r * As) (- r / 8 * (2 - ns - r / 8)) (r / 8 * (r / 8 + ns - 1)) kp) ks)) /\
  (forall nt ntr, gives d "n_t" nt -> gives_or d "n_t_run" 0 ntr ->
   powerlaw_calculate ks kp d =
     Ok (map (fun k => scalar_pk k As ns nr nrr kp) ks, map (fun k => tensor_pk k (r * As) nt ntr kp) ks)).
Proof.
  intros ks kp d As ns nr nrr At r HAs HAt Hr G1 G2 G3 G4 G5 G6 CON.
  assert (Z : forall (T : Type) (a b : T), (if Req_EM_T As 0 then a else b) = b) by (intros; destruct (Req_EM_T As 0); [lra|reflexivity]).
  assert (AT : (if Rlt_dec 0 At then if Req_EM_T r (At / As) then Ok At else Raise GenericException
               else if Rlt_dec 0 r then Ok (r * As) else Ok At) = @Ok R (r * As)).
  { destruct (Rlt_dec 0 At) as [P|P].
    - rewrite (CON P). destruct (Req_EM_T (At / As) (At / As)); [|lra]. f_equal. field. lra.
    - assert (At = 0) as -> by lra. destruct (Rlt_dec 0 r); [reflexivity|]. assert (r = 0) as -> by lra. f_equal. ring. }
  pose proof (gives_or_get d _ _ _ G2) as E2. pose proof (gives_or_get d _ _ _ G3) as E3. pose proof (gives_or_get d _ _ _ G4) as E4.
  pose proof (gives_or_get d _ _ _ G5) as E5. pose proof (gives_or_get d _ _ _ G6) as E6.
  split.
  - intros G7 G8. pose proof (gives_or_get d _ _ _ G8) as E8. unfold powerlaw_calculate, resolve. cbv zeta.
    rewrite (G1 None), E2, E3, E4, E5, (G7 None), E8. cbn [num bind]. unfold pydiv. rewrite Z. cbn [bind]. rewrite E6. cbn [num bind truthy].
    destruct (Req_EM_T 0 0) as [_|]; [|lra]. cbn [bind num fst snd]. rewrite AT. cbn [bind]. reflexivity.
  - intros nt ntr G7 G8. pose proof (gives_or_get d _ _ _ G8) as E8. unfold powerlaw_calculate, resolve. cbv zeta.
    rewrite (G1 None), E2, E3, E4, E5, (G7 None), E8. cbn [num bind]. unfold pydiv. rewrite Z. cbn [bind]. rewrite E6. cbn [num bind fst snd].
    rewrite AT. cbn [bind]. reflexivity.
Qed.
(** the produced tensor-to-scalar ratio at the pivot scale *)
Theorem C69_ratio_at_pivot :
  forall kp d As At r ps pt, 0 < kp -> 0 < As -> 0 <= At -> 0 <= r -> gives d "A_s" As -> gives_or d "A_t" 0 At -> gives_or d "r" (At / As) r ->
  powerlaw_calculate [kp] kp d = Ok ([ps], [pt]) -> ps = As /\ pt = r * ps.
Proof.
  intros kp d As At r ps pt Hkp HAs HAt Hr G1 G5 G6 E.
  unfold powerlaw_calculate, resolve in E. cbv zeta in E. rewrite (G1 None), (gives_or_get d _ _ _ G5) in E. cbn [num bind] in E.
  unfold pydiv in E. destruct (Req_EM_T As 0); [lra|]. cbn [bind] in E. rewrite (gives_or_get d _ _ _ G6) in E.
  destruct (match pget "n_t" None d with None => _ | Some x => _ end) as [[nt ntr]|]; [|discriminate]. cbn [bind num fst snd] in E.
  destruct (if Rlt_dec 0 At then _ else _) as [at2|] eqn:EA; [|discriminate]. cbn [bind] in E.
  destruct (pget "n_s" (Some 1) d) as [ns|]; [|discriminate]. destruct (pget "n_run" (Some 0) d) as [nr|]; [|discriminate].
  destruct (pget "n_runrun" (Some 0) d) as [nrr|]; [|discriminate]. cbn [num bind] in E. destruct nt as [nt|]; [|discriminate]. destruct ntr as [ntr|]; [|discriminate].
  cbn [num bind spectra q_As q_ns q_nrun q_nrunrun q_At q_nt q_ntrun map] in E. injection E as <- <-.
  unfold scalar_pk, tensor_pk. cbv zeta. unfold Rdiv. rewrite Rinv_r by lra. rewrite ln_1.
  assert (X : forall a b c, exp (a * 0 + b * 0 ^ 2 + c * 0 ^ 3) = 1) by (intros; rewrite <- exp_0; f_equal; ring).
  assert (Y : forall a b, exp (a * 0 + b * 0 ^ 2) = 1) by (intros; rewrite <- exp_0; f_equal; ring). rewrite X, Y. split; [ring|]. rewrite !Rmult_1_r.
  destruct (Rlt_dec 0 At).
  - destruct (Req_EM_T r (At / As)) as [->|]; [|discriminate]. injection EA as <-. field. lra.
  - destruct (Rlt_dec 0 r); injection EA as <-; [reflexivity|]. assert (At = 0) by lra. assert (r = 0) by lra. subst. ring.
Qed.
(** rejected dictionaries *)
Theorem C69_errors :
  forall ks kp d,
  (absent d "A_s" -> (forall At, gives_or d "A_t" 0 At -> powerlaw_calculate ks kp d = Raise TypeError)) /\
  (forall As At r, As <> 0 -> gives d "A_s" As -> gives d "A_t" At -> gives d "r" r -> 0 < At -> r <> At / As ->
     (forall x, gives_or d "n_s" 1 x -> absent d "n_t" \/ (exists t, gives d "n_t" t) -> powerlaw_calculate ks kp d = Raise GenericException)) /\
  (forall As At ntr, As <> 0 -> gives d "A_s" As -> gives_or d "A_t" 0 At -> absent d "n_t" -> gives d "n_t_run" ntr -> ntr <> 0 ->
     powerlaw_calculate ks kp d = Raise GenericException).
Proof.
  intros ks kp d. split; [|split].
  - intros A At G. unfold powerlaw_calculate, resolve. cbv zeta. rewrite (A None), (gives_or_get d _ _ _ G). reflexivity.
  - intros As At r HA G1 G2 G3 P NE x Gn T. unfold powerlaw_calculate, resolve. cbv zeta. rewrite (G1 None), (G2 (Some 0)), (gives_or_get d _ _ _ Gn). cbn [num bind].
    unfold pydiv. destruct (Req_EM_T As 0); [contradiction|]. cbn [bind]. rewrite (G3 (Some (At / As))). cbn [num bind].
    destruct T as [T|[t T]]; rewrite (T None).
    + destruct (truthy _); [reflexivity|]. cbn [bind]. destruct (Rlt_dec 0 At); [|contradiction]. destruct (Req_EM_T r (At / As)); [contradiction|reflexivity].
    + cbn [bind]. destruct (Rlt_dec 0 At); [|contradiction]. destruct (Req_EM_T r (At / As)); [contradiction|reflexivity].
  - intros As At ntr HA G1 G2 G3 G4 NZ. unfold powerlaw_calculate, resolve. cbv zeta. rewrite (G1 None), (gives_or_get d _ _ _ G2), (G3 None), (G4 (Some 0)). cbn [num bind].
    unfold pydiv. destruct (Req_EM_T As 0); [contradiction|]. cbn [bind truthy]. destruct (Req_EM_T ntr 0); [contradiction|]. reflexivity.
Qed.
Definition d_ex : pdict := [("A_s", Some 2); ("n_s", Some (96/100)); ("r", Some (1/10))].
Theorem C69_nonvacuous : gives d_ex "A_s" 2 /\ gives_or d_ex "A_t" 0 0 /\ gives_or d_ex "r" (0 / 2) (1/10) /\ absent d_ex "n_t" /\
  exists Ps Pt, powerlaw_calculate [1; 2] 1 d_ex = Ok (Ps, Pt) /\ nth 0 Pt 0 = 2/10.
Proof.
  assert (G1 : gives d_ex "A_s" 2) by (intros x; reflexivity). assert (G2 : gives_or d_ex "A_t" 0 0) by (right; split; [intros x; reflexivity|reflexivity]).
  assert (G3 : gives_or d_ex "r" (0 / 2) (1/10)) by (left; intros x; reflexivity). assert (G4 : absent d_ex "n_t") by (intros x; reflexivity).
  repeat (split; [assumption|]).
  destruct (C69_spectra [1; 2] 1 d_ex 2 (96/100) 0 0 0 (1/10)) as [S _]; try assumption; try lra.
  - left; intros x; reflexivity.
  - rewrite S; [|exact G4|right; split; [intros x; reflexivity|reflexivity]]. eexists _, _. split; [reflexivity|]. cbn [map nth].
    unfold tensor_pk. cbv zeta. replace (1 / 1) with 1 by field. rewrite ln_1. match goal with |- _ * exp ?e = _ => replace e with 0 by ring end. rewrite exp_0. lra.
Qed.

(** ** C70 *)
Lemma modulate_one ks P : List.length (fst P) = List.length ks -> List.length (snd P) = List.length ks -> modulate (fun _ => 1) ks P = P.
Proof.
  destruct P as [a b]; cbn. intros A B. unfold modulate; cbn.
  assert (X : forall (l k : list R), List.length l = List.length k -> map (fun kp : R * R => snd kp * 1) (combine k l) = l).
  { induction l as [|x l IH]; intros [|y k] E; try discriminate; [reflexivity|]. cbn. rewrite IH by (cbn in E; lia). rewrite Rmult_1_r. reflexivity. }
  rewrite !X by assumption. reflexivity.
Qed.
Lemma modulate_ext f g ks P : (forall k, f k = g k) -> modulate f ks P = modulate g ks P.
Proof. intros H. unfold modulate. f_equal; apply map_ext; intros [k p]; cbn; rewrite H; reflexivity. Qed.
Lemma spectra_len ks kp p : List.length (fst (spectra ks kp p)) = List.length ks /\ List.length (snd (spectra ks kp p)) = List.length ks.
Proof. unfold spectra; cbn. rewrite !map_length. split; reflexivity. Qed.
(** resolution with default None succeeds only if the one with default 0 does, with the same result *)
Lemma resolve_default d p : resolve None d = Ok p -> resolve (Some 0) d = Ok p.
Proof.
  unfold resolve. cbv zeta. destruct (num (pget "A_t" (Some 0) d)) as [At|]; [|discriminate]. cbn [bind].
  destruct (num (pget "A_s" None d)) as [As|]; [|discriminate]. cbn [bind]. destruct (pydiv At As) as [q|]; [|discriminate]. cbn [bind].
  destruct (pget "n_t" None d) as [nt|].
  - cbn [bind]. assert (X : pget "n_t_run" None d = None \/ pget "n_t_run" None d = pget "n_t_run" (Some 0) d).
    { induction d as [|[n v] t IH]; [left; reflexivity|]. cbn. destruct (String.eqb n "n_t_run"); [right; reflexivity|exact IH]. }
    destruct X as [X|X].
    + rewrite X. intros E. exfalso. destruct (if Rlt_dec 0 At then _ else _); [|discriminate]. cbn [bind] in E. destruct (num (pget "n_s" _ d)); [|discriminate].
      destruct (num (pget "n_run" _ d)); [|discriminate]. destruct (num (pget "n_runrun" _ d)); discriminate.
    + rewrite X. auto.
  - assert (X : truthy (pget "n_t_run" None d) = truthy (pget "n_t_run" (Some 0) d)).
    { induction d as [|[n v] t IH]; [cbn; destruct (Req_EM_T 0 0); [reflexivity|lra]|]. cbn. destruct (String.eqb n "n_t_run"); [reflexivity|exact IH]. }
    rewrite X. auto.
Qed.
Theorem C70_feature_off_partial :
  forall ks kp d P,
  (gives_or d "A_log" 0 0 -> logosc_calculate ks kp d = Ok P -> powerlaw_calculate ks kp d = Ok P) /\
  (gives_or d "A_lin" 0 0 -> linosc_calculate ks kp d = Ok P -> powerlaw_calculate ks kp d = Ok P).
Proof.
  intros ks kp d P. split; intros G E.
  - unfold logosc_calculate in E. destruct (resolve None d) as [p|] eqn:Er; [|discriminate]. apply resolve_default in Er. cbn [bind] in E.
    rewrite (gives_or_get d _ _ _ G) in E. cbn [num bind] in E. destruct (pget "w_log" None d) as [w|]; [|discriminate]. destruct (pget "p_log" None d) as [ph|]; [|discriminate].
    cbn [num bind] in E. injection E as <-. unfold powerlaw_calculate. rewrite Er. cbn [bind]. f_equal. symmetry.
    rewrite (modulate_ext _ (fun _ => 1)) by (intros k; unfold log_oscillations; ring). apply modulate_one; apply spectra_len.
  - unfold linosc_calculate in E. destruct (resolve None d) as [p|] eqn:Er; [|discriminate]. apply resolve_default in Er. cbn [bind] in E.
    rewrite (gives_or_get d _ _ _ G) in E. cbn [num bind] in E. destruct (pget "w_lin" None d) as [w|]; [|discriminate]. destruct (pget "p_lin" None d) as [ph|]; [|discriminate].
    cbn [num bind] in E. injection E as <-. unfold powerlaw_calculate. rewrite Er. cbn [bind]. f_equal. symmetry.
    rewrite (modulate_ext _ (fun _ => 1)) by (intros k; unfold lin_oscillations; ring). apply modulate_one; apply spectra_len.
Qed.
(** accepted parameter sets: with frequency and phase given, and a running given along with n_t *)
Theorem C70_accepted_partial :
  forall ks kp d P w ph, gives_or d "A_log" 0 0 -> gives d "w_log" w -> gives d "p_log" ph ->
  (absent d "n_t" \/ (exists x, gives d "n_t_run" x)) ->
  powerlaw_calculate ks kp d = Ok P -> logosc_calculate ks kp d = Ok P.
Proof.
  intros ks kp d P w ph G Gw Gp T E.
  assert (Er : resolve None d = resolve (Some 0) d).
  { unfold resolve. cbv zeta. destruct T as [T|[x T]].
    - rewrite (T None). assert (X : truthy (pget "n_t_run" None d) = truthy (pget "n_t_run" (Some 0) d)); [|rewrite X; reflexivity].
      clear. induction d as [|[n v] t IH]; [cbn; destruct (Req_EM_T 0 0); [reflexivity|lra]|]. cbn. destruct (String.eqb n "n_t_run"); [reflexivity|exact IH].
    - rewrite (T None), (T (Some 0)). reflexivity. }
  unfold powerlaw_calculate in E. unfold logosc_calculate. rewrite Er. destruct (resolve (Some 0) d) as [p|]; [|discriminate]. cbn [bind] in *. injection E as <-.
  rewrite (gives_or_get d _ _ _ G), (Gw None), (Gp None). cbn [num bind]. f_equal.
  rewrite (modulate_ext _ (fun _ => 1)) by (intros k; unfold log_oscillations; ring). apply modulate_one; apply spectra_len.
Qed.
(** not every dictionary accepted by the power law is accepted: w_log/p_log have no numeric default, and
    n_t without n_t_run fails *)
Theorem C70_accepted_refuted :
  ~ (forall ks kp d P, gives_or d "A_log" 0 0 -> powerlaw_calculate ks kp d = Ok P -> logosc_calculate ks kp d = Ok P) /\
  ~ (forall ks kp d P w ph, gives_or d "A_log" 0 0 -> gives d "w_log" w -> gives d "p_log" ph ->
     powerlaw_calculate ks kp d = Ok P -> logosc_calculate ks kp d = Ok P).
Proof.
  split; intros C.
  - destruct C69_nonvacuous as (_ & _ & _ & _ & Ps & Pt & E & _).
    pose proof (C [1; 2] 1 d_ex (Ps, Pt) (or_intror (conj (fun x => eq_refl) eq_refl)) E) as X.
    unfold logosc_calculate in X. destruct (resolve None d_ex); discriminate X.
  - set (d := [("A_s", Some 1); ("n_t", Some 0); ("w_log", Some 1); ("p_log", Some 0)] : pdict).
    assert (G : forall n x, In (n, Some x) d -> NoDup (map fst d) -> gives d n x) by (intros n x [X|[X|[X|[X|[]]]]] _ y; injection X as <- <-; reflexivity).
    assert (X : exists P, powerlaw_calculate [1] 1 d = Ok P).
    { unfold powerlaw_calculate, resolve, d. cbv zeta. cbn [pget String.eqb Ascii.eqb Bool.eqb num bind]. unfold pydiv. destruct (Req_EM_T 1 0); [lra|]. cbn [bind num fst snd].
      destruct (Rlt_dec 0 0); [lra|]. destruct (Rlt_dec 0 (0 / 1)); [lra|]. eexists; reflexivity. }
    destruct X as [P X]. specialize (C [1] 1 d P 1 0 (or_intror (conj (fun x => eq_refl) eq_refl)) (fun x => eq_refl) (fun x => eq_refl) X).
    unfold logosc_calculate, resolve, d in C. cbv zeta in C. cbn [pget String.eqb Ascii.eqb Bool.eqb num bind] in C. unfold pydiv in C. destruct (Req_EM_T 1 0) in C; [lra|]. cbn [bind num fst snd] in C.
    destruct (Rlt_dec 0 0) in C; [lra|]. destruct (Rlt_dec 0 (0 / 1)) in C; cbn in C; discriminate C.
Qed.

(** ** C83: the feature factors act identically on scalars and tensors *)
Lemma modulate_nth f ks P i : List.length (fst P) = List.length ks -> List.length (snd P) = List.length ks -> (i < List.length ks)%nat ->
  nth i (fst (modulate f ks P)) 0 = nth i (fst P) 0 * f (nth i ks 0) /\ nth i (snd (modulate f ks P)) 0 = nth i (snd P) 0 * f (nth i ks 0).
Proof.
  destruct P as [a b]. cbn [fst snd]. intros A B I. unfold modulate. cbn [fst snd].
  assert (X : forall l, List.length l = List.length ks -> nth i (map (fun kp : R * R => snd kp * f (fst kp)) (combine ks l)) 0 = nth i l 0 * f (nth i ks 0)).
  { intros l E. rewrite (nth_indep _ 0 ((fun kp : R * R => snd kp * f (fst kp)) (0, 0))) by (rewrite map_length, combine_length; lia).
    rewrite (map_nth (fun kp : R * R => snd kp * f (fst kp))), combine_nth by (symmetry; exact E). reflexivity. }
  split; apply X; assumption.
Qed.
Theorem C83_feature_factors :
  forall ks kp d Ps Pt,
  (forall A w ph, gives_or d "A_log" 0 A -> gives d "w_log" w -> gives d "p_log" ph -> logosc_calculate ks kp d = Ok (Ps, Pt) ->
     exists Ps0 Pt0, powerlaw_calculate ks kp d = Ok (Ps0, Pt0) /\ forall i, (i < List.length ks)%nat ->
     nth i Ps 0 = nth i Ps0 0 * (1 + A * cos (w * ln (nth i ks 0 / kp) + 2 * PI * ph)) /\
     nth i Pt 0 = nth i Pt0 0 * (1 + A * cos (w * ln (nth i ks 0 / kp) + 2 * PI * ph))) /\
  (forall A w ph, gives_or d "A_lin" 0 A -> gives d "w_lin" w -> gives d "p_lin" ph -> linosc_calculate ks kp d = Ok (Ps, Pt) ->
     exists Ps0 Pt0, powerlaw_calculate ks kp d = Ok (Ps0, Pt0) /\ forall i, (i < List.length ks)%nat ->
     nth i Ps 0 = nth i Ps0 0 * (1 + A * cos (w * (nth i ks 0 / kp) + 2 * PI * ph)) /\
     nth i Pt 0 = nth i Pt0 0 * (1 + A * cos (w * (nth i ks 0 / kp) + 2 * PI * ph))) /\
  (forall kc sc, gives_or d "k_cut" (1/1000) kc -> gives_or d "s_cut" 2 sc -> cutoff_calculate ks kp d = Ok (Ps, Pt) ->
     exists Ps0 Pt0, powerlaw_calculate ks kp d = Ok (Ps0, Pt0) /\ forall i, (i < List.length ks)%nat ->
     nth i Ps 0 = nth i Ps0 0 * (1 - exp (- pypow (nth i ks 0 / kc) sc)) /\
     nth i Pt 0 = nth i Pt0 0 * (1 - exp (- pypow (nth i ks 0 / kc) sc))).
Proof.
  intros ks kp d Ps Pt. split; [|split].
  - intros A w ph G Gw Gp E. unfold logosc_calculate in E. destruct (resolve None d) as [p|] eqn:Er; [|discriminate]. apply resolve_default in Er. cbn [bind] in E.
    rewrite (gives_or_get d _ _ _ G), (Gw None), (Gp None) in E. cbn [num bind] in E. injection E as <- <-.
    exists (fst (spectra ks kp p)), (snd (spectra ks kp p)). split; [unfold powerlaw_calculate; rewrite Er; reflexivity|].
    intros i Hi. destruct (spectra_len ks kp p) as [L1 L2]. pose proof (modulate_nth (fun k => 1 + log_oscillations k A w ph kp) ks (spectra ks kp p) i L1 L2 Hi) as [X Y]. split; assumption.
  - intros A w ph G Gw Gp E. unfold linosc_calculate in E. destruct (resolve None d) as [p|] eqn:Er; [|discriminate]. apply resolve_default in Er. cbn [bind] in E.
    rewrite (gives_or_get d _ _ _ G), (Gw None), (Gp None) in E. cbn [num bind] in E. injection E as <- <-.
    exists (fst (spectra ks kp p)), (snd (spectra ks kp p)). split; [unfold powerlaw_calculate; rewrite Er; reflexivity|].
    intros i Hi. destruct (spectra_len ks kp p) as [L1 L2]. pose proof (modulate_nth (fun k => 1 + lin_oscillations k A w ph kp) ks (spectra ks kp p) i L1 L2 Hi) as [X Y]. split; assumption.
  - intros kc sc G Gs E. unfold cutoff_calculate in E. destruct (resolve None d) as [p|] eqn:Er; [|discriminate]. apply resolve_default in Er. cbn [bind] in E.
    rewrite (gives_or_get d _ _ _ G), (gives_or_get d _ _ _ Gs) in E. cbn [num bind] in E. injection E as <- <-.
    exists (fst (spectra ks kp p)), (snd (spectra ks kp p)). split; [unfold powerlaw_calculate; rewrite Er; reflexivity|].
    intros i Hi. destruct (spectra_len ks kp p) as [L1 L2]. pose proof (modulate_nth (fun k => 1 - cutoff k kc sc) ks (spectra ks kp p) i L1 L2 Hi) as [X Y]. split; assumption.
Qed.
(** positive spectra stay positive for |A| < 1 and under a cutoff *)
Theorem C83_positive :
  forall k kp A w ph kc sc, 0 < kp -> 0 < k -> 0 < kc -> -1 < A < 1 ->
  0 < 1 + log_oscillations k A w ph kp /\ 0 < 1 + lin_oscillations k A w ph kp /\ 0 < 1 - cutoff k kc sc < 1.
Proof.
  intros k kp A w ph kc sc Hkp Hk Hkc HA.
  assert (X : forall t, 0 < 1 + A * cos t).
  { intros t. pose proof (COS_bound t) as [B1 B2]. assert (-1 < A * cos t); [|lra].
    destruct (Rle_dec 0 A) as [P|P].
    - assert (A * -1 <= A * cos t) by (apply Rmult_le_compat_l; lra). lra.
    - assert (A * 1 <= A * cos t) by (apply Rmult_le_compat_neg_l; lra). lra. }
  split; [apply X|]. split; [apply X|]. unfold cutoff, pypow. destruct (Rlt_dec 0 (k / kc)) as [_|N]; [|exfalso; apply N; apply Rdiv_lt_0_compat; assumption].
  pose proof (exp_pos (sc * ln (k / kc))) as P. fold (Rpower (k / kc) sc) in P. pose proof (exp_pos (- Rpower (k / kc) sc)) as P2.
  assert (exp (- Rpower (k / kc) sc) < 1) by (rewrite <- exp_0; apply exp_increasing; lra). lra.
Qed.
(** the cutoff suppresses large scales more than small ones *)
Theorem C83_cutoff_monotone :
  forall k1 k2 kc sc, 0 < k1 < k2 -> 0 < kc -> 0 < sc -> 1 - cutoff k1 kc sc < 1 - cutoff k2 kc sc.
Proof.
  intros k1 k2 kc sc H Hkc Hs. unfold cutoff, pypow.
  assert (P1 : 0 < k1 / kc) by (apply Rdiv_lt_0_compat; lra). assert (P2 : 0 < k2 / kc) by (apply Rdiv_lt_0_compat; lra).
  destruct (Rlt_dec 0 (k1 / kc)); [|contradiction]. destruct (Rlt_dec 0 (k2 / kc)); [|contradiction].
  assert (k1 / kc < k2 / kc) by (apply Rmult_lt_compat_r; [apply Rinv_0_lt_compat|]; lra).
  assert (Rpower (k1 / kc) sc < Rpower (k2 / kc) sc) by (apply exp_increasing, Rmult_lt_compat_l; [exact Hs|]; apply ln_increasing; assumption).
  assert (exp (- Rpower (k2 / kc) sc) < exp (- Rpower (k1 / kc) sc)) by (apply exp_increasing; lra). lra.
Qed.

(** ** C84: the wavenumber grid *)
Lemma grid_count : num_k = 801%nat.
Proof.
  unfold num_k, py_int, log10, kmax, kmin.
  assert (L : 0 < ln 10) by (rewrite <- ln_1; apply ln_increasing; lra).
  assert (E : (ln 50 / ln 10 - ln (5 / 10 ^ 7) / ln 10) * 100 + 1 = 801).
  { replace (5 / 10 ^ 7) with (50 * / 10 ^ 8) by field. rewrite ln_mult, ln_Rinv by (try apply Rinv_0_lt_compat; apply pow_lt || lra; lra).
    rewrite <- Rpower_pow by lra. unfold Rpower. rewrite ln_exp. replace (INR 8) with 8 by (cbn; ring). field. lra. }
  rewrite E. assert (I : Int_part 801 = 801%Z).
  { unfold Int_part. assert (up 801 = 802%Z); [|lia]. symmetry. apply tech_up; lra. }
  rewrite I. reflexivity.
Qed.
Lemma ten_log10 x : 0 < x -> Rpower 10 (log10 x) = x.
Proof.
  intros Hx. unfold Rpower, log10. assert (L : 0 < ln 10) by (rewrite <- ln_1; apply ln_increasing; lra).
  replace (ln x / ln 10 * ln 10) with (ln x) by (field; lra). apply exp_ln, Hx.
Qed.
Theorem C84_grid :
  List.length ks_grid = 801%nat /\ nth 0 ks_grid 0 = 5 / 10^7 /\ nth 800 ks_grid 0 = 50 /\
  (forall i, (i < 800)%nat -> nth (S i) ks_grid 0 = nth i ks_grid 0 * Rpower 10 (1 / 100)) /\
  (forall k, In k ks_grid -> 0 < k).
Proof.
  assert (N : forall i, (i < 801)%nat -> nth i ks_grid 0 = Rpower 10 (log10 kmin + INR i * ((log10 kmax - log10 kmin) / INR 800))).
  { intros i Hi. unfold ks_grid, logspace. rewrite grid_count.
    rewrite (nth_indep _ 0 (Rpower 10 (log10 kmin + INR 0 * ((log10 kmax - log10 kmin) / INR (801 - 1))))) by (rewrite map_length, seq_length; exact Hi).
    rewrite (map_nth (fun i => Rpower 10 (log10 kmin + INR i * ((log10 kmax - log10 kmin) / INR (801 - 1))))). rewrite seq_nth by exact Hi. reflexivity. }
  assert (D : log10 kmax - log10 kmin = 8).
  { unfold log10, kmax, kmin. assert (L : 0 < ln 10) by (rewrite <- ln_1; apply ln_increasing; lra).
    replace (5 / 10 ^ 7) with (50 * / 10 ^ 8) by field. rewrite ln_mult, ln_Rinv by (try apply Rinv_0_lt_compat; apply pow_lt || lra; lra).
    rewrite <- Rpower_pow by lra. unfold Rpower. rewrite ln_exp. replace (INR 8) with 8 by (cbn; ring). field. lra. }
  split; [unfold ks_grid, logspace; rewrite map_length, seq_length; apply grid_count|].
  split; [rewrite N by lia; cbn [INR]; rewrite Rmult_0_l, Rplus_0_r; apply ten_log10; unfold kmin; lra|].
  split.
  { rewrite N by lia. replace (log10 kmin + INR 800 * ((log10 kmax - log10 kmin) / INR 800)) with (log10 kmax).
    - apply ten_log10. unfold kmax. lra.
    - field. apply not_0_INR. lia. }
  split.
  - intros i Hi. rewrite !N by lia. rewrite <- Rpower_plus. f_equal. rewrite S_INR, D. replace (INR 800) with 800 by (rewrite INR_IZR_INZ; reflexivity). field.
  - intros k Hk. apply in_map_iff in Hk. destruct Hk as (i & <- & _). apply exp_pos.
Qed.

(** ** C71: the shooting loop *)
Section C71.
Variable background : R -> res solved.
Variable calibrate : R -> calmode -> res calibrated.
Variables target : R.
Variables n_s rho_reh w_reh : option R.
Notation sh := (shoot background calibrate target n_s rho_reh w_reh).
Lemma shoot_spec : forall fuel i L N tr o, sh fuel i L N tr = Ok o ->
  Rabs (c_As (snd (fst o)) - target) < 1 / 10^14 + 1 / 10^6 * target /\
  (exists m b, background (fst (fst o)) = Ok b /\ so_success b = true /\ calibrate (fst (fst o)) m = Ok (snd (fst o)) /\
     (forall rho, rho_reh = Some rho -> rho <= so_rho_end b)) /\
  exists t, snd o = (tr ++ t ++ [fst (fst o)])%list /\ (List.length t < fuel)%nat.
Proof.
  induction fuel as [|fuel IH]; intros i L N tr o E; [discriminate|]. cbn [shoot] in E.
  destruct (background L) as [b|] eqn:EB; [|discriminate]. cbn [bind] in E. destruct (so_success b) eqn:ES; [|discriminate]. cbn [negb] in E.
  destruct (match rho_reh with Some rho => if Rlt_dec (so_rho_end b) rho then true else false | None => false end) eqn:ER; [discriminate|].
  destruct (choose n_s rho_reh w_reh N (so_N_tot b)) as [[m N']|] eqn:EC; [|discriminate]. cbn [bind fst snd] in E.
  destruct (calibrate L m) as [c|] eqn:EK; [|discriminate]. cbn [bind] in E.
  destruct (Rlt_dec (Rabs (c_As c - target)) (atol + rtol * target)) as [T|T].
  - injection E as <-. cbn [fst snd]. split; [exact T|]. split.
    + exists m, b. repeat split; try assumption. intros rho ->. destruct (Rlt_dec (so_rho_end b) rho); [discriminate|lra].
    + exists []. split; [reflexivity|cbn; lia].
  - destruct (Nat.ltb i 10); [|discriminate]. destruct (IH _ _ _ _ _ E) as (A & B & t & Et & Lt). split; [exact A|]. split; [exact B|].
    exists (L :: t). split; [rewrite Et, <- !app_assoc; reflexivity|cbn; lia].
Qed.
(** the loop ends: its fuel of 11 iterations is never exhausted *)
Lemma shoot_fuel : forall fuel i L N tr, (10 < fuel + i)%nat -> (i <= 10)%nat ->
  (forall x, background x <> Raise UnboundLocalError) -> (forall x m, calibrate x m <> Raise UnboundLocalError) ->
  sh fuel i L N tr <> Raise UnboundLocalError.
Proof.
  induction fuel as [|fuel IH]; intros i L N tr H Hi HB HC; [lia|]. cbn [shoot].
  destruct (background L) as [b|e] eqn:EB; cbn [bind]; [|intros X; injection X as ->; exact (HB _ EB)]. destruct (negb (so_success b)); [discriminate|].
  destruct (match rho_reh with Some rho => if Rlt_dec (so_rho_end b) rho then true else false | None => false end); [discriminate|].
  destruct (choose n_s rho_reh w_reh N (so_N_tot b)) as [[m N']|e] eqn:EC; cbn [bind fst snd].
  - destruct (calibrate L m) as [c|e] eqn:EK; cbn [bind]; [|intros X; injection X as ->; exact (HC _ _ EK)].
    destruct (Rlt_dec _ _); [discriminate|]. destruct (Nat.ltb i 10) eqn:E10; [|discriminate]. apply Nat.ltb_lt in E10. apply IH; auto; lia.
  - unfold choose in EC. destruct w_reh; destruct rho_reh; destruct N; destruct n_s; try discriminate; injection EC as <-; discriminate.
Qed.
Theorem C71_verified_amplitude :
  forall Lambda0 N_star L c trace,
  slowroll_calculate background calibrate target n_s rho_reh w_reh Lambda0 N_star = Ok (L, c, trace) ->
  Rabs (c_As c - target) < 1 / 10^14 + 1 / 10^6 * target /\
  (exists m, calibrate L m = Ok c) /\
  (1 <= List.length trace <= 11)%nat /\ (exists t, trace = (t ++ [L])%list) /\
  (forall w, c_w c = Fin w -> -1/3 < w < 1) /\ (forall n, c_DeltaN c = Fin n -> 0 <= n) /\
  (forall a b, c_Nreh c = Fin a -> c_N0 c = Fin b -> a <= b).
Proof.
  intros L0 N L c tr E. unfold slowroll_calculate in E. destruct (sh 11 0 L0 N []) as [o|] eqn:ES; [|discriminate]. cbn [bind] in E.
  destruct (unrealistic (snd (fst o))) eqn:EU; [discriminate|]. injection E as ->. destruct (shoot_spec _ _ _ _ _ _ ES) as (A & (m & b & B1 & B2 & B3 & B4) & t & Et & Lt).
  cbn [fst snd] in *. split; [exact A|]. split; [exists m; exact B3|]. split; [rewrite Et; cbn [app]; rewrite app_length; cbn; lia|]. split; [exists t; exact Et|].
  unfold unrealistic in EU. apply orb_false_iff in EU. destruct EU as [EU U4]. apply orb_false_iff in EU. destruct EU as [EU U3]. apply orb_false_iff in EU. destruct EU as [U1 U2].
  unfold fle, flt, feq in *. split; [|split].
  - intros w Ew. rewrite Ew in U1, U2. cbn in U1, U2. destruct (Rlt_dec w (-1/3)); [discriminate|]. destruct (Req_EM_T w (-1/3)); [discriminate|].
    destruct (Rlt_dec 1 w); [discriminate|]. destruct (Req_EM_T 1 w); [discriminate|]. lra.
  - intros n En. rewrite En in U3. cbn in U3. destruct (Rlt_dec n 0); [discriminate|lra].
  - intros a b' Ea Eb. rewrite Ea, Eb in U4. cbn in U4. destruct (Rlt_dec b' a); [discriminate|lra].
Qed.
(** how the accepted amplitude was calibrated: by reheating if w_reh and rho_reh_GeV are both given; else by N_star; and
    if n_s is also given, n_s is fitted starting from the requested N_star, cut down to 0.1 e-folds less than the length
    of inflation of every background tried *)
Definition longest (N : R) (trace : list R) : R :=
  fold_left (fun N L => match background L with Ok b => Rmin N (so_N_tot b - 1/10) | Raise _ => N end) trace N.
Definition how (N : R) (trace : list R) : calmode :=
  match w_reh, rho_reh, n_s with
  | Some w, Some rho, _ => ByReheating rho w
  | _, _, None => ByNstar N rho_reh
  | _, _, Some n => ByNs (longest N trace) n rho_reh
  end.
Lemma shoot_how : forall fuel i L N tr o, sh fuel i L (Some N) tr = Ok o ->
  exists t, snd o = (tr ++ t)%list /\ calibrate (fst (fst o)) (how N t) = Ok (snd (fst o)).
Proof.
  induction fuel as [|fuel IH]; intros i L N tr o E; [discriminate|]. cbn [shoot] in E.
  destruct (background L) as [b|] eqn:EB; [|discriminate]. cbn [bind] in E. destruct (so_success b) eqn:ES; [|discriminate]. cbn [negb] in E.
  destruct (match rho_reh with Some rho => if Rlt_dec (so_rho_end b) rho then true else false | None => false end) eqn:ER; [discriminate|].
  set (N' := if Rlt_dec (so_N_tot b - 1/10) N then so_N_tot b - 1/10 else N).
  assert (MN : Rmin N (so_N_tot b - 1/10) = N') by (unfold N', Rmin; destruct (Rle_dec N (so_N_tot b - 1/10)), (Rlt_dec (so_N_tot b - 1/10) N); lra).
  assert (LG : longest N [L] = N') by (unfold longest; cbn [fold_left]; rewrite EB; exact MN).
  assert (LC : forall t, longest N (L :: t) = longest N' t) by (intros t; unfold longest; cbn [fold_left]; rewrite EB, MN; reflexivity).
  assert (CH : exists m, choose n_s rho_reh w_reh (Some N) (so_N_tot b) = Ok m /\ fst m = how N [L] /\
            exists N1, snd m = Some N1 /\ forall t, how N (L :: t) = how N1 t).
  { unfold choose, how. rewrite LG. destruct w_reh, rho_reh, n_s; eexists; (split; [reflexivity|]); cbn [fst snd]; (split; [reflexivity|]);
      eexists; (split; [reflexivity|]); intros t; first [reflexivity|rewrite LC; reflexivity]. }
  destruct CH as (m & EC & F1 & N1 & F2 & F3). rewrite EC in E. cbn [bind] in E.
  destruct (calibrate L (fst m)) as [c|] eqn:EK; [|discriminate]. cbn [bind] in E.
  destruct (Rlt_dec (Rabs (c_As c - target)) (atol + rtol * target)) as [T|T].
  - injection E as <-. cbn [fst snd]. exists [L]. split; [reflexivity|]. rewrite <- F1. exact EK.
  - destruct (Nat.ltb i 10); [|discriminate]. rewrite F2 in E. destruct (IH _ _ _ _ _ E) as (t & Et & K). exists (L :: t).
    split; [rewrite Et, <- app_assoc; reflexivity|]. rewrite F3. exact K.
Qed.
Theorem C71_calibration : forall Lambda0 N_star L c trace,
  slowroll_calculate background calibrate target n_s rho_reh w_reh Lambda0 (Some N_star) = Ok (L, c, trace) ->
  calibrate L (how N_star trace) = Ok c /\
  (forall L' b, In L' trace -> background L' = Ok b -> longest N_star trace <= N_star /\ longest N_star trace <= so_N_tot b - 1/10) /\
  ((forall L' b, In L' trace -> background L' = Ok b -> N_star <= so_N_tot b - 1/10) -> longest N_star trace = N_star).
Proof.
  intros L0 N L c tr E. unfold slowroll_calculate in E. destruct (sh 11 0 L0 (Some N) []) as [o|] eqn:ES; [|discriminate]. cbn [bind] in E.
  destruct (unrealistic _); [discriminate|]. injection E as ->. destruct (shoot_how _ _ _ _ _ _ ES) as (t & Et & K). cbn [fst snd app] in *. subst tr.
  split; [exact K|]. clear. split.
  - revert N. assert (LE : forall u N, longest N u <= N).
    { clear t. induction u as [|x u IH]; intros N; unfold longest in *; cbn [fold_left]; [apply Rle_refl|]. destruct (background x); [|apply IH]. eapply Rle_trans; [apply IH|apply Rmin_l]. }
    intros N L' b I EB. split; [apply LE|]. revert N. induction t as [|x t IH]; intros N; [contradiction|]. destruct I as [->|I].
    + unfold longest. cbn [fold_left]. rewrite EB. eapply Rle_trans; [apply (LE t)|apply Rmin_r].
    + unfold longest in *. cbn [fold_left]. apply IH, I.
  - revert N. induction t as [|x t IH]; intros N H; [reflexivity|]. unfold longest in *. cbn [fold_left].
    destruct (background x) as [b|] eqn:EB.
    + assert (X : N <= so_N_tot b - 1/10) by (apply (H x); [left; reflexivity|exact EB]). rewrite Rmin_left by exact X. apply IH. intros L' b' I. apply H. right. exact I.
    + apply IH. intros L' b' I. apply H. right. exact I.
Qed.
Theorem C71_terminates :
  forall Lambda0 N_star, (forall x, background x <> Raise UnboundLocalError) -> (forall x m, calibrate x m <> Raise UnboundLocalError) ->
  slowroll_calculate background calibrate target n_s rho_reh w_reh Lambda0 N_star <> Raise UnboundLocalError.
Proof.
  intros L0 N HB HC. unfold slowroll_calculate. pose proof (shoot_fuel 11 0 L0 N [] ltac:(lia) ltac:(lia) HB HC) as X.
  destruct (sh 11 0 L0 N []) as [o|e]; cbn [bind]; [|exact X]. destruct (unrealistic _); discriminate.
Qed.
(** if A_s = q Lambda^4 (calibration independent of Lambda apart from that), at most two backgrounds are solved *)
Theorem C71_scaling_law :
  forall Lambda0 N_star q L c trace, 0 < target -> 0 < q -> 0 < Lambda0 ->
  (forall x m c, 0 < x -> calibrate x m = Ok c -> c_As c = q * x ^ 4) ->
  slowroll_calculate background calibrate target n_s rho_reh w_reh Lambda0 N_star = Ok (L, c, trace) ->
  (List.length trace <= 2)%nat.
Proof.
  intros L0 N q L c tr HT Hq HL SC E. unfold slowroll_calculate in E. destruct (sh 11 0 L0 N []) as [o|] eqn:ES; [|discriminate]. cbn [bind] in E.
  destruct (unrealistic _); [discriminate|]. injection E as ->.
  remember 10%nat as f. cbn [shoot] in ES. destruct (background L0) as [b|]; [|discriminate]. cbn [bind] in ES. destruct (negb (so_success b)); [discriminate|].
  destruct (match rho_reh with Some rho => if Rlt_dec (so_rho_end b) rho then true else false | None => false end); [discriminate|].
  destruct (choose n_s rho_reh w_reh N (so_N_tot b)) as [[m N']|]; [|discriminate]. cbn [bind fst snd] in ES.
  destruct (calibrate L0 m) as [c0|] eqn:EK; [|discriminate]. cbn [bind] in ES.
  destruct (Rlt_dec _ _); [injection ES as <- <- <-; cbn; lia|]. cbn [Nat.ltb Nat.leb] in ES.
  set (L1 := pypow (target / c_As c0) (1 / 4) * L0) in *.
  assert (A0 : c_As c0 = q * L0 ^ 4) by (apply (SC L0 m); assumption).
  assert (PA : 0 < c_As c0) by (rewrite A0; apply Rmult_lt_0_compat; [exact Hq|apply pow_lt; exact HL]).
  assert (PR : 0 < target / c_As c0) by (apply Rdiv_lt_0_compat; assumption).
  assert (P4 : pypow (target / c_As c0) (1 / 4) ^ 4 = target / c_As c0 /\ 0 < pypow (target / c_As c0) (1 / 4)).
  { unfold pypow. destruct (Rlt_dec 0 (target / c_As c0)); [|contradiction]. split; [|apply exp_pos].
    rewrite <- Rpower_pow by apply exp_pos. rewrite Rpower_mult. replace (1 / 4 * INR 4) with 1 by (cbn; field). apply Rpower_1; assumption. }
  assert (PL : 0 < L1) by (apply Rmult_lt_0_compat; [apply P4|exact HL]).
  subst f. cbn [shoot] in ES. destruct (background L1) as [b1|]; [|discriminate]. cbn [bind] in ES. destruct (negb (so_success b1)); [discriminate|].
  destruct (match rho_reh with Some rho => if Rlt_dec (so_rho_end b1) rho then true else false | None => false end); [discriminate|].
  destruct (choose n_s rho_reh w_reh N' (so_N_tot b1)) as [[m1 N1]|]; [|discriminate]. cbn [bind fst snd] in ES.
  destruct (calibrate L1 m1) as [c1|] eqn:EK1; [|discriminate]. cbn [bind] in ES.
  assert (A1 : c_As c1 = target).
  { rewrite (SC L1 m1 c1 PL EK1). unfold L1. rewrite Rpow_mult_distr, (proj1 P4), A0. field. split; [lra|apply Rgt_not_eq; lra]. }
  destruct (Rlt_dec (Rabs (c_As c1 - target)) (atol + rtol * target)) as [_|X].
  - injection ES as <- <- <-. cbn. lia.
  - exfalso. apply X. rewrite A1, Rminus_diag_eq by reflexivity. rewrite Rabs_R0. unfold atol, rtol. lra.
Qed.
(** every rejection is a primpy error: if solving and calibrating raise nothing else and N_star is a number (the wrapper's
    default is 75), so does the wrapper; it gives up with PrimpyError itself when the result is unrealistic *)
Lemma shoot_errors : forall fuel i L N tr e, (10 < fuel + i)%nat -> (i <= 10)%nat ->
  (forall x e, background x = Raise e -> is_primpy_error e = true) -> (forall x m e, calibrate x m = Raise e -> is_primpy_error e = true) ->
  sh fuel i L (Some N) tr = Raise e -> is_primpy_error e = true.
Proof.
  induction fuel as [|fuel IH]; intros i L N tr e H Hi HB HC; [lia|]. cbn [shoot].
  destruct (background L) as [b|e'] eqn:EB; cbn [bind]; [|intros X; injection X as <-; exact (HB _ _ EB)]. destruct (negb (so_success b)); [intros [= <-]; reflexivity|].
  destruct (match rho_reh with Some rho => if Rlt_dec (so_rho_end b) rho then true else false | None => false end); [intros [= <-]; reflexivity|].
  assert (CH : exists m N', choose n_s rho_reh w_reh (Some N) (so_N_tot b) = Ok (m, Some N')).
  { unfold choose. destruct w_reh; destruct rho_reh; destruct n_s; eauto. }
  destruct CH as (m & N' & ->). cbn [bind fst snd].
  destruct (calibrate L m) as [c|e'] eqn:EK; cbn [bind]; [|intros X; injection X as <-; exact (HC _ _ _ EK)].
  destruct (Rlt_dec _ _); [discriminate|]. destruct (Nat.ltb i 10) eqn:E10; [|intros [= <-]; reflexivity]. apply Nat.ltb_lt in E10. apply IH; auto; lia.
Qed.
Theorem C71_rejections : forall Lambda0 N,
  (forall x e, background x = Raise e -> is_primpy_error e = true) -> (forall x m e, calibrate x m = Raise e -> is_primpy_error e = true) ->
  (forall e, slowroll_calculate background calibrate target n_s rho_reh w_reh Lambda0 (Some N) = Raise e -> is_primpy_error e = true) /\
  (forall b, background Lambda0 = Ok b -> so_success b = false ->
     slowroll_calculate background calibrate target n_s rho_reh w_reh Lambda0 (Some N) = Raise StepSizeError) /\
  (forall b rho, background Lambda0 = Ok b -> so_success b = true -> rho_reh = Some rho -> so_rho_end b < rho ->
     slowroll_calculate background calibrate target n_s rho_reh w_reh Lambda0 (Some N) = Raise PrimpyError).
Proof.
  intros L0 N HB HC. unfold slowroll_calculate. split; [|split].
  - intros e E. destruct (sh 11 0 L0 (Some N) []) as [o|e'] eqn:ES; cbn [bind] in E.
    + destruct (unrealistic _); [injection E as <-; reflexivity|discriminate].
    + injection E as ->. exact (shoot_errors 11 0 L0 N [] e ltac:(lia) ltac:(lia) HB HC ES).
  - intros b EB F. cbn [shoot]. rewrite EB. cbn [bind]. rewrite F. reflexivity.
  - intros b rho EB F ER LT. cbn [shoot]. rewrite EB. cbn [bind]. rewrite F, ER. cbn [negb]. destruct (Rlt_dec (so_rho_end b) rho); [reflexivity|contradiction].
Qed.
Theorem C71_unrealistic : forall Lambda0 N_star L c tr, sh 11 0 Lambda0 N_star [] = Ok (L, c, tr) ->
  (forall w, c_w c = Fin w -> w <= -1/3 \/ 1 <= w -> slowroll_calculate background calibrate target n_s rho_reh w_reh Lambda0 N_star = Raise PrimpyError) /\
  (forall d, c_DeltaN c = Fin d -> d < 0 -> slowroll_calculate background calibrate target n_s rho_reh w_reh Lambda0 N_star = Raise PrimpyError) /\
  (forall a b, c_Nreh c = Fin a -> c_N0 c = Fin b -> b < a -> slowroll_calculate background calibrate target n_s rho_reh w_reh Lambda0 N_star = Raise PrimpyError).
Proof.
  intros L0 N L c tr E. unfold slowroll_calculate. rewrite E. cbn [bind fst snd].
  assert (G : unrealistic c = true -> (if unrealistic c then Raise PrimpyError else Ok (L, c, tr)) = Raise PrimpyError) by (intros ->; reflexivity).
  split; [|split].
  - intros w Ew H. apply G. unfold unrealistic, fle, flt, feq. rewrite Ew.
    destruct H as [H|H].
    + destruct (Rlt_dec w (-1/3)); [reflexivity|]. destruct (Req_EM_T w (-1/3)); [reflexivity|lra].
    + destruct (Rlt_dec 1 w); [|destruct (Req_EM_T 1 w); [|lra]]; rewrite ?orb_true_r; reflexivity.
  - intros d Ed H. apply G. unfold unrealistic. rewrite Ed. cbn [flt]. destruct (Rlt_dec d 0); [|contradiction]. rewrite ?orb_true_r. reflexivity.
  - intros a b Ea Eb H. apply G. unfold unrealistic. rewrite Ea, Eb. cbn [flt]. destruct (Rlt_dec b a); [|contradiction]. rewrite ?orb_true_r. reflexivity.
Qed.
End C71.
Theorem C71_nonvacuous :
  exists o, slowroll_calculate (fun _ => Ok (mksolved true 1 70)) (fun L _ => Ok (mkcal (L ^ 4) (Fin 0) (Fin 0) (Fin 0) (Fin 0))) 16 None None None 1 (Some 60) = Ok o /\ List.length (snd o) = 2%nat.
Proof.
  unfold slowroll_calculate. cbn [shoot bind so_success negb choose so_N_tot fst snd c_As].
  destruct (Rlt_dec (Rabs (1 ^ 4 - 16)) _) as [X|_].
  { exfalso. unfold atol, rtol in X. pose proof (Rle_abs (- (1 ^ 4 - 16))) as Y. rewrite Rabs_Ropp in Y. lra. }
  cbn [Nat.ltb Nat.leb shoot bind so_success negb choose so_N_tot fst snd c_As].
  assert (E : pypow (16 / 1 ^ 4) (1 / 4) = 2).
  { replace (16 / 1 ^ 4) with (2 ^ 4) by field. unfold pypow. destruct (Rlt_dec 0 (2 ^ 4)) as [_|X]; [|exfalso; lra].
    rewrite <- Rpower_pow by lra. rewrite Rpower_mult. replace (INR 4 * (1 / 4)) with 1 by (cbn; field). apply Rpower_1. lra. }
  rewrite E. destruct (Rlt_dec (Rabs ((2 * 1) ^ 4 - 16)) _) as [_|X].
  - cbn [bind fst snd]. unfold unrealistic, fle, flt, feq. cbn [c_w c_DeltaN c_Nreh c_N0]. destruct (Rlt_dec 0 (-1 / 3)); [lra|]. destruct (Req_EM_T 0 (-1/3)); [lra|]. destruct (Rlt_dec 1 0); [lra|]. destruct (Req_EM_T 1 0); [lra|].
    destruct (Rlt_dec 0 0); [lra|]. cbn. eexists. split; [reflexivity|]. reflexivity.
  - exfalso. apply X. replace ((2 * 1) ^ 4 - 16) with 0 by ring. rewrite Rabs_R0. unfold atol, rtol. lra.
Qed.

(** dictionaries that the theorems C70 and C83 apply to *)
Definition d_osc (A : R) : pdict := [("A_s", Some 2); ("A_log", Some A); ("w_log", Some 7); ("p_log", Some (1/4))].
Lemma d_osc_resolve A n : n = None \/ n = Some 0 -> resolve n (d_osc A) = Ok (mkplpar 2 1 0 0 0 (- (0 / 2) / 8 * (2 - 1 - 0 / 2 / 8)) (0 / 2 / 8 * (0 / 2 / 8 + 1 - 1))).
Proof.
  intros H. unfold resolve, d_osc. cbv zeta. cbn [pget String.eqb Ascii.eqb Bool.eqb num bind]. unfold pydiv. destruct (Req_EM_T 2 0); [lra|]. cbn [bind num fst snd].
  destruct H as [-> | ->]; cbn [truthy]; [|destruct (Req_EM_T 0 0); [|lra]]; cbn [bind num fst snd];
  (destruct (Rlt_dec 0 0); [lra|]; destruct (Rlt_dec 0 (0 / 2)); [lra|]; reflexivity).
Qed.
Theorem C70_nonvacuous : exists P, gives_or (d_osc 0) "A_log" 0 0 /\ gives (d_osc 0) "w_log" 7 /\ gives (d_osc 0) "p_log" (1/4) /\ absent (d_osc 0) "n_t" /\
  powerlaw_calculate [1; 2] 1 (d_osc 0) = Ok P /\ logosc_calculate [1; 2] 1 (d_osc 0) = Ok P.
Proof.
  assert (X : exists P, powerlaw_calculate [1; 2] 1 (d_osc 0) = Ok P).
  { unfold powerlaw_calculate. rewrite d_osc_resolve by (right; reflexivity). eexists; reflexivity. }
  destruct X as (P & X). exists P. split; [left; intros x; reflexivity|]. split; [intros x; reflexivity|]. split; [intros x; reflexivity|].
  split; [intros x; reflexivity|]. split; [exact X|].
  apply (C70_accepted_partial [1; 2] 1 (d_osc 0) P 7 (1/4)); [left; intros x; reflexivity|intros x; reflexivity|intros x; reflexivity|left; intros x; reflexivity|exact X].
Qed.
Theorem C83_nonvacuous : exists Ps Pt, logosc_calculate [1] 1 (d_osc (1/2)) = Ok (Ps, Pt) /\ nth 0 Ps 0 = 2.
Proof.
  assert (X : exists P, logosc_calculate [1] 1 (d_osc (1/2)) = Ok P).
  { unfold logosc_calculate. rewrite d_osc_resolve by (left; reflexivity). eexists; reflexivity. }
  destruct X as ([Ps Pt] & X). exists Ps, Pt. split; [exact X|].
  destruct (proj1 (C83_feature_factors [1] 1 (d_osc (1/2)) Ps Pt) (1/2) 7 (1/4)) as (Ps0 & Pt0 & E & H); [left; intros x; reflexivity|intros x; reflexivity|intros x; reflexivity|exact X|].
  destruct (H 0%nat ltac:(cbn; lia)) as (-> & _).
  unfold powerlaw_calculate in E. rewrite d_osc_resolve in E by (right; reflexivity). injection E as <- _. cbn [map nth q_As q_ns q_nrun q_nrunrun].
  unfold scalar_pk. replace (1 / 1) with 1 by field. rewrite ln_1. replace (7 * 0 + 2 * PI * (1/4)) with (PI / 2) by field. rewrite cos_PI2.
  replace ((1 - 1) * 0 + 0 / 2 * 0 ^ 2 + 0 / 6 * 0 ^ 3) with 0 by field. rewrite exp_0. ring.
Qed.
