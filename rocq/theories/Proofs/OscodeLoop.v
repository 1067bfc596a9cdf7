(** The loop of solve_oscode over wavenumbers. *)
From Coq Require Import Reals List String Bool Lra Lia.
From Coquelicot Require Import Coquelicot.
From Verif Require Import Base Model.Potentials Model.Equations Model.Background Model.Float Model.Perturbations Model.Oscode.
Import ListNotations.
Open Scope R_scope.

Lemma dget_dset {A} k (v : A) d k' : dget k' (dset k v d) = if String.eqb k' k then Ok v else dget k' d.
Proof.
  unfold dget. induction d as [|[k0 v0] d IH]; cbn [dset find fst].
  - destruct (String.eqb k' k); reflexivity.
  - destruct (String.eqb k k0) eqn:E; cbn [find fst].
    + apply String.eqb_eq in E. subst k0. destruct (String.eqb k' k); reflexivity.
    + destruct (String.eqb k' k0) eqn:E2; [|exact IH]. apply String.eqb_eq in E2. subst k0.
      destruct (String.eqb k' k) eqn:E3; [|reflexivity]. apply String.eqb_eq in E3. subst. rewrite String.eqb_refl in E. discriminate.
Qed.
Lemma nth_set_nth {A} i j (v d : A) l : (i < List.length l)%nat -> nth j (set_nth i v l) d = if Nat.eqb i j then v else nth j l d.
Proof.
  revert i j. induction l as [|h t IH]; intros i j Hi; cbn in Hi; [lia|].
  destruct i, j; cbn; try reflexivity. apply IH. lia.
Qed.
Lemma length_set_nth {A} i (v : A) l : List.length (set_nth i v l) = List.length l.
Proof. revert i. induction l as [|h t IH]; intros [|i]; cbn; auto. Qed.
Lemma set_nth_twice {A} i (v : A) l : set_nth i v (set_nth i v l) = set_nth i v l.
Proof. revert i. induction l as [|h t IH]; intros [|i]; cbn; auto. f_equal. apply IH. Qed.

Lemma fold_raise {A B} (f : A -> B -> res A) l e : fold_left (fun acc v => bind acc (fun d => f d v)) l (Raise e) = Raise e.
Proof. induction l; cbn; auto. Qed.

(** *** powers of one mode *)
Section Powers.
Variables (nanmedian : list C -> C) (norm : R) (ic : string -> res (C * C)) (r1 r2 : list C * list C).
Definition vac_power (v : string) : res R :=
  do u <- ic v; combine_solutions nanmedian norm u (fst r1) (snd r1) (fst r2) (snd r2).
Lemma mode_powers_get vacuum d : mode_powers nanmedian norm ic r1 r2 vacuum = Ok d ->
  forall v, In v vacuum -> exists P, vac_power v = Ok P /\ dget v d = Ok P.
Proof.
  unfold mode_powers.
  assert (G : forall vs d0 d, fold_left (fun acc vac => do d <- acc; do v <- ic vac;
      do P <- combine_solutions nanmedian norm v (fst r1) (snd r1) (fst r2) (snd r2); Ok (dset vac P d)) vs (Ok d0) = Ok d ->
     (forall v, In v vs -> exists P, vac_power v = Ok P /\ dget v d = Ok P) /\ (forall v, ~ In v vs -> dget v d = dget v d0)).
  { induction vs as [|v vs IH]; intros d0 d1 E; cbn [fold_left] in E.
    - injection E as <-. split; [intros v []|reflexivity].
    - cbn [bind] in E. destruct (ic v) as [u|e] eqn:EI; cbn [bind] in E; [|rewrite fold_raise in E; discriminate].
      destruct (combine_solutions nanmedian norm u (fst r1) (snd r1) (fst r2) (snd r2)) as [P|e] eqn:EP; cbn [bind] in E; [|rewrite fold_raise in E; discriminate].
      destruct (IH _ _ E) as [A B]. split.
      + intros w [<-|Hw]; [|exact (A w Hw)]. destruct (in_dec string_dec v vs) as [I|I]; [exact (A v I)|].
        exists P. split; [unfold vac_power; rewrite EI; cbn [bind]; exact EP|]. rewrite (B v I), dget_dset, String.eqb_refl. reflexivity.
      + intros w Hw. rewrite (B w) by (intros X; apply Hw; right; exact X). rewrite dget_dset.
        destruct (String.eqb w v) eqn:E3; [|reflexivity]. apply String.eqb_eq in E3. subst. destruct Hw. left. reflexivity. }
  intros E. exact (proj1 (G vacuum [] d E)).
Qed.
End Powers.

(** *** storing the results of one wavenumber *)
Definition has {A} (vs : list string) (d : list (string * A)) : Prop := forall v, In v vs -> exists a, dget v d = Ok a.
Lemma store_spec i p vs : forall S, has vs (ps_s S) -> has vs (ps_t S) -> has vs (pP_s p) -> has vs (pP_t p) ->
  exists S', store i p S vs = Ok S' /\ ps_k S' = ps_k S /\ ps_k_iMpc S' = ps_k_iMpc S /\
  (forall v, In v vs -> forall arr P, dget v (ps_s S) = Ok arr -> dget v (pP_s p) = Ok P -> dget v (ps_s S') = Ok (set_nth i (Fin P) arr)) /\
  (forall v, In v vs -> forall arr P, dget v (ps_t S) = Ok arr -> dget v (pP_t p) = Ok P -> dget v (ps_t S') = Ok (set_nth i (Fin P) arr)) /\
  (forall v, ~ In v vs -> dget v (ps_s S') = dget v (ps_s S) /\ dget v (ps_t S') = dget v (ps_t S)).
Proof.
  unfold store. induction vs as [|v vs IH]; intros S Hs Ht Ps Pt; cbn [fold_left].
  - exists S. repeat split; try easy.
  - destruct (Hs v) as [arr Ea]; [left; reflexivity|]. destruct (Ht v) as [art Et]; [left; reflexivity|].
    destruct (Ps v) as [P EP]; [left; reflexivity|]. destruct (Pt v) as [Q EQ]; [left; reflexivity|].
    cbn [bind]. rewrite Ea, EP. cbn [bind ps_k ps_k_iMpc ps_s ps_t]. rewrite Et, EQ. cbn [bind].
    set (S1 := mkpps (ps_k S) (ps_k_iMpc S) (dset v (set_nth i (Fin P) arr) (ps_s S)) (dset v (set_nth i (Fin Q) art) (ps_t S))).
    destruct (IH S1) as (S' & E & K1 & K2 & A & B & D).
    + intros w Hw. unfold S1; cbn [ps_s]. rewrite dget_dset. destruct (String.eqb w v); [eexists; reflexivity|]. apply Hs. right. exact Hw.
    + intros w Hw. unfold S1; cbn [ps_t]. rewrite dget_dset. destruct (String.eqb w v); [eexists; reflexivity|]. apply Ht. right. exact Hw.
    + intros w Hw. apply Ps. right. exact Hw.
    + intros w Hw. apply Pt. right. exact Hw.
    + exists S'. split; [exact E|]. split; [exact K1|]. split; [exact K2|]. unfold S1 in A, B, D; cbn [ps_s ps_t] in A, B, D.
      split; [|split].
      * intros w Hw arr' P' E1 E2. destruct (String.eqb w v) eqn:EW.
        -- apply String.eqb_eq in EW. subst w. rewrite Ea in E1. rewrite EP in E2. injection E1 as <-. injection E2 as <-.
           destruct (in_dec string_dec v vs) as [I|I].
           ++ rewrite (A v I (set_nth i (Fin P) arr) P); [rewrite set_nth_twice; reflexivity|rewrite dget_dset, String.eqb_refl; reflexivity|exact EP].
           ++ rewrite (proj1 (D v I)), dget_dset, String.eqb_refl. reflexivity.
        -- destruct Hw as [<-|Hw]; [rewrite String.eqb_refl in EW; discriminate|]. apply A; [exact Hw|rewrite dget_dset, EW; exact E1|exact E2].
      * intros w Hw arr' P' E1 E2. destruct (String.eqb w v) eqn:EW.
        -- apply String.eqb_eq in EW. subst w. rewrite Et in E1. rewrite EQ in E2. injection E1 as <-. injection E2 as <-.
           destruct (in_dec string_dec v vs) as [I|I].
           ++ rewrite (B v I (set_nth i (Fin Q) art) Q); [rewrite set_nth_twice; reflexivity|rewrite dget_dset, String.eqb_refl; reflexivity|exact EQ].
           ++ rewrite (proj2 (D v I)), dget_dset, String.eqb_refl. reflexivity.
        -- destruct Hw as [<-|Hw]; [rewrite String.eqb_refl in EW; discriminate|]. apply B; [exact Hw|rewrite dget_dset, EW; exact E1|exact E2].
      * intros w Hw. destruct (D w) as [D1 D2]; [intros X; apply Hw; right; exact X|]. rewrite D1, D2, !dget_dset.
        destruct (String.eqb w v) eqn:EW; [|split; reflexivity]. apply String.eqb_eq in EW. subst. destruct Hw. left. reflexivity.
Qed.

(** *** the loop *)
Section Loop.
Variables (step : R -> res pert) (vs : list string).
Hypothesis SH : forall k p, step k = Ok p -> has vs (pP_s p) /\ has vs (pP_t p).

Definition sized (n : nat) (S : pps) : Prop :=
  (forall v, In v vs -> exists arr, dget v (ps_s S) = Ok arr /\ List.length arr = n) /\
  (forall v, In v vs -> exists arr, dget v (ps_t S) = Ok arr /\ List.length arr = n).

Lemma loop_spec n : forall ks i S p0, sized n S -> (i + List.length ks <= n)%nat ->
  match k_loop step vs i ks S p0 with
  | Raise e => exists k, In k ks /\ step k = Raise e
  | Ok (S', p') =>
      sized n S' /\ ps_k S' = ps_k S /\ ps_k_iMpc S' = ps_k_iMpc S /\
      (forall k, In k ks -> exists q, step k = Ok q) /\
      p' = match ks with [] => p0 | _ => match step (last ks 0) with Ok q => Some q | Raise _ => None end end /\
      (forall v arr arr', In v vs -> dget v (ps_s S) = Ok arr -> dget v (ps_s S') = Ok arr' ->
         forall j, nth j arr' NaN = if (Nat.leb i j && Nat.ltb j (i + List.length ks))%bool
                   then (match step (nth (j - i) ks 0) with Ok q => match dget v (pP_s q) with Ok P => Fin P | _ => NaN end | _ => NaN end)
                   else nth j arr NaN) /\
      (forall v arr arr', In v vs -> dget v (ps_t S) = Ok arr -> dget v (ps_t S') = Ok arr' ->
         forall j, nth j arr' NaN = if (Nat.leb i j && Nat.ltb j (i + List.length ks))%bool
                   then (match step (nth (j - i) ks 0) with Ok q => match dget v (pP_t q) with Ok P => Fin P | _ => NaN end | _ => NaN end)
                   else nth j arr NaN)
  end.
Proof.
  induction ks as [|k ks IH]; intros i S p0 SZ L.
  - cbn [k_loop]. split; [exact SZ|]. split; [reflexivity|]. split; [reflexivity|]. split; [intros k []|]. split; [reflexivity|].
    assert (Z : forall j, (Nat.leb i j && Nat.ltb j (i + List.length (@nil R)))%bool = false).
    { intros j. apply andb_false_iff. destruct (Nat.le_gt_cases i j); [right; apply Nat.ltb_ge; cbn [List.length]; lia|left; apply Nat.leb_gt; lia]. }
    split; intros v arr arr' Hv E1 E2 j; rewrite Z; rewrite E1 in E2; injection E2 as <-; reflexivity.
  - cbn [k_loop]. destruct (step k) as [q|e] eqn:Eq; cbn [bind]; [|exists k; split; [left; reflexivity|exact Eq]].
    destruct (SH k q Eq) as [H1 H2].
    destruct (store_spec i q vs S) as (S1 & ES & K1 & K2 & A & B & _).
    { intros v Hv. destruct (proj1 SZ v Hv) as (arr & E & _). exists arr. exact E. }
    { intros v Hv. destruct (proj2 SZ v Hv) as (arr & E & _). exists arr. exact E. }
    { exact H1. } { exact H2. }
    rewrite ES. cbn [bind].
    assert (SZ1 : sized n S1).
    { split; intros v Hv.
      - destruct (proj1 SZ v Hv) as (arr & E & En). destruct (H1 v Hv) as [P EP]. eexists. split; [apply (A v Hv _ _ E EP)|]. rewrite length_set_nth. exact En.
      - destruct (proj2 SZ v Hv) as (arr & E & En). destruct (H2 v Hv) as [P EP]. eexists. split; [apply (B v Hv _ _ E EP)|]. rewrite length_set_nth. exact En. }
    cbn [List.length] in L. specialize (IH (Datatypes.S i) S1 (Some q) SZ1 ltac:(lia)).
    destruct (k_loop step vs (Datatypes.S i) ks S1 (Some q)) as [[S' p']|e].
    2:{ destruct IH as (k' & I & E). exists k'. split; [right; exact I|exact E]. }
    destruct IH as (SZ' & K1' & K2' & OKs & EP & F & G).
    split; [exact SZ'|]. split; [congruence|]. split; [congruence|].
    split. { intros k' [<-|Hk]; [exists q; exact Eq|exact (OKs k' Hk)]. }
    split. { rewrite EP. destruct ks as [|k2 ks2]; [cbn; rewrite Eq; reflexivity|]. reflexivity. }
    assert (Z : forall (T : Type) j (x y : T), (if (Nat.leb (Datatypes.S i) j && Nat.ltb j (Datatypes.S i + List.length ks))%bool then x else y)
       = if Nat.eqb i j then y else if (Nat.leb i j && Nat.ltb j (i + List.length (k :: ks)))%bool then x else y).
    { intros T j x y'. cbn [List.length]. destruct (Nat.leb_spec (Datatypes.S i) j), (Nat.leb_spec i j), (Nat.eqb_spec i j); try lia; cbn [andb]; try reflexivity.
      - replace (i + Datatypes.S (List.length ks))%nat with (Datatypes.S i + List.length ks)%nat by lia. reflexivity. }
    split.
    + intros v arr arr' Hv E1 E2 j. destruct (H1 v Hv) as [P EP1]. pose proof (A v Hv _ _ E1 EP1) as E3.
      rewrite (F v _ arr' Hv E3 E2 j). rewrite Z. destruct (proj1 SZ v Hv) as (arr0 & E0 & En). rewrite E1 in E0. injection E0 as <-.
      rewrite nth_set_nth by lia. destruct (Nat.eqb_spec i j) as [<-|NE].
      * rewrite Nat.leb_refl. destruct (Nat.ltb_spec i (i + List.length (k :: ks))) as [_|X]; [|cbn in X; lia]. cbn [andb]. rewrite Nat.sub_diag. cbn [nth]. rewrite Eq, EP1. reflexivity.
      * destruct (Nat.leb_spec i j) as [Lj|Lj]; [|reflexivity]. destruct (Nat.ltb j (i + List.length (k :: ks))); [|reflexivity]. cbn [andb].
        replace (j - i)%nat with (Datatypes.S (j - Datatypes.S i)) by lia. cbn [nth]. reflexivity.
    + intros v arr arr' Hv E1 E2 j. destruct (H2 v Hv) as [P EP1]. pose proof (B v Hv _ _ E1 EP1) as E3.
      rewrite (G v _ arr' Hv E3 E2 j). rewrite Z. destruct (proj2 SZ v Hv) as (arr0 & E0 & En). rewrite E1 in E0. injection E0 as <-.
      rewrite nth_set_nth by lia. destruct (Nat.eqb_spec i j) as [<-|NE].
      * rewrite Nat.leb_refl. destruct (Nat.ltb_spec i (i + List.length (k :: ks))) as [_|X]; [|cbn in X; lia]. cbn [andb]. rewrite Nat.sub_diag. cbn [nth]. rewrite Eq, EP1. reflexivity.
      * destruct (Nat.leb_spec i j) as [Lj|Lj]; [|reflexivity]. destruct (Nat.ltb j (i + List.length (k :: ks))); [|reflexivity]. cbn [andb].
        replace (j - i)%nat with (Datatypes.S (j - Datatypes.S i)) by lia. cbn [nth]. reflexivity.
Qed.
End Loop.

Lemma init_arrays (ks : list R) vs : forall d0, let d := fold_left (fun d v => dset v (map (fun _ => NaN) ks) d) vs d0 in
  (forall v, In v vs -> dget v d = Ok (map (fun _ : R => NaN) ks)) /\ (forall v, ~ In v vs -> dget v d = dget v d0).
Proof.
  cbv zeta. induction vs as [|v vs IH]; intros d0; cbn [fold_left]; [split; [intros v []|reflexivity]|].
  destruct (IH (dset v (map (fun _ => NaN) ks) d0)) as [A B]. split.
  - intros w [<-|Hw]; [|exact (A w Hw)]. destruct (in_dec string_dec v vs) as [I|I]; [exact (A v I)|].
    rewrite (B v I), dget_dset, String.eqb_refl. reflexivity.
  - intros w Hw. rewrite (B w) by (intros X; apply Hw; right; exact X). rewrite dget_dset.
    destruct (String.eqb w v) eqn:E; [|reflexivity]. apply String.eqb_eq in E. subst. destruct Hw. left. reflexivity.
Qed.
