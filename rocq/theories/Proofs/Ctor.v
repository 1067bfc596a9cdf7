From Coq Require Import Reals ZArith Lra Lia List String.
From Verif Require Import Base Model.Potentials Model.SlowRoll Spec.SlowRollSpec.
Import ListNotations.
Open Scope string_scope.

Lemma get_remove k k' l : get k (remove k' l) = if String.eqb k k' then None else get k l.
Proof.
  induction l as [|[q v] t IH]; simpl; [destruct (String.eqb k k'); reflexivity|].
  destruct (String.eqb_spec k' q) as [->|E]; simpl; rewrite IH.
  - destruct (String.eqb_spec k q); reflexivity.
  - destruct (String.eqb_spec k k') as [->|E'].
    + destruct (String.eqb_spec k' q); [congruence|reflexivity].
    + reflexivity.
Qed.
Lemma get_nil l : l = [] <-> forall k, get k l = None.
Proof.
  split; [intros ->; reflexivity|]. destruct l as [|[k v] t]; [reflexivity|]. intros H. specialize (H k). simpl in H.
  rewrite String.eqb_refl in H. discriminate.
Qed.
Lemma given_get l k : given l k <-> get k l <> None.
Proof.
  unfold given. induction l as [|[q v] t IH]; simpl; [split; [intros [v []]|congruence]|].
  destruct (String.eqb_spec k q) as [->|E].
  - split; [discriminate|]. intros _. exists v. left; reflexivity.
  - rewrite <- IH. split; intros [w H].
    + destruct H as [H|H]; [congruence|]. exists w; exact H.
    + exists w; right; exact H.
Qed.

Section S.
Variable root : (R -> R) -> R -> R -> res R.
Variable W : R -> R.

Definition base_ok (l : kwargs) : Prop :=
  (forall k, get k l <> None -> In k common_keys) /\
  ((get "A_s" l = None /\ get "N_star" l = None /\ get "phi_star" l = None) \/
   (get "A_s" l <> None /\ get "N_star" l <> None /\ get "phi_star" l = None) \/
   (get "A_s" l <> None /\ get "N_star" l = None /\ get "phi_star" l <> None)).
Definition L0 (l : kwargs) : R := match get "Lambda" l with Some v => v | None => 1%R end.

Ltac gets := unfold has, pop in *; rewrite ?get_remove in *; simpl String.eqb in *; cbv iota in *.

Lemma base_init_ok P l L : base_init root W P l = Ok L -> base_ok l.
Proof.
  unfold base_init. gets. destruct (get "A_s" l) as [A|] eqn:EA.
  - destruct (get "N_star" l) as [N|] eqn:EN; destruct (get "phi_star" l) as [f|] eqn:Ef; cbn [andb negb bind fst snd]; rewrite ?get_remove; simpl String.eqb; cbv iota; rewrite ?EN, ?Ef;
      try discriminate.
    + destruct (sr_As2Lambda _ _ _ _ _ _ _) as [t|]; simpl; [|discriminate].
      destruct (remove "phi_star" _) as [|q r] eqn:El; [|discriminate]. intros _.
      split; [|right; left; repeat match goal with |- _ /\ _ => split end; congruence].
      intros k Hk. rewrite get_nil in El. specialize (El k). rewrite !get_remove in El. simpl.
      destruct (String.eqb_spec k "phi_star"); [subst; tauto|]. destruct (String.eqb_spec k "N_star"); [subst; tauto|].
      destruct (String.eqb_spec k "A_s"); [subst; tauto|]. destruct (String.eqb_spec k "Lambda"); [subst; tauto|].
      congruence.
    + destruct (sr_As2Lambda _ _ _ _ _ _ _) as [t|]; simpl; [|discriminate].
      destruct (remove "phi_star" _) as [|q r] eqn:El; [|discriminate]. intros _.
      split; [|right; right; repeat match goal with |- _ /\ _ => split end; congruence].
      intros k Hk. rewrite get_nil in El. specialize (El k). rewrite !get_remove in El. simpl.
      destruct (String.eqb_spec k "phi_star"); [subst; tauto|]. destruct (String.eqb_spec k "N_star"); [subst; tauto|].
      destruct (String.eqb_spec k "A_s"); [subst; tauto|]. destruct (String.eqb_spec k "Lambda"); [subst; tauto|].
      congruence.
  - simpl. destruct (remove "Lambda" l) as [|q r] eqn:El; [|discriminate]. intros _.
    rewrite get_nil in El. split.
    + intros k Hk. specialize (El k). rewrite get_remove in El. simpl.
      destruct (String.eqb_spec k "Lambda"); [subst; tauto|]. congruence.
    + left. pose proof (El "N_star"). pose proof (El "phi_star"). gets. tauto.
Qed.

Lemma base_init_val P l : base_ok l ->
  base_init root W P l = match get "A_s" l with
    | None => Ok (L0 l)
    | Some A => do t <- sr_As2Lambda root W P (L0 l) A (get "phi_star" l) (get "N_star" l); Ok (fst (fst t))
    end.
Proof.
  intros [HK HP]. unfold base_init. gets. unfold L0. destruct (get "A_s" l) as [A|] eqn:EA.
  - assert (Hn : remove "phi_star" (remove "N_star" (remove "A_s" (remove "Lambda" l))) = []).
    { apply get_nil. intros k. rewrite !get_remove.
      destruct (String.eqb_spec k "phi_star"); [reflexivity|]. destruct (String.eqb_spec k "N_star"); [reflexivity|].
      destruct (String.eqb_spec k "A_s"); [reflexivity|]. destruct (String.eqb_spec k "Lambda"); [reflexivity|].
      destruct (get k l) eqn:E; [|reflexivity]. assert (In k common_keys) as Hi by (apply HK; congruence).
      simpl in Hi. intuition congruence. }
    destruct HP as [HP|[HP|HP]]; [destruct HP; congruence| |]; destruct HP as [_ [H1 H2]].
    + rewrite H2. destruct (get "N_star" l) eqn:EN; [|congruence]. simpl. rewrite Hn, !get_remove. simpl. rewrite EN, H2.
      destruct (sr_As2Lambda _ _ _ _ _ _ _); reflexivity.
    + rewrite H1. destruct (get "phi_star" l) eqn:EN; [|congruence]. simpl. rewrite Hn, !get_remove. simpl. rewrite EN, H1.
      destruct (sr_As2Lambda _ _ _ _ _ _ _); reflexivity.
  - simpl. assert (Hn : remove "Lambda" l = []).
    { apply get_nil. intros k. rewrite get_remove. destruct (String.eqb_spec k "Lambda"); [reflexivity|].
      destruct (get k l) eqn:E; [|reflexivity]. assert (In k common_keys) as Hi by (apply HK; congruence).
      simpl in Hi. intuition congruence. }
    rewrite Hn. reflexivity.
Qed.

Definition val (l : kwargs) (k : string) : R := match get k l with Some v => v | None => 0%R end.

Lemma own_ok c l P l' : own_params c l = Ok (P, l') ->
  (forall k, In k (own_keys c) -> get k l <> None) /\ P = object c (val l) /\
  (forall k, get k l' = if in_dec string_dec k (own_keys c) then None else get k l).
Proof.
  intros H.
  assert (Aux : forall (ks : list string) k, (if in_dec string_dec k ks then (None : option R) else get k l) = if existsb (String.eqb k) ks then None else get k l).
  { intros ks k. destruct (in_dec string_dec k ks) as [i|n].
    - assert (existsb (String.eqb k) ks = true) as -> by (apply existsb_exists; exists k; split; [exact i|apply String.eqb_refl]). reflexivity.
    - assert (existsb (String.eqb k) ks = false) as ->; [|reflexivity].
      apply Bool.not_true_is_false. intros C. apply existsb_exists in C as [x [Hx Hy]]. apply String.eqb_eq in Hy. subst. exact (n Hx). }
  destruct c; unfold own_params, fixed_p, object, own_keys, bind in *; gets; unfold val;
  repeat match type of H with context [match get ?k l with _ => _ end] => let E := fresh "E" in destruct (get k l) eqn:E; simpl in H; try discriminate H end;
  rewrite ?get_remove in H; simpl String.eqb in H; cbv iota in H;
  repeat match goal with E : get ?k l = Some _ |- _ => rewrite E in H; revert E end; intros;
  simpl in H;
  repeat match type of H with context [get ?k ?m] => let E := fresh "E" in destruct (get k m) eqn:E; simpl in H; try discriminate H end;
  simpl in H; injection H as <- <-;
  (split; [intros k Hk; simpl in Hk; rewrite ?get_remove in *; simpl String.eqb in *; cbv iota in *; intuition (subst; congruence)|]);
  (split; [rewrite ?get_remove in *; simpl String.eqb in *; cbv iota in *; repeat match goal with E : get _ l = Some _ |- _ => rewrite E end; reflexivity|]);
  intros k; rewrite Aux; rewrite ?get_remove; simpl existsb; rewrite ?Bool.orb_false_r; 
  repeat match goal with |- context [String.eqb k ?s] => destruct (String.eqb k s); simpl end; reflexivity.
Qed.

Lemma own_val c l : (forall k, In k (own_keys c) -> get k l <> None) ->
  (forall k, get k l <> None -> In k (own_keys c) \/ In k common_keys) ->
  exists l', own_params c l = Ok (object c (val l), l').
Proof.
  intros HR HK.
  assert (NoP : ~ In "p" (own_keys c) -> get "p" l = None).
  { intros n. destruct (get "p" l) eqn:E; [|reflexivity]. destruct (HK "p") as [h|h]; [congruence|tauto|simpl in h; intuition discriminate]. }
  assert (NoM : get "mass" l = None).
  { destruct (get "mass" l) eqn:E; [|reflexivity]. destruct (HK "mass") as [h|h]; [congruence| |]; destruct c; simpl in h; intuition discriminate. }
  destruct c; unfold own_params, fixed_p, object, own_keys, bind in *; gets; unfold val;
  repeat match type of HR with forall k, In k ?ks -> _ =>
    match ks with context [?s :: _] => lazymatch goal with _ : get s l <> None |- _ => fail | _ => assert (get s l <> None) by (apply HR; simpl; tauto) end end end;
  try (rewrite NoP by (simpl; intuition discriminate)); rewrite ?NoM;
  repeat match goal with h : get ?k l <> None |- _ => let E := fresh "E" in destruct (get k l) eqn:E; [clear h|congruence] end;
  simpl; rewrite ?get_remove; simpl String.eqb; cbv iota; repeat match goal with E : get _ l = Some _ |- _ => rewrite E; simpl end;
  rewrite ?get_remove; simpl String.eqb; cbv iota; repeat match goal with E : get _ l = Some _ |- _ => rewrite E; simpl end;
  eexists; reflexivity.
Qed.

Lemma own_common c k : In k (own_keys c) -> In k common_keys -> False.
Proof. destruct c; simpl; intuition (subst; discriminate). Qed.

Theorem construct_ok c l P L : construct root W c l = Ok (P, L) -> accepted c l.
Proof.
  unfold construct. intros H. destruct (own_params c l) as [[P' l']|e] eqn:Eo; simpl in H; [|discriminate].
  destruct (base_init root W P' l') as [L'|e] eqn:Eb; simpl in H; [|discriminate].
  destruct (own_ok _ _ _ _ Eo) as [H1 [H2 H3]]. destruct (base_init_ok _ _ _ Eb) as [H4 H5].
  unfold accepted. setoid_rewrite given_get.
  assert (HC : forall k, In k common_keys -> get k l' = get k l).
  { intros k Hk. rewrite H3. destruct (in_dec _ _ _) as [i|n]; [destruct (own_common c k i Hk)|reflexivity]. }
  rewrite !HC in H5 by (simpl; tauto).
  split; [exact H1|]. split.
  - intros k Hk. specialize (H4 k). rewrite H3 in H4. destruct (in_dec string_dec k (own_keys c)); [left; assumption|right; auto].
  - destruct H5 as [H5|[H5|H5]]; [left|right; left|right; right]; decompose [and] H5; repeat split; try assumption; intros C; congruence.
Qed.

Theorem construct_val c l : accepted c l ->
  construct root W c l = match get "A_s" l with
    | None => Ok (object c (val l), L0 l)
    | Some A => do t <- sr_As2Lambda root W (object c (val l)) (L0 l) A (get "phi_star" l) (get "N_star" l);
                Ok (object c (val l), fst (fst t))
    end.
Proof.
  unfold accepted. setoid_rewrite given_get. intros [H1 [H2 H3]].
  destruct (own_val c l H1 H2) as [l' Eo]. unfold construct. rewrite Eo. simpl.
  destruct (own_ok _ _ _ _ Eo) as [_ [_ H5]].
  assert (HC : forall k, In k common_keys -> get k l' = get k l).
  { intros k Hk. rewrite H5. destruct (in_dec _ _ _) as [i|n]; [destruct (own_common c k i Hk)|reflexivity]. }
  assert (Hb : base_ok l').
  { split.
    - intros k Hk. rewrite H5 in Hk. destruct (in_dec _ _ _) as [i|n]; [congruence|]. destruct (H2 k Hk); tauto.
    - rewrite !HC by (simpl; tauto).
      destruct (get "A_s" l), (get "N_star" l), (get "phi_star" l); intuition (try congruence). }
  rewrite (base_init_val _ _ Hb). unfold L0. rewrite !HC by (simpl; tauto).
  destruct (get "A_s" l); simpl; [|reflexivity]. destruct (sr_As2Lambda _ _ _ _ _ _ _); reflexivity.
Qed.
End S.
