From Coq Require Import Reals List String Arith Lia Ascii.
From Verif Require Import Base Model.Equations Model.Float Model.Solution.
Import ListNotations.
Open Scope string_scope.

Lemma get_set_eq {A} k (v : A) d : dict_get k (dict_set k v d) = Some v.
Proof. induction d as [|[k' v'] d IH]; simpl; [rewrite String.eqb_refl; reflexivity|]. destruct (String.eqb k k') eqn:E; simpl; [rewrite String.eqb_refl|rewrite E]; auto. Qed.
Lemma get_set_neq {A} k k' (v : A) d : k <> k' -> dict_get k (dict_set k' v d) = dict_get k d.
Proof.
  intros N. apply String.eqb_neq in N. induction d as [|[j w] d IH]; simpl; [rewrite N; reflexivity|].
  destruct (String.eqb k' j) eqn:E; simpl.
  - apply String.eqb_eq in E; subst j. rewrite N. reflexivity.
  - destruct (String.eqb k j); auto.
Qed.
Lemma get_set {A} k k' (v : A) d : dict_get k (dict_set k' v d) = if String.eqb k k' then Some v else dict_get k d.
Proof.
  destruct (String.eqb k k') eqn:E; [apply String.eqb_eq in E; subst; apply get_set_eq|apply get_set_neq, String.eqb_neq, E].
Qed.
Lemma get_del k k' s : dict_get k (delattr k' s) = if String.eqb k' k then None else dict_get k s.
Proof.
  induction s as [|[j w] s IH]; simpl; [destruct (String.eqb k' k); reflexivity|].
  destruct (String.eqb k' j) eqn:E; simpl.
  - apply String.eqb_eq in E; subst j. rewrite IH. destruct (String.eqb k' k) eqn:F; [reflexivity|].
    rewrite String.eqb_sym, F. reflexivity.
  - destruct (String.eqb k j) eqn:F; [apply String.eqb_eq in F; subst j; rewrite E; reflexivity|exact IH].
Qed.
Lemma length_set_new {A} k (v : A) d : dict_get k d = None -> List.length (dict_set k v d) = S (List.length d) /\ dict_set k v d = (d ++ [(k, v)])%list.
Proof.
  induction d as [|[j w] d IH]; simpl; [auto|]. destruct (String.eqb k j); [discriminate|]. intros H. destruct (IH H) as [E1 E2].
  simpl. rewrite E1, E2. auto.
Qed.
Lemma get_none_notin {A} k (d : dict A) : dict_get k d = None <-> ~ In k (map fst d).
Proof.
  induction d as [|[j w] d IH]; simpl; [tauto|]. destruct (String.eqb k j) eqn:E.
  - apply String.eqb_eq in E. split; [discriminate|]. intros H. exfalso. apply H. auto.
  - apply String.eqb_neq in E. rewrite IH. intuition congruence.
Qed.
Lemma map_fst_combine {A B} (l : list A) (m : list B) : List.length l = List.length m -> map fst (combine l m) = l.
Proof. revert m; induction l as [|a l IH]; intros [|b m]; simpl; try discriminate; auto. intros [= E]. f_equal. auto. Qed.

Lemma get_combine {A} ks (vs : list A) j k : NoDup ks -> List.length ks = List.length vs -> nth_error ks j = Some k ->
  dict_get k (combine ks vs) = nth_error vs j.
Proof.
  revert vs j; induction ks as [|a ks IH]; intros [|v vs] j ND L Hj; simpl in *; try discriminate.
  - destruct j; discriminate.
  - inversion ND; subst. destruct j as [|j]; simpl in Hj.
    + injection Hj as ->. simpl. rewrite String.eqb_refl. reflexivity.
    + assert (N : k <> a) by (intros ->; apply H1; eapply nth_error_In; exact Hj).
      apply String.eqb_neq in N. rewrite N. simpl. apply IH; auto.
Qed.
Lemma fold_set_new {A} (q : list (string * A)) d : NoDup (map fst d ++ map fst q) ->
  fold_left (fun d q => dict_set (fst q) (snd q) d) q d = (d ++ q)%list.
Proof.
  revert d; induction q as [|[k v] q IH]; intros d ND; simpl; [rewrite app_nil_r; reflexivity|].
  simpl in ND. pose proof (NoDup_remove_2 _ _ _ ND) as NI.
  assert (HN : dict_get k d = None) by (apply get_none_notin; intros H; apply NI, in_or_app; left; exact H).
  destruct (length_set_new k v d HN) as [_ E]. rewrite E. rewrite IH.
  - rewrite <- app_assoc. reflexivity.
  - rewrite map_app. simpl. rewrite <- app_assoc. exact ND.
Qed.
Lemma dict_zip_nodup {A} ks (vs : list A) : NoDup ks -> List.length ks = List.length vs -> dict_zip ks vs = combine ks vs.
Proof.
  intros ND L. unfold dict_zip. rewrite fold_set_new; [reflexivity|]. simpl. rewrite map_fst_combine by exact L. exact ND.
Qed.
Lemma get_dict_zip {A} ks (vs : list A) j k : NoDup ks -> List.length ks = List.length vs -> nth_error ks j = Some k ->
  dict_get k (dict_zip ks vs) = nth_error vs j.
Proof. intros. rewrite dict_zip_nodup by assumption. apply get_combine; assumption. Qed.

(** the variable registry *)
Lemma add_variable_app names idx : NoDup (map fst idx ++ names) ->
  add_variable names idx = (idx ++ combine names (seq (List.length idx) (List.length names)))%list.
Proof.
  revert idx; induction names as [|n names IH]; intros idx ND; simpl; [rewrite app_nil_r; reflexivity|].
  pose proof (NoDup_remove_2 _ _ _ ND) as NI.
  assert (HN : dict_get n idx = None) by (apply get_none_notin; intros H; apply NI, in_or_app; left; exact H).
  unfold add_variable in *. simpl. unfold add_variable1 at 2. destruct (length_set_new n (List.length idx) idx HN) as [E1 E2].
  rewrite E2. rewrite IH.
  - rewrite app_length. simpl. rewrite Nat.add_1_r, <- app_assoc. reflexivity.
  - rewrite map_app. simpl. rewrite <- app_assoc. exact ND.
Qed.
Lemma add_variable_fold calls idx : fold_left (fun d a => add_variable a d) calls idx = add_variable (List.concat calls) idx.
Proof.
  revert idx; induction calls as [|c calls IH]; intros idx; simpl; [reflexivity|]. rewrite IH. unfold add_variable. rewrite fold_left_app. reflexivity.
Qed.

Lemma append_inj_r a b s : a ++ s = b ++ s -> a = b.
Proof.
  assert (LA : forall u v, String.length (u ++ v) = (String.length u + String.length v)%nat)
    by (induction u; intros; simpl; [reflexivity|rewrite IHu; reflexivity]).
  revert b; induction a as [|x a IH]; intros [|z b] H; auto.
  - exfalso. apply (f_equal String.length) in H. simpl in H. rewrite LA in H. lia.
  - exfalso. apply (f_equal String.length) in H. simpl in H. rewrite LA in H. lia.
  - simpl in H. injection H as -> H. f_equal. apply IH, H.
Qed.

Fixpoint lastc (s : string) : option Ascii.ascii :=
  match s with EmptyString => None | String c EmptyString => Some c | String _ t => lastc t end.
Lemma lastc_events c : lastc (c ++ "_events") = Some "s"%char.
Proof. induction c as [|a c IH]; [reflexivity|]. simpl. destruct (c ++ "_events") eqn:E; [destruct c; discriminate|]. exact IH. Qed.
Lemma not_events b c : lastc b <> Some "s"%char -> b <> c ++ "_events".
Proof. intros H ->. apply H, lastc_events. Qed.
