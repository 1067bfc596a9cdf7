From Coq Require Import Reals List String Bool Lra Lia.
From Coquelicot Require Import Coquelicot.
From Verif Require Import Base Model.Potentials Model.Equations Model.Background Model.Float Model.Perturbations Model.Oscode
  Spec.OscodeSpec.
Import ListNotations.
Open Scope R_scope.

Lemma rltb_true a b : rltb a b = true <-> a < b.
Proof. unfold rltb. destruct (Rlt_dec a b); split; intros; try easy. Qed.
Lemma rltb_false a b : rltb a b = false <-> ~ a < b.
Proof. unfold rltb. destruct (Rlt_dec a b); split; intros; try easy. Qed.

(** *** argwhere *)
Lemma argw_in m : forall i x, In x (argwhere_from i m) <-> (i <= x < i + List.length m)%nat /\ nth (x - i) m false = true.
Proof.
  induction m as [|b m IH]; intros i x; cbn [argwhere_from List.length].
  - split; [intros []|lia].
  - assert (Q : In x (argwhere_from (S i) m) <-> (i < x < i + S (List.length m))%nat /\ nth (x - i) (b :: m) false = true).
    { rewrite IH. split; intros [A B]; (split; [lia|]); replace (x - i)%nat with (S (x - S i)) in * by lia; exact B. }
    destruct b.
    + cbn [In]. rewrite Q. split.
      * intros [->|[A B]]; [split; [lia|]; rewrite Nat.sub_diag; reflexivity|split; [lia|exact B]].
      * intros [A B]. destruct (Nat.eq_dec i x) as [E|E]; [left; exact E|right; split; [lia|exact B]].
    + rewrite Q. split; intros [A B]; (split; [|exact B]); [lia|].
      destruct (Nat.eq_dec i x) as [E|E]; [subst; rewrite Nat.sub_diag in B; discriminate|lia].
Qed.
Lemma argw_hd m : forall i x l, argwhere_from i m = x :: l -> forall y, In y (argwhere_from i m) -> (x <= y)%nat.
Proof.
  induction m as [|b m IH]; intros i x l E y Hy; cbn [argwhere_from] in *; [discriminate|].
  destruct b; [|exact (IH _ _ _ E y Hy)]. injection E as <- <-.
  destruct Hy as [<-|Hy]; [lia|]. apply argw_in in Hy. lia.
Qed.
Lemma argw_last m : forall i d, argwhere_from i m <> [] -> In (last (argwhere_from i m) d) (argwhere_from i m) /\
   forall y, In y (argwhere_from i m) -> (y <= last (argwhere_from i m) d)%nat.
Proof.
  induction m as [|b m IH]; intros i d NE; cbn [argwhere_from] in *; [congruence|].
  destruct b; [|exact (IH _ _ NE)].
  destruct (argwhere_from (S i) m) as [|z t] eqn:E.
  - cbn. split; [left; reflexivity|]. intros y [<-|[]]; lia.
  - assert (NE' : argwhere_from (S i) m <> []) by (rewrite E; discriminate).
    destruct (IH (S i) d NE') as [A B]. rewrite E in A, B.
    change (last (i :: z :: t) d) with (last (z :: t) d). split; [right; exact A|].
    intros y [<-|Hy]; [|exact (B y Hy)]. assert (In (last (z :: t) d) (argwhere_from (S i) m)) by (rewrite E; exact A).
    apply argw_in in H. lia.
Qed.

Section Mask.
Variables (f : R -> bool) (l : list R) (P : nat -> Prop).
Hypothesis FP : forall i, (i < List.length l)%nat -> (f (nth i l 0) = true <-> P i).
Lemma mask_in x : In x (argwhere (map f l)) <-> (x < List.length l)%nat /\ P x.
Proof.
  unfold argwhere. rewrite argw_in, map_length, Nat.sub_0_r. split.
  - intros [A B]. split; [lia|]. apply FP; [lia|]. rewrite (nth_indep _ false (f 0)) in B by (rewrite map_length; lia). rewrite map_nth in B. exact B.
  - intros [A B]. split; [lia|]. rewrite (nth_indep _ false (f 0)) by (rewrite map_length; lia). rewrite map_nth. apply FP; assumption.
Qed.
Lemma mask_first j : at_index (argwhere (map f l)) 0 = Ok j <-> first_index P (List.length l) j.
Proof.
  unfold at_index. split.
  - intros E. destruct (argwhere (map f l)) as [|x t] eqn:EA; cbn in E; [discriminate|]. injection E as ->.
    assert (I : In j (argwhere (map f l))) by (rewrite EA; left; reflexivity). apply mask_in in I. destruct I as [I1 I2].
    split; [exact I1|]. split; [exact I2|]. intros i Hi X.
    assert (I : In i (argwhere (map f l))) by (apply mask_in; split; [lia|exact X]).
    unfold argwhere in *. pose proof (argw_hd _ _ _ _ EA i I). lia.
  - intros (A & B & C). destruct (argwhere (map f l)) as [|x t] eqn:EA.
    + assert (I : In j (argwhere (map f l))) by (apply mask_in; split; assumption). rewrite EA in I. destruct I.
    + cbn. f_equal. assert (I : In j (argwhere (map f l))) by (apply mask_in; split; assumption).
      unfold argwhere in *. pose proof (argw_hd _ _ _ _ EA j I) as L.
      assert (I2 : In x (argwhere (map f l))) by (unfold argwhere; rewrite EA; left; reflexivity). apply mask_in in I2.
      destruct (Nat.eq_dec x j) as [->|NEq]; [reflexivity|]. exfalso. apply (C x); [lia|apply I2].
Qed.
Lemma mask_none : (forall e, at_index (argwhere (map f l)) 0 = Raise e -> e = IndexError) /\
  ((exists e, at_index (argwhere (map f l)) 0 = Raise e) <-> forall i, (i < List.length l)%nat -> ~ P i).
Proof.
  unfold at_index. destruct (argwhere (map f l)) as [|x t] eqn:EA; cbn.
  - split; [congruence|]. split; [|eexists; reflexivity]. intros _ i Hi X.
    assert (I : In i (argwhere (map f l))) by (apply mask_in; split; assumption). rewrite EA in I. destruct I.
  - split; [discriminate|]. split; [intros [e E]; discriminate|]. intros X.
    assert (I : In x (argwhere (map f l))) by (rewrite EA; left; reflexivity). apply mask_in in I. destruct I as [I1 I2]. destruct (X x I1 I2).
Qed.
Lemma mask_last : 
  let i := match argwhere (map f l) with [] => 0%nat | _ => last (argwhere (map f l)) 0%nat end in
  last_index P (List.length l) i \/ ((forall j, (j < List.length l)%nat -> ~ P j) /\ i = 0%nat).
Proof.
  cbv zeta. destruct (argwhere (map f l)) as [|x t] eqn:EA.
  - right. split; [|reflexivity]. intros j Hj X. assert (I : In j (argwhere (map f l))) by (apply mask_in; split; assumption). rewrite EA in I. destruct I.
  - left. assert (NE : argwhere (map f l) <> []) by (rewrite EA; discriminate).
    unfold argwhere in NE. destruct (argw_last (map f l) 0 0%nat NE) as [A B]. unfold argwhere in EA. rewrite EA in A, B.
    assert (A' : In (last (x :: t) 0%nat) (argwhere (map f l))) by (unfold argwhere; rewrite EA; exact A). apply mask_in in A'. destruct A' as [A1 A2].
    split; [exact A1|]. split; [exact A2|]. intros i Hi X.
    assert (I : In i (argwhere (map f l))) by (apply mask_in; split; [lia|exact X]). unfold argwhere in I. rewrite EA in I. pose proof (B i I). lia.
Qed.
End Mask.

Lemma last_index_unique P n i j : last_index P n i -> last_index P n j -> i = j.
Proof.
  intros (A & B & C) (D & E & F). destruct (Nat.lt_trichotomy i j) as [L|[L|L]]; [|exact L|].
  - destruct (C j); [lia|exact E].
  - destruct (F i); [lia|exact B].
Qed.
Lemma first_index_unique P n i j : first_index P n i -> first_index P n j -> i = j.
Proof.
  intros (A & B & C) (D & E & F). destruct (Nat.lt_trichotomy i j) as [L|[L|L]]; [|exact L|].
  - destruct (F i); [lia|exact B].
  - destruct (C j); [lia|exact E].
Qed.
Lemma window_begin_unique la k fb i j : window_begin la k fb i -> window_begin la k fb j -> i = j.
Proof.
  intros [A1 A2] [B1 B2]. destruct (Req_dec fb 0) as [E|E]; [rewrite (A1 E), (B1 E); reflexivity|].
  destruct (A2 E) as [L|[L ->]], (B2 E) as [M|[M ->]].
  - exact (last_index_unique _ _ _ _ L M).
  - destruct L as (L1 & L2 & _). destruct (M i L1 L2).
  - destruct M as (L1 & L2 & _). destruct (L j L1 L2).
  - reflexivity.
Qed.

(** *** the window *)
Section Window.
Variables (la Ns : list R) (k fb fe : R).
Hypothesis Hk : 0 < k.
Hypothesis Hfb : 0 <= fb.
Hypothesis Hfe : 0 < fe.
Hypothesis LEN : List.length la = List.length Ns.

Lemma inside_iff fac i : 0 < fac -> (rltb (ln fac) (ln k - nth i la 0) = true <-> inside_by la k fac i).
Proof.
  intros Hf. rewrite rltb_true. unfold inside_by.
  split; intros X.
  - apply Rlt_gt. rewrite <- (exp_ln k) by assumption. rewrite <- (exp_ln fac) at 1 by assumption.
    rewrite <- exp_plus. apply exp_increasing. lra.
  - assert (Y : ln (exp (nth i la 0) * fac) < ln k) by (apply ln_increasing; [apply Rmult_lt_0_compat; [apply exp_pos|assumption]|exact X]).
    rewrite ln_mult, ln_exp in Y by (try apply exp_pos; assumption). lra.
Qed.
Lemma outside_iff fac i : 0 < fac -> (rltb (ln fac) (nth i la 0 - ln k) = true <-> outside_by la k fac i).
Proof.
  intros Hf. rewrite rltb_true. unfold outside_by.
  split; intros X.
  - apply Rlt_gt. rewrite <- (exp_ln k) by assumption. rewrite <- (exp_ln fac) at 1 by assumption.
    rewrite <- exp_plus. apply exp_increasing. lra.
  - assert (Y : ln (k * fac) < ln (exp (nth i la 0))) by (apply ln_increasing; [apply Rmult_lt_0_compat; assumption|exact X]).
    rewrite ln_mult, ln_exp in Y by assumption. lra.
Qed.

Definition beg_idx : nat := if Req_EM_T fb 0 then 0%nat
    else let l := argwhere (map (fun h => rltb (ln fb) (ln k - h)) la) in
         match l with [] => 0%nat | _ => last l 0%nat end.
Lemma beg_ok : window_begin la k fb beg_idx.
Proof.
  unfold window_begin, beg_idx. destruct (Req_EM_T fb 0) as [E|E]; (split; intros X; try (exfalso; lra)); [reflexivity|].
  apply (mask_last (fun h => rltb (ln fb) (ln k - h)) la (inside_by la k fb)).
  intros i Hi. apply inside_iff. lra.
Qed.
Lemma beg_lt : la <> [] -> (beg_idx < List.length la)%nat.
Proof.
  intros NE. destruct beg_ok as [A B]. assert (0 < List.length la)%nat by (destruct la; [congruence|cbn; lia]).
  destruct (Req_dec fb 0) as [E|E]; [rewrite (A E); assumption|]. destruct (B E) as [(L & _)|[_ ->]]; assumption.
Qed.
Lemma at_index_nth (l : list R) i : (i < List.length l)%nat -> at_index l i = Ok (nth i l 0).
Proof. intros L. unfold at_index. rewrite (nth_error_nth' l 0 L). reflexivity. Qed.

Lemma at_index_err {A} (l : list A) i e : at_index l i = Raise e -> e = IndexError.
Proof. unfold at_index. destruct (nth_error l i); congruence. Qed.

Lemma window_spec i j : window la Ns k fb fe = Ok (i, j) <-> window_begin la k fb i /\ window_end la Ns k fe i j.
Proof.
  unfold window. fold beg_idx. cbv zeta.
  assert (F : forall c, at_index (argwhere (map (fun h => rltb (ln fe) (h - ln k)) la)) 0 = Ok c <-> first_index (outside_by la k fe) (List.length la) c)
    by (intros c; apply mask_first; intros; apply outside_iff; assumption).
  assert (G : forall b c, at_index (argwhere (map (fun n => rltb 10 (n - nth b Ns 0)) Ns)) 0 = Ok c <-> first_index (ten_after Ns b) (List.length Ns) c)
    by (intros b c; apply mask_first; intros; rewrite rltb_true; unfold ten_after; split; intros; lra).
  split.
  - intros E. destruct (at_index (argwhere (map (fun h => rltb (ln fe) (h - ln k)) la)) 0) as [c|e] eqn:EC; cbn [bind] in E; [|discriminate].
    clear EC; assert (EC := proj1 (F c) eq_refl). pose proof EC as (C1 & _). assert (NE : la <> []) by (intros X; rewrite X in C1; cbn in C1; lia).
    rewrite at_index_nth in E by lia. cbn [bind] in E. rewrite at_index_nth in E by (rewrite <- LEN; apply beg_lt, NE). cbn [bind] in E.
    destruct (rltb (nth c Ns 0 - nth beg_idx Ns 0) 10) eqn:ER.
    + destruct (at_index (argwhere (map (fun n => rltb 10 (n - nth beg_idx Ns 0)) Ns)) 0) as [d|e] eqn:ED; cbn [bind] in E; [|discriminate].
      injection E as <- <-. split; [exact beg_ok|]. exists c. split; [exact EC|]. apply rltb_true in ER. split; [intros; lra|]. intros _. apply G. exact ED.
    + injection E as <- <-. split; [exact beg_ok|]. exists c. split; [exact EC|]. apply rltb_false in ER. split; [reflexivity|intros; lra].
  - intros [WB (c & EC & E1 & E2)]. pose proof EC as (C1 & _). assert (NE : la <> []) by (intros X; rewrite X in C1; cbn in C1; lia).
    apply F in EC. rewrite EC. cbn [bind]. rewrite at_index_nth by lia. cbn [bind]. rewrite at_index_nth by (rewrite <- LEN; apply beg_lt, NE). cbn [bind].
    rewrite <- (window_begin_unique _ _ _ _ _ WB beg_ok) in *.
    destruct (rltb (nth c Ns 0 - nth i Ns 0) 10) eqn:ER.
    + apply rltb_true in ER. specialize (E2 ER). apply G in E2. rewrite E2. cbn [bind]. reflexivity.
    + apply rltb_false in ER. rewrite E1 by lra. reflexivity.
Qed.
Lemma window_error e : window la Ns k fb fe = Raise e -> e = IndexError /\ forall i j, ~ (window_begin la k fb i /\ window_end la Ns k fe i j).
Proof.
  intros E. split.
  - unfold window in E. fold beg_idx in E. cbv zeta in E.
    destruct (at_index _ 0) as [c|e0] eqn:E0 in E; cbn [bind] in E; [|injection E as <-; exact (at_index_err _ _ _ E0)].
    destruct (at_index Ns c) as [c1|e1] eqn:E1; cbn [bind] in E; [|injection E as <-; exact (at_index_err _ _ _ E1)].
    destruct (at_index Ns beg_idx) as [c2|e2] eqn:E2; cbn [bind] in E; [|injection E as <-; exact (at_index_err _ _ _ E2)].
    destruct (rltb (c1 - c2) 10); [|discriminate].
    destruct (at_index _ 0) as [c3|e3] eqn:E3 in E; cbn [bind] in E; [discriminate|injection E as <-; exact (at_index_err _ _ _ E3)].
  - intros i j X. apply window_spec in X. congruence.
Qed.
End Window.

Lemma nth_error_firstn' {A} n m (l : list A) : (m < n)%nat -> nth_error (firstn n l) m = nth_error l m.
Proof. revert m l. induction n as [|n IH]; intros m l H; [lia|]. destruct l as [|x l]; [reflexivity|]. destruct m as [|m]; [reflexivity|]. cbn. apply IH. lia. Qed.
Lemma nth_error_skipn' {A} n m (l : list A) : nth_error (skipn n l) m = nth_error l (n + m).
Proof. revert l. induction n as [|n IH]; intros l; [reflexivity|]. destruct l as [|x l]; [destruct m; reflexivity|]. cbn. apply IH. Qed.
Lemma nth_error_ext' {A} (l l' : list A) : (forall m, nth_error l m = nth_error l' m) -> l = l'.
Proof.
  revert l'. induction l as [|x l IH]; intros [|y l'] H; [reflexivity|specialize (H 0%nat); discriminate|specialize (H 0%nat); discriminate|].
  pose proof (H 0%nat) as H0. injection H0 as ->. f_equal. apply IH. intros m. exact (H (S m)).
Qed.
Lemma slice_range {A} i j (l : list A) : (i <= j)%nat -> (j < List.length l)%nat -> is_range (slice i j l) l i j.
Proof.
  intros IJ Lj. unfold slice. split.
  - rewrite firstn_length, skipn_length. lia.
  - intros m Hm. rewrite nth_error_firstn' by lia. rewrite nth_error_skipn'. reflexivity.
Qed.
Lemma range_eq {A} (xs ys l : list A) i j : is_range xs l i j -> is_range ys l i j -> xs = ys.
Proof.
  intros [L1 H1] [L2 H2]. apply nth_error_ext'. intros m. destruct (le_lt_dec m (j - i)) as [h|h].
  - rewrite H1, H2 by exact h. reflexivity.
  - rewrite !(proj2 (nth_error_None _ _)) by lia. reflexivity.
Qed.
