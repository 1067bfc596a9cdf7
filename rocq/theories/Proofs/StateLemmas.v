(** Reasoning about the state-and-exception monad of Model/State.v. *)
From Coq Require Import Reals List String ZArith Bool Lra Lia.
From Verif Require Import Base Model.Equations Model.Float Model.Solution Model.Interp Model.State Proofs.DictLemmas Proofs.SolLemmas.
Import ListNotations.
Open Scope R_scope.
Open Scope string_scope.

(** attributes that [m] may change, whether it succeeds or raises *)
Definition touches {A} (ks : list string) (m : M A) : Prop :=
  forall s s' r, m s = (s', r) -> forall k, ~ In k ks -> dict_get k s' = dict_get k s.
Lemma touches_incl {A} ks ks' (m : M A) : touches ks m -> incl ks ks' -> touches ks' m.
Proof. intros H I s s' r E k N. eapply H; [exact E|]. intros J. apply N, I, J. Qed.
Lemma touches_ret {A} ks (a : A) : touches ks (retM a).
Proof. intros s s' r [= <- _] k _. reflexivity. Qed.
Lemma touches_raise {A} ks e : touches ks (raiseM (A:=A) e).
Proof. intros s s' r [= <- _] k _. reflexivity. Qed.
Lemma touches_lift {A} ks (m : res A) : touches ks (liftM m).
Proof. intros s s' r [= <- _] k _. reflexivity. Qed.
Lemma touches_getF ks k : touches ks (getF k).
Proof. intros s s' r [= <- _] j _. reflexivity. Qed.
Lemma touches_getA ks k : touches ks (getA k).
Proof. intros s s' r [= <- _] j _. reflexivity. Qed.
Lemma touches_getB ks k : touches ks (getB k).
Proof. intros s s' r [= <- _] j _. reflexivity. Qed.
Lemma touches_getS ks k : touches ks (getS k).
Proof. intros s s' r [= <- _] j _. reflexivity. Qed.
Lemma touches_hasattr ks k : touches ks (hasattr k).
Proof. intros s s' r [= <- _] j _. reflexivity. Qed.
Lemma touches_setM ks k v : In k ks -> touches ks (setM k v).
Proof. intros I s s' r [= <- _] j N. unfold setattr. apply get_set_neq. intros ->. contradiction. Qed.
Lemma touches_setF ks k v : In k ks -> touches ks (setF k v).
Proof. apply touches_setM. Qed.
Lemma touches_bind {A B} ks (m : M A) (f : A -> M B) : touches ks m -> (forall a, touches ks (f a)) -> touches ks (bindM m f).
Proof.
  intros Hm Hf s s' r E k N. unfold bindM in E. destruct (m s) as [s1 [a|e]] eqn:E1.
  - rewrite (Hf a _ _ _ E k N). exact (Hm _ _ _ E1 k N).
  - injection E as <- _. exact (Hm _ _ _ E1 k N).
Qed.
Ltac inl := cbn [In app]; repeat first [left; reflexivity | right].
(** a literal key is not in a literal list *)
Ltac ni := cbn [In app]; let Hin := fresh in intros Hin; repeat (destruct Hin as [Hin|Hin]; [discriminate Hin|]); exact Hin.
Ltac touch1 :=
  first [ apply touches_bind; [|intros ?] | apply touches_ret | apply touches_raise | apply touches_lift
        | apply touches_getF | apply touches_getA | apply touches_getB | apply touches_getS | apply touches_hasattr
        | apply touches_setF; inl | apply touches_setM; inl
        | lazymatch goal with
          | |- touches _ (match ?x with _ => _ end) => destruct x
          | |- touches _ (let x := ?y in _) => cbv zeta
          end ].
Ltac touch := repeat touch1.

(** rewriting rules: symbolic execution *)
Lemma run_bind_getF {B} k a (f : fl -> M B) s : dict_get k s = Some (VF a) -> bindM (getF k) f s = f a s.
Proof. intros H. unfold bindM, getF, get_F, getattr. rewrite H. reflexivity. Qed.
Lemma run_bind_getA {B} k a (f : list fl -> M B) s : dict_get k s = Some (VA a) -> bindM (getA k) f s = f a s.
Proof. intros H. unfold bindM, getA, get_A, getattr. rewrite H. reflexivity. Qed.
Lemma run_bind_getB {B} k a (f : list bool -> M B) s : dict_get k s = Some (VB a) -> bindM (getB k) f s = f a s.
Proof. intros H. unfold bindM, getB, get_B, getattr. rewrite H. reflexivity. Qed.
Lemma run_bind_getS {B} k n e l (f : _ -> M B) s : dict_get k s = Some (VSpl n e l) -> bindM (getS k) f s = f (n, e, l) s.
Proof. intros H. unfold bindM, getS, get_S, getattr. rewrite H. reflexivity. Qed.
Lemma run_bind_setF {B} k v (f : unit -> M B) s : bindM (setF k v) f s = f tt (setattr k (VF v) s).
Proof. reflexivity. Qed.
Lemma run_bind_setM {B} k v (f : unit -> M B) s : bindM (setM k v) f s = f tt (setattr k v s).
Proof. reflexivity. Qed.
Lemma run_bind_bind {A B D} (m : M A) (f : A -> M B) (g : B -> M D) s :
  bindM (bindM m f) g s = bindM m (fun x => bindM (f x) g) s.
Proof. unfold bindM. destruct (m s) as [s1 [a|e]]; reflexivity. Qed.
Lemma run_bind_ret {A B} (a : A) (f : A -> M B) s : bindM (retM a) f s = f a s.
Proof. reflexivity. Qed.
Lemma run_bind_lift {A B} (a : A) (f : A -> M B) s : bindM (liftM (Ok a)) f s = f a s.
Proof. reflexivity. Qed.
Lemma run_bind_raise {A B} e (f : A -> M B) s : bindM (raiseM e) f s = (s, Raise e).
Proof. reflexivity. Qed.
Lemma run_bind_lift_raise {A B} e (f : A -> M B) s : bindM (liftM (Raise e)) f s = (s, Raise e).
Proof. reflexivity. Qed.
Lemma bind_inv {A B} (m : M A) (f : A -> M B) s s' b : bindM m f s = (s', Ok b) ->
  exists s1 a, m s = (s1, Ok a) /\ f a s1 = (s', Ok b).
Proof. unfold bindM. destruct (m s) as [s1 [a|e]]; [eauto|discriminate]. Qed.
Lemma lift_inv {A} (m : res A) s s' a : liftM m s = (s', Ok a) -> s' = s /\ m = Ok a.
Proof. intros [= <- H]. auto. Qed.
Lemma run_bind_inv_lift {A B} (m : res A) (f : A -> M B) s s' b : bindM (liftM m) f s = (s', Ok b) ->
  exists a, m = Ok a /\ f a s = (s', Ok b).
Proof. unfold bindM, liftM. destruct m as [a|e]; [eauto|discriminate]. Qed.

(** reading an attribute of a state built by assignments *)
Ltac rd := unfold setattr; repeat first [rewrite get_set_eq | rewrite get_set_neq by discriminate]; first [reflexivity | eassumption].
(** one step of symbolic execution in a hypothesis *)
Ltac ex1 H :=
  lazymatch type of H with
  | bindM (setF _ _) _ _ = _ => rewrite run_bind_setF in H
  | bindM (setM _ _) _ _ = _ => rewrite run_bind_setM in H
  | bindM (bindM _ _) _ _ = _ => rewrite run_bind_bind in H
  | bindM (retM _) _ _ = _ => rewrite run_bind_ret in H
  | bindM (getF _) _ _ = _ => erewrite run_bind_getF in H by rd
  | bindM (getA _) _ _ = _ => erewrite run_bind_getA in H by rd
  | bindM (getB _) _ _ = _ => erewrite run_bind_getB in H by rd
  | bindM (getS _) _ _ = _ => erewrite run_bind_getS in H by rd
  | bindM (liftM (Ok _)) _ _ = _ => rewrite run_bind_lift in H
  | bindM (raiseM _) _ _ = _ => rewrite run_bind_raise in H; try discriminate H
  | raiseM _ _ = (_, Ok _) => discriminate H
  end; cbv beta in H.
Ltac ex H := repeat ex1 H.
(** and in the goal *)
Ltac gx1 :=
  lazymatch goal with
  | |- bindM (setF _ _) _ _ = _ => rewrite run_bind_setF
  | |- bindM (setM _ _) _ _ = _ => rewrite run_bind_setM
  | |- bindM (bindM _ _) _ _ = _ => rewrite run_bind_bind
  | |- bindM (retM _) _ _ = _ => rewrite run_bind_ret
  | |- bindM (getF _) _ _ = _ => erewrite run_bind_getF by rd
  | |- bindM (getA _) _ _ = _ => erewrite run_bind_getA by rd
  | |- bindM (getB _) _ _ = _ => erewrite run_bind_getB by rd
  | |- bindM (getS _) _ _ = _ => erewrite run_bind_getS by rd
  | |- bindM (liftM (Ok _)) _ _ = _ => rewrite run_bind_lift
  | |- bindM (raiseM _) _ _ = _ => rewrite run_bind_raise
  end; cbv beta.
Ltac gx := repeat gx1.

(** masks and arrays *)
Lemma reals_map l : reals (map Fin l) = Ok l.
Proof. induction l as [|a l IH]; simpl; [reflexivity|]. rewrite IH. reflexivity. Qed.
Lemma select_map {A B} (f : A -> B) m l : select m (map f l) = map f (select m l).
Proof. revert l; induction m as [|b m IH]; intros [|a l]; simpl; auto. destruct b; simpl; rewrite IH; reflexivity. Qed.
Lemma reals_inv l r : reals l = Ok r -> l = map Fin r.
Proof.
  revert r; induction l as [|a l IH]; simpl; intros r H; [injection H as <-; reflexivity|].
  destruct a; try discriminate. destruct (reals l) eqn:E; [|discriminate]. injection H as <-. simpl. f_equal. auto.
Qed.
