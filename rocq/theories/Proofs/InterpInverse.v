(** Linear interpolation on strictly increasing samples is inverted by interpolation with the
    axes exchanged. *)
From Coq Require Import Reals List Lra Lia.
From Verif Require Import Base Model.Interp.
Import ListNotations.
Open Scope R_scope.

(** both coordinates strictly increasing *)
Fixpoint inc2 (l : list (R * R)) : Prop :=
  match l with
  | p :: ((p' :: _) as t) => fst p < fst p' /\ snd p < snd p' /\ inc2 t
  | _ => True
  end.
Definition swap (p : R * R) : R * R := (snd p, fst p).
Lemma inc2_swap l : inc2 l -> inc2 (map swap l).
Proof. induction l as [|p [|p' t] IH]; cbn; auto. intros (H1 & H2 & H3). split; [exact H2|]. split; [exact H1|]. apply IH, H3. Qed.
Lemma sort_inc l : inc2 l -> sort_x l = l.
Proof.
  induction l as [|p t IH]; [reflexivity|]. intros H. cbn [sort_x]. assert (HT : inc2 t) by (destruct t; [exact I|apply H]). rewrite (IH HT).
  destruct t as [|p' t]; [reflexivity|]. cbn [insert_x]. destruct H as (H & _). destruct (Rle_dec (fst p) (fst p')); [reflexivity|lra].
Qed.
Definition lin (x0 y0 x1 y1 x : R) : R := (y1 - y0) / (x1 - x0) * (x - x0) + y0.
Lemma lin_inv x0 y0 x1 y1 x : x0 < x1 -> y0 < y1 -> lin y0 x0 y1 x1 (lin x0 y0 x1 y1 x) = x.
Proof. intros. unfold lin. field. lra. Qed.
Lemma lin_lt x0 y0 x1 y1 x x' : x0 < x1 -> y0 < y1 -> x < x' -> lin x0 y0 x1 y1 x < lin x0 y0 x1 y1 x'.
Proof.
  intros. unfold lin. assert (0 < (y1 - y0) / (x1 - x0)) by (apply Rdiv_lt_0_compat; lra).
  assert ((y1 - y0) / (x1 - x0) * (x - x0) < (y1 - y0) / (x1 - x0) * (x' - x0)) by (apply Rmult_lt_compat_l; lra). lra.
Qed.
Lemma lin_0 x0 y0 x1 y1 : lin x0 y0 x1 y1 x0 = y0. Proof. unfold lin. ring. Qed.
Lemma lin_1 x0 y0 x1 y1 : x0 < x1 -> lin x0 y0 x1 y1 x1 = y1. Proof. intros. unfold lin. field. lra. Qed.
Lemma seg_cons x0 y0 x1 y1 p t x : seg_value ((x0,y0)::(x1,y1)::p::t) x = if Rle_dec x x1 then lin x0 y0 x1 y1 x else seg_value ((x1,y1)::p::t) x.
Proof. reflexivity. Qed.
Lemma seg_two x0 y0 x1 y1 x : seg_value [(x0,y0);(x1,y1)] x = lin x0 y0 x1 y1 x.
Proof. reflexivity. Qed.
Lemma seg_above l : forall x0 y0 p x, inc2 ((x0,y0)::p::l) -> x0 < x -> y0 < seg_value ((x0,y0)::p::l) x.
Proof.
  induction l as [|p' t IH]; intros x0 y0 [x1 y1] x I H.
  - rewrite seg_two. destruct I as (I1 & I2 & _). cbn in I1, I2. rewrite <- (lin_0 x0 y0 x1 y1) at 1. apply lin_lt; lra.
  - rewrite seg_cons. destruct I as (I1 & I2 & I3). cbn in I1, I2. destruct (Rle_dec x x1).
    + rewrite <- (lin_0 x0 y0 x1 y1) at 1. apply lin_lt; lra.
    + apply Rlt_trans with y1; [exact I2|]. apply IH; [exact I3|lra].
Qed.
Lemma seg_below l : forall p0 p x, inc2 (p0::p::l) -> x <= fst (last (p::l) (0,0)) -> seg_value (p0::p::l) x <= snd (last (p::l) (0,0)).
Proof.
  induction l as [|p' t IH]; intros [x0 y0] [x1 y1] x I H.
  - rewrite seg_two. destruct I as (I1 & I2 & _). cbn in I1, I2, H |- *. destruct H as [H| ->]; [|rewrite lin_1; lra].
    rewrite <- (lin_1 x0 y0 x1 y1) at 2 by lra. left. apply lin_lt; lra.
  - rewrite seg_cons. destruct I as (I1 & I2 & I3). cbn in I1, I2. change (last ((x1,y1)::p'::t) (0,0)) with (last (p'::t) (0,0)) in *. destruct (Rle_dec x x1) as [L|L].
    + assert (Y : lin x0 y0 x1 y1 x <= y1). { destruct L as [L| ->]; [|rewrite lin_1; lra]. rewrite <- (lin_1 x0 y0 x1 y1) at 2 by lra. left. apply lin_lt; lra. }
      apply Rle_trans with y1; [exact Y|]. clear -I3. revert x1 y1 p' I3. induction t as [|p'' t IH]; intros x1 y1 p' I3; [destruct I3 as (_ & H & _); cbn in *; lra|].
      destruct I3 as (_ & H & I3). change (last (p'::p''::t) (0,0)) with (last (p''::t) (0,0)). cbn in H. apply Rle_trans with (snd p'); [lra|]. destruct p'. apply (IH _ _ p'' I3).
    + apply IH; [exact I3|exact H].
Qed.
Lemma seg_inv l : forall p0 p x, inc2 (p0::p::l) -> fst p0 <= x -> seg_value (map swap (p0::p::l)) (seg_value (p0::p::l) x) = x.
Proof.
  induction l as [|p' t IH]; intros [x0 y0] [x1 y1] x I H.
  - destruct I as (I1 & I2 & _). cbn in I1, I2. cbn [map swap fst snd]. rewrite !seg_two. apply lin_inv; assumption.
  - rewrite seg_cons. change (map swap ((x0,y0)::(x1,y1)::p'::t)) with ((y0,x0)::(y1,x1)::swap p'::map swap t). rewrite seg_cons.
    pose proof I as (I1 & I2 & I3). cbn in I1, I2. destruct (Rle_dec x x1) as [L|L].
    + assert (Y : lin x0 y0 x1 y1 x <= y1). { destruct L as [L| ->]; [|rewrite lin_1; lra]. rewrite <- (lin_1 x0 y0 x1 y1) at 2 by lra. left. apply lin_lt; lra. }
      destruct (Rle_dec (lin x0 y0 x1 y1 x) y1); [|contradiction]. apply lin_inv; assumption.
    + pose proof (seg_above t x1 y1 p' x I3 ltac:(lra)) as A. destruct (Rle_dec (seg_value ((x1, y1) :: p' :: t) x) y1); [lra|].
      apply (IH (x1,y1) p' x I3). cbn. lra.
Qed.
Lemma last_map {A B} (f : A -> B) l d : last (map f l) (f d) = f (last l d).
Proof. induction l as [|a [|a' t] IH]; [reflexivity|reflexivity|]. exact IH. Qed.
Lemma last_indep' {A} (a : A) l d d' : last (a :: l) d = last (a :: l) d'.
Proof. revert a; induction l as [|b t IH]; intros a; [reflexivity|]. exact (IH b). Qed.

Theorem interp_inverse l x y : inc2 l -> interp1d l x = Ok y -> interp1d (map swap l) y = Ok x.
Proof.
  intros I. unfold interp1d. rewrite (sort_inc l I), (sort_inc _ (inc2_swap l I)).
  destruct l as [|p0 [|p t]]; [discriminate| |].
  - destruct p0 as [x0 y0]. cbn [map swap fst snd last]. destruct (Rlt_dec x x0); [discriminate|]. destruct (Rlt_dec x0 x); [discriminate|]. intros [= <-].
    destruct (Rlt_dec y0 y0); [lra|]. destruct (Rlt_dec y0 y0); [lra|]. f_equal. lra.
  - rewrite (last_indep' p0 (p::t) p0 (0,0)). change (last (p0::p::t) (0,0)) with (last (p::t) (0,0)).
    destruct (Rlt_dec x (fst p0)) as [|L0]; [discriminate|]. destruct (Rlt_dec (fst (last (p::t) (0,0))) x) as [|L1]; [discriminate|].
    intros E. assert (EY : y = seg_value (p0 :: p :: t) x) by (destruct t; injection E as <-; reflexivity). clear E.
    cbn [map]. change (swap p0 :: swap p :: map swap t) with (map swap (p0 :: p :: t)).
    assert (B0 : snd p0 <= y).
    { subst y. destruct p0 as [x0 y0]. cbn [fst snd] in *. destruct (Rle_lt_or_eq_dec x0 x ltac:(lra)) as [L| <-]; [left; apply seg_above; assumption|].
      destruct p as [x1 y1]. destruct I as (I1 & I2 & I3). cbn in I1, I2. right. destruct t as [|p' t]; [rewrite seg_two, lin_0; reflexivity|]. rewrite seg_cons. destruct (Rle_dec x0 x1); [rewrite lin_0; reflexivity|lra]. }
    assert (B1 : y <= snd (last (p::t) (0,0))) by (subst y; apply seg_below; [exact I|lra]).
    change (fst (swap p0)) with (snd p0).
    assert (EL : fst (last (map swap (p0 :: p :: t)) (swap p0)) = snd (last (p::t) (0,0))).
    { rewrite last_map. rewrite (last_indep' p0 (p::t) p0 (0,0)). reflexivity. }
    rewrite EL. destruct (Rlt_dec y (snd p0)); [lra|]. destruct (Rlt_dec (snd (last (p::t) (0,0))) y); [lra|].
    cbn [map]. change (swap p0 :: swap p :: map swap t) with (map swap (p0 :: p :: t)). f_equal. subst y. apply seg_inv; [exact I|lra].
Qed.
Lemma interp_range l x y : inc2 l -> interp1d l x = Ok y -> exists a c, In a l /\ In c l /\ snd a <= y <= snd c /\ fst a <= x <= fst c.
Proof.
  intros I H. pose proof (interp_inverse l x y I H) as H'. unfold interp1d in H, H'. rewrite (sort_inc l I) in H. rewrite (sort_inc _ (inc2_swap l I)) in H'.
  destruct l as [|p0 t]; [discriminate|]. cbn [map] in H'. 
  change (swap p0 :: map swap t) with (map swap (p0 :: t)) in H'. rewrite last_map in H'.
  change (fst (swap p0)) with (snd p0) in H'. change (fst (swap (last (p0 :: t) p0))) with (snd (last (p0 :: t) p0)) in H'.
  destruct (Rlt_dec x (fst p0)); [discriminate|]. destruct (Rlt_dec (fst (last (p0 :: t) p0)) x); [discriminate|].
  destruct (Rlt_dec y (snd p0)); [discriminate|]. destruct (Rlt_dec (snd (last (p0 :: t) p0)) y); [discriminate|].
  exists p0, (last (p0 :: t) p0). split; [left; reflexivity|]. split; [|lra].
  clear. generalize p0 at 2. revert p0. induction t as [|b t IH]; intros a d; [left; reflexivity|]. right. exact (IH b d).
Qed.
