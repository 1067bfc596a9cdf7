From Coq Require Import Reals ZArith Lra Lia List.
From Verif Require Import Base Model.Interp.
Import ListNotations.
Open Scope R_scope.

(** samples with strictly increasing abscissae and increasing ordinates at most [h] apart *)
Fixpoint chain (h : R) (l : list (R * R)) : Prop :=
  match l with
  | [] => True
  | (x0, y0) :: t =>
      match t with
      | [] => True
      | (x1, y1) :: _ => x0 < x1 /\ y0 <= y1 <= y0 + h
      end /\ chain h t
  end.

Lemma sort_chain h l : chain h l -> sort_x l = l.
Proof.
  induction l as [|[x0 y0] t IH]; intros H; [reflexivity|]. simpl. destruct H as [H1 H2].
  rewrite IH by exact H2. destruct t as [|[x1 y1] t']; [reflexivity|].
  simpl. destruct (Rle_dec x0 x1); [reflexivity|lra].
Qed.
Lemma chain_head_le h x0 y0 t q : chain h ((x0,y0)::t) -> In q t -> x0 < fst q.
Proof.
  revert x0 y0. induction t as [|[x1 y1] t IH]; intros x0 y0 H Hi; [destruct Hi|].
  destruct H as [[H1 _] H2]. destruct Hi as [<-|Hi]; [exact H1|].
  apply Rlt_trans with x1; [exact H1|]. exact (IH x1 y1 H2 Hi).
Qed.
Lemma seg_value_node h l x y : chain h l -> (2 <= length l)%nat -> In (x, y) l -> seg_value l x = y.
Proof.
  induction l as [|[x0 y0] t IH]; intros H Hl Hi; [destruct Hi|].
  destruct t as [|[x1 y1] t']; [simpl in Hl; lia|].
  destruct H as [[H1 _] H2]. simpl. destruct t' as [|q t''].
  - destruct Hi as [E|[E|[]]]; injection E as <- <-; field; lra.
  - destruct (Rle_dec x x1) as [Hle|Hgt].
    + destruct Hi as [E|[E|Hi]]; [injection E as <- <-; field; lra|injection E as <- <-; field; lra|].
      pose proof (chain_head_le h x1 y1 _ _ H2 Hi) as Hlt. simpl in Hlt. lra.
    + apply (IH H2); [simpl; lia|]. destruct Hi as [E|Hi]; [|exact Hi].
      injection E as <- <-. lra.
Qed.
(** the interpolated value comes from a bracketing segment *)
Lemma seg_value_bracket h l x : chain h l -> (2 <= length l)%nat ->
  fst (hd (0,0) l) <= x -> x <= fst (last l (0,0)) ->
  exists x0 y0 x1 y1, In (x0,y0) l /\ In (x1,y1) l /\ x0 <= x <= x1 /\ x0 < x1 /\ y0 <= y1 <= y0 + h /\
    seg_value l x = (y1 - y0) / (x1 - x0) * (x - x0) + y0.
Proof.
  induction l as [|[x0 y0] t IH]; intros H Hl Hh Hla; [simpl in Hl; lia|].
  destruct t as [|[x1 y1] t']; [simpl in Hl; lia|].
  destruct H as [[H1 H1'] H2]. destruct t' as [|q t''].
  - simpl in *. exists x0, y0, x1, y1. repeat split; try lra; auto.
  - destruct (Rle_dec x x1) as [Hle|Hgt].
    + exists x0, y0, x1, y1. simpl in Hh. repeat split; try lra; try (simpl; tauto).
      simpl. destruct (Rle_dec x x1); [reflexivity|contradiction].
    + destruct (IH H2) as (a & b & c & d & I1 & I2 & R); [simpl; lia|simpl; lra|exact Hla|].
      exists a, b, c, d. split; [right; exact I1|]. split; [right; exact I2|].
      replace (seg_value ((x0,y0) :: (x1,y1) :: q :: t'') x) with (seg_value ((x1,y1) :: q :: t'') x); [exact R|].
      simpl. destruct (Rle_dec x x1); [contradiction|reflexivity].
Qed.
Lemma last_indep {A} (l : list A) d d' : l <> [] -> last l d = last l d'.
Proof. induction l as [|a [|b t] IH]; intros H; [congruence|reflexivity|]. simpl in *. apply IH; discriminate. Qed.
Lemma interp1d_inside h l x : chain h l -> (2 <= length l)%nat ->
  fst (hd (0,0) l) <= x -> x <= fst (last l (0,0)) -> interp1d l x = Ok (seg_value l x).
Proof.
  intros H Hl Hh Hla. unfold interp1d. rewrite (sort_chain h l H).
  destruct l as [|q [|q' t]]; [simpl in Hl; lia|simpl in Hl; lia|].
  simpl in Hh. destruct (Rlt_dec x (fst q)); [lra|].
  rewrite (last_indep (q :: q' :: t) q (0,0)) by discriminate.
  destruct (Rlt_dec (fst (last (q :: q' :: t) (0,0))) x); [lra|reflexivity].
Qed.
Lemma interp1d_outside h l x : chain h l -> (2 <= length l)%nat ->
  x < fst (hd (0,0) l) \/ fst (last l (0,0)) < x -> interp1d l x = Raise ValueError.
Proof.
  intros H Hl Hx. unfold interp1d. rewrite (sort_chain h l H).
  destruct l as [|q [|q' t]]; [simpl in Hl; lia|simpl in Hl; lia|].
  rewrite (last_indep (q :: q' :: t) q (0,0)) by discriminate.
  destruct (Rlt_dec x (fst q)); [reflexivity|].
  destruct (Rlt_dec (fst (last (q :: q' :: t) (0,0))) x); [reflexivity|].
  destruct Hx as [Hx|Hx]; [simpl in Hx|]; lra.
Qed.
Lemma seg_between a x0 y0 x1 y1 x : a = (y1 - y0) / (x1 - x0) * (x - x0) + y0 ->
  x0 <= x <= x1 -> x0 < x1 -> y0 <= y1 -> y0 <= a <= y1.
Proof.
  intros -> Hx Hlt Hy. assert (0 <= (x - x0) / (x1 - x0) <= 1).
  { split; [apply Rmult_le_pos; [lra|left; apply Rinv_0_lt_compat; lra]|].
    apply Rmult_le_reg_r with (x1 - x0); [lra|]. unfold Rdiv; rewrite Rmult_assoc, Rinv_l by lra; lra. }
  replace ((y1 - y0) / (x1 - x0) * (x - x0) + y0) with ((y1 - y0) * ((x - x0) / (x1 - x0)) + y0) by (field; lra).
  set (q := (x - x0) / (x1 - x0)) in *. nra.
Qed.

(** tabulating an increasing function on an equidistant grid *)
Lemma chain_grid (f : R -> R) h s n : 0 < h ->
  (forall i, (s <= i)%nat -> (S i < s + n)%nat -> f (INR i * h) < f (INR (S i) * h)) ->
  chain h (map (fun phi => (f phi, phi)) (map (fun k => INR k * h) (seq s n))).
Proof.
  intros Hh. revert s. induction n as [|n IH]; intros s Hf; [exact I|].
  change (seq s (S n)) with (s :: seq (S s) n).
  destruct n as [|n]; [split; exact I|]. split.
  - change (seq (S s) (S n)) with (S s :: seq (S (S s)) n). cbn [map]. split; [apply Hf; lia|].
    rewrite S_INR. lra.
  - apply IH. intros i H1 H2. apply Hf; lia.
Qed.
Lemma hd_grid (f : R -> R) h s n : (0 < n)%nat ->
  hd (0,0) (map (fun phi => (f phi, phi)) (map (fun k => INR k * h) (seq s n))) = (f (INR s * h), INR s * h).
Proof. destruct n; [lia|]. reflexivity. Qed.
Lemma last_grid (f : R -> R) h s n : 
  last (map (fun phi => (f phi, phi)) (map (fun k => INR k * h) (seq s (S n)))) (0,0) = (f (INR (s+n) * h), INR (s+n) * h).
Proof.
  rewrite seq_S, !map_app. cbn [map]. rewrite last_last. reflexivity.
Qed.
