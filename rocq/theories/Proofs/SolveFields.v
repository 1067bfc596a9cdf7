(** solve() keeps the state variables: the samples of the field and of its velocity after post-processing. *)
From Coq Require Import Reals List String ZArith Lra Lia Bool.
From Verif Require Import Base Model.Equations Model.Background Model.Float Model.Solution
  Spec.SolutionSpec Proofs.FloatLemmas Proofs.DictLemmas Proofs.SolLemmas Proofs.PostProc.
Import ListNotations.
Open Scope R_scope.
Open Scope string_scope.

(** the attributes written after Equations.sol *)
Definition post_attrs : list string :=
  ["w"; "_N_beg"; "H_beg"; "_logaH_beg"; "_N_end"; "_logaH_end"; "phi_end"; "H_end"; "V_end"; "K"; "H"; "_logaH"; "Omega_K"; "N_tot"; "inflation_mask"].

Ltac bd H := match type of H with
  | bind ?m _ = Ok _ => let x := fresh "x" in destruct m as [x|] eqn:?; [cbn [bind] in H|discriminate H]
  end.
Ltac nset K := repeat (rewrite get_set_neq by (intros EK_; apply K; rewrite EK_; cbn; tauto)).

Lemma start_frame q verbose s s' w k : ~ In k post_attrs -> postprocessing_inflation_start q verbose s = Ok (s', w) -> dict_get k s' = dict_get k s.
Proof.
  intros HK H. unfold postprocessing_inflation_start in H. cbv zeta in H.
  bd H. match type of H with bind ?m _ = _ => destruct m as [[s2 w2]|] eqn:E; [cbn [bind fst snd] in H|discriminate H] end.
  assert (F : dict_get k s2 = dict_get k s).
  { destruct (fired "Collapse" x); [injection E as <- <-; unfold setattr; nset HK; reflexivity|].
    repeat bd E. destruct (_ || _)%bool.
    - repeat bd E. injection E as <- <-. unfold setattr; nset HK; reflexivity.
    - destruct (fired _ x); [repeat bd E|]; injection E as <- <-; unfold setattr; nset HK; reflexivity. }
  repeat bd H. injection H as <- <-. unfold setattr. nset HK. exact F.
Qed.
Lemma end_from_frame q key s s' k : ~ In k post_attrs -> end_from q key s = Ok s' -> dict_get k s' = dict_get k s.
Proof. intros HK H. unfold end_from in H. cbv zeta in H. repeat bd H. injection H as <-. unfold setattr. nset HK. reflexivity. Qed.
Lemma end_frame q verbose s s' w k : ~ In k post_attrs -> postprocessing_inflation_end q verbose s = Ok (s', w) -> dict_get k s' = dict_get k s.
Proof.
  intros HK H. unfold postprocessing_inflation_end in H. cbv zeta in H. bd H.
  match type of H with bind ?m _ = _ => destruct m as [s2|] eqn:E; [cbn [bind fst snd] in H|discriminate H] end.
  assert (F : dict_get k s2 = dict_get k s).
  { destruct (fired _ x); [|destruct (fired _ x)]; [| |injection E as <-; unfold setattr; nset HK; reflexivity];
    apply (end_from_frame _ _ _ _ k HK) in E; rewrite E; unfold setattr; nset HK; reflexivity. }
  bd H. destruct x0; injection H as <- <-; try exact F. unfold setattr. nset HK. exact F.
Qed.
Lemma inflation_sol_frame q verbose b s w k : ~ In k post_attrs -> inflation_sol q verbose b = Ok (s, w) ->
  exists b', base_sol (e_idx q) (e_xname q) b = Ok b' /\ dict_get k s = dict_get k b'.
Proof.
  intros HK H. unfold inflation_sol in H. cbv zeta in H. bd H.
  exists x.
  split; [reflexivity|].
  do 4 bd H.
  match type of H with bind ?m _ = _ => destruct m as [[s1 w1]|] eqn:E1; [cbn [bind fst snd] in H|discriminate H] end.
  match type of H with bind ?m _ = _ => destruct m as [[s2 w2]|] eqn:E2; [cbn [bind fst snd] in H|discriminate H] end.
  repeat bd H. injection H as <- <-. apply (start_frame _ _ _ _ _ k HK) in E1. apply (end_frame _ _ _ _ _ k HK) in E2.
  match goal with |- context [if ?c then _ else _] => destruct c end; unfold setattr in *; nset HK; rewrite E2, E1; nset HK; reflexivity.
Qed.

Definition velocity_name (q : eqs) : string := if String.eqb (e_xname q) "t" then "dphidt" else "dphidN".
Definition velocity (q : eqs) (y : list R) : R := var (e_idx q) (velocity_name q) y.

(** after solve(): every state variable is an attribute with its samples *)
Lemma solve_state fmt_e q verbose events r s ws : inflation_eqs q -> NoDup (map (event_name fmt_e) events) ->
  ivp_ok (List.length (e_idx q)) (List.length events) r -> solve fmt_e q verbose events r = Ok (s, ws) ->
  (forall k i, nth_error (map fst (e_idx q)) i = Some k -> dict_get k s = Some (VA (map Fin (map (fun y => nth i y 0) (r_y r))))) /\
  dict_get (e_xname q) s = Some (VA (map Fin (r_t r))) /\
  (forall k, ~ In k post_attrs -> ~ In k (e_xname q :: map fst (e_idx q)) -> (forall c, k <> (c ++ "_events")) ->
     ~ In k ["x"; "y"; "event_keys"; "independent_variable"] -> dict_get k s = None).
Proof.
  intros Hq ND IV H. unfold solve in H. rewrite <- (map_length (event_name fmt_e)) in IV.
  assert (CL : exists names, e_idx q = add_variable names [] /\ clash_free (e_xname q) names /\ map fst (e_idx q) = names /\
     (forall k, In k (e_xname q :: names) -> ~ In k post_attrs)).
  { destruct Hq as [(K & U & te & ->)|(K & U & tm & te & ->)].
    - exists (T_names te). split; [apply T_idx_names|]. split; [apply T_clash|]. split; [destruct te; reflexivity|].
      intros k I. destruct te; cbn in I; repeat (destruct I as [<-|I]; [cbn; intros X; repeat (destruct X as [X|X]; [discriminate X|]); exact X|]); contradiction.
    - exists (N_names tm te). split; [apply N_idx_names|]. split; [apply N_clash|]. split; [destruct tm, te; reflexivity|].
      intros k I. destruct tm, te; cbn in I; repeat (destruct I as [<-|I]; [cbn; intros X; repeat (destruct X as [X|X]; [discriminate X|]); exact X|]); contradiction. }
  destruct CL as (names & EI & CF & EN & NP).
  assert (LN : List.length (e_idx q) = List.length names) by (rewrite <- EN, map_length; reflexivity).
  rewrite LN in IV.
  destruct (base_sol_ok names (e_xname q) (map (event_name fmt_e) events) r _ CF eq_refl IV) as (b & EB & _ & _ & B3 & _ & B5 & _ & _ & _ & _ & B10).
  assert (FR : forall k, ~ In k post_attrs -> dict_get k s = dict_get k b).
  { intros k HK. destruct (inflation_sol_frame q verbose _ s ws k HK H) as (b' & EB' & G). rewrite LN, EI, EB in EB'. injection EB' as <-. exact G. }
  rewrite EN. split; [|split].
  - intros k i Hi. rewrite FR; [rewrite (B5 i k Hi); reflexivity|]. apply NP. right. apply nth_error_In in Hi. exact Hi.
  - rewrite FR; [exact B3|]. apply NP. left. reflexivity.
  - intros k H1 H2 H3 H4. rewrite FR by exact H1. apply B10; assumption.
Qed.

Lemma suffix_len c e k : k = (c ++ e) -> (String.length e <= String.length k)%nat.
Proof. intros ->. induction c; cbn; lia. Qed.
