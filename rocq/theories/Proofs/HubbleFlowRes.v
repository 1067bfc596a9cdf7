(** Bounds for the residuals of the Hubble-flow approximations: each residual is an explicit polynomial
    in e1V..e5V all of whose monomials have at least the stated degree. *)
From Coq Require Import Reals ZArith List Lra Lia.
From Verif Require Import Base Model.Potentials Model.HubbleFlow.
Import ListNotations.
Open Scope R_scope.

(** monomials as lists of exponents *)
Fixpoint mono (es : list nat) (xs : list R) : R :=
  match es, xs with e :: es', x :: xs' => x ^ e * mono es' xs' | _, _ => 1 end.
Fixpoint peval (p : list (Z * list nat)) (xs : list R) : R :=
  match p with [] => 0 | (c, es) :: t => IZR c * mono es xs + peval t xs end.
Fixpoint msum (es : list nat) (xs : list R) : nat :=
  match es, xs with e :: es', _ :: xs' => (e + msum es' xs')%nat | _, _ => 0%nat end.
Definition csum (p : list (Z * list nat)) : Z := fold_right (fun q s => (Z.abs (fst q) + s)%Z) 0%Z p.

Lemma mono_bound : forall d es xs, 0 <= d -> (forall x, In x xs -> Rabs x <= d) -> Rabs (mono es xs) <= d ^ (msum es xs).
Proof.
  intros d es. induction es as [|e es IH]; intros [|x xs] Hd H; simpl; try (rewrite Rabs_R1; lra).
  rewrite Rabs_mult, pow_add. apply Rmult_le_compat; try apply Rabs_pos.
  - rewrite <- RPow_abs. apply pow_incr. split; [apply Rabs_pos|apply H; left; reflexivity].
  - apply IH; [assumption|]. intros y Hy. apply H. right; assumption.
Qed.
Lemma pow_le1 : forall d m n, 0 <= d <= 1 -> (n <= m)%nat -> d ^ m <= d ^ n.
Proof.
  intros d m n Hd L. replace m with (n + (m - n))%nat by lia. rewrite pow_add.
  rewrite <- (Rmult_1_r (d ^ n)) at 2. apply Rmult_le_compat_l; [apply pow_le; lra|].
  rewrite <- (pow1 (m - n)). apply pow_incr. lra.
Qed.
Lemma peval_bound : forall n p xs d, 0 <= d <= 1 -> (forall x, In x xs -> Rabs x <= d) ->
  forallb (fun q => Nat.leb n (msum (snd q) xs)) p = true -> Rabs (peval p xs) <= IZR (csum p) * d ^ n.
Proof.
  intros n p xs d Hd H. induction p as [|[c es] t IH]; simpl; intros B.
  - rewrite Rabs_R0. lra.
  - apply andb_prop in B. destruct B as [B1 B2]. apply Nat.leb_le in B1.
    eapply Rle_trans; [apply Rabs_triang|]. change (csum ((c, es) :: t)) with (Z.abs c + csum t)%Z. rewrite plus_IZR, Rmult_plus_distr_r.
    apply Rplus_le_compat; [|exact (IH B2)].
    rewrite Rabs_mult, <- abs_IZR. apply Rmult_le_compat_l; [apply IZR_le; apply Z.abs_nonneg|].
    eapply Rle_trans; [apply (mono_bound d); [lra|exact H]|]. apply pow_le1; assumption.
Qed.

Definition resA : list (Z * list nat) := [((-15552)%Z, [1; 1; 1; 1; 0]%nat); ((-15552)%Z, [1; 1; 2; 0; 0]%nat);
((-62208)%Z, [1; 2; 1; 0; 0]%nat); ((2592)%Z, [1; 2; 1; 1; 0]%nat); ((6480)%Z, [1; 2; 2; 0; 0]%nat); ((-864)%Z, [1; 2;
2; 1; 0]%nat); ((-144)%Z, [1; 2; 2; 2; 0]%nat); ((-864)%Z, [1; 2; 3; 0; 0]%nat); ((-288)%Z, [1; 2; 3; 1; 0]%nat);
((-144)%Z, [1; 2; 4; 0; 0]%nat); ((-27216)%Z, [1; 3; 0; 0; 0]%nat); ((10368)%Z, [1; 3; 1; 0; 0]%nat); ((-864)%Z, [1; 3;
1; 1; 0]%nat); ((-1728)%Z, [1; 3; 2; 0; 0]%nat); ((-1296)%Z, [1; 3; 2; 1; 0]%nat); ((48)%Z, [1; 3; 2; 2; 0]%nat);
((-1440)%Z, [1; 3; 3; 0; 0]%nat); ((192)%Z, [1; 3; 3; 1; 0]%nat); ((-16)%Z, [1; 3; 3; 2; 0]%nat); ((144)%Z, [1; 3; 4; 0;
0]%nat); ((-32)%Z, [1; 3; 4; 1; 0]%nat); ((-16)%Z, [1; 3; 5; 0; 0]%nat); ((1296)%Z, [1; 4; 0; 0; 0]%nat); ((-648)%Z, [1;
4; 1; 0; 0]%nat); ((-648)%Z, [1; 4; 1; 1; 0]%nat); ((-3312)%Z, [1; 4; 2; 0; 0]%nat); ((408)%Z, [1; 4; 2; 1; 0]%nat);
((-20)%Z, [1; 4; 2; 2; 0]%nat); ((648)%Z, [1; 4; 3; 0; 0]%nat); ((-120)%Z, [1; 4; 3; 1; 0]%nat); ((-100)%Z, [1; 4; 4; 0;
0]%nat); ((216)%Z, [1; 5; 0; 0; 0]%nat); ((-2124)%Z, [1; 5; 1; 0; 0]%nat); ((108)%Z, [1; 5; 1; 1; 0]%nat); ((876)%Z, [1;
5; 2; 0; 0]%nat); ((-116)%Z, [1; 5; 2; 1; 0]%nat); ((-216)%Z, [1; 5; 3; 0; 0]%nat); ((-333)%Z, [1; 6; 0; 0; 0]%nat);
((354)%Z, [1; 6; 1; 0; 0]%nat); ((-20)%Z, [1; 6; 1; 1; 0]%nat); ((-185)%Z, [1; 6; 2; 0; 0]%nat); ((42)%Z, [1; 7; 0; 0;
0]%nat); ((-54)%Z, [1; 7; 1; 0; 0]%nat); ((-5)%Z, [1; 8; 0; 0; 0]%nat); ((31104)%Z, [2; 1; 1; 0; 0]%nat); ((5184)%Z, [2;
1; 1; 1; 0]%nat); ((5184)%Z, [2; 1; 2; 0; 0]%nat); ((69984)%Z, [2; 2; 0; 0; 0]%nat); ((5184)%Z, [2; 2; 1; 0; 0]%nat);
((-1728)%Z, [2; 2; 1; 1; 0]%nat); ((-864)%Z, [2; 2; 2; 0; 0]%nat); ((1440)%Z, [2; 2; 2; 1; 0]%nat); ((1440)%Z, [2; 2; 3;
0; 0]%nat); ((-5184)%Z, [2; 3; 0; 0; 0]%nat); ((-5616)%Z, [2; 3; 1; 0; 0]%nat); ((2736)%Z, [2; 3; 1; 1; 0]%nat);
((8784)%Z, [2; 3; 2; 0; 0]%nat); ((-576)%Z, [2; 3; 2; 1; 0]%nat); ((16)%Z, [2; 3; 2; 2; 0]%nat); ((-864)%Z, [2; 3; 3; 0;
0]%nat); ((128)%Z, [2; 3; 3; 1; 0]%nat); ((112)%Z, [2; 3; 4; 0; 0]%nat); ((-1944)%Z, [2; 4; 0; 0; 0]%nat); ((12528)%Z,
[2; 4; 1; 0; 0]%nat); ((-672)%Z, [2; 4; 1; 1; 0]%nat); ((-3000)%Z, [2; 4; 2; 0; 0]%nat); ((328)%Z, [2; 4; 2; 1; 0]%nat);
((568)%Z, [2; 4; 3; 0; 0]%nat); ((3780)%Z, [2; 5; 0; 0; 0]%nat); ((-2820)%Z, [2; 5; 1; 0; 0]%nat); ((176)%Z, [2; 5; 1;
1; 0]%nat); ((944)%Z, [2; 5; 2; 0; 0]%nat); ((-576)%Z, [2; 6; 0; 0; 0]%nat); ((564)%Z, [2; 6; 1; 0; 0]%nat); ((84)%Z,
[2; 7; 0; 0; 0]%nat); ((-15552)%Z, [3; 1; 0; 0; 0]%nat); ((-10368)%Z, [3; 1; 1; 0; 0]%nat); ((-14256)%Z, [3; 2; 0; 0;
0]%nat); ((5184)%Z, [3; 2; 1; 0; 0]%nat); ((-1152)%Z, [3; 2; 1; 1; 0]%nat); ((-3600)%Z, [3; 2; 2; 0; 0]%nat); ((9504)%Z,
[3; 3; 0; 0; 0]%nat); ((-14256)%Z, [3; 3; 1; 0; 0]%nat); ((384)%Z, [3; 3; 1; 1; 0]%nat); ((1872)%Z, [3; 3; 2; 0;
0]%nat); ((-160)%Z, [3; 3; 2; 1; 0]%nat); ((-304)%Z, [3; 3; 3; 0; 0]%nat); ((-10332)%Z, [3; 4; 0; 0; 0]%nat); ((4464)%Z,
[3; 4; 1; 0; 0]%nat); ((-208)%Z, [3; 4; 1; 1; 0]%nat); ((-1172)%Z, [3; 4; 2; 0; 0]%nat); ((2232)%Z, [3; 5; 0; 0;
0]%nat); ((-1336)%Z, [3; 5; 1; 0; 0]%nat); ((-424)%Z, [3; 6; 0; 0; 0]%nat); ((5184)%Z, [4; 1; 0; 0; 0]%nat); ((-3456)%Z,
[4; 2; 0; 0; 0]%nat); ((3456)%Z, [4; 2; 1; 0; 0]%nat); ((6912)%Z, [4; 3; 0; 0; 0]%nat); ((-1728)%Z, [4; 3; 1; 0;
0]%nat); ((64)%Z, [4; 3; 1; 1; 0]%nat); ((400)%Z, [4; 3; 2; 0; 0]%nat); ((-2112)%Z, [4; 4; 0; 0; 0]%nat); ((1040)%Z, [4;
4; 1; 0; 0]%nat); ((608)%Z, [4; 5; 0; 0; 0]%nat); ((-1152)%Z, [5; 2; 0; 0; 0]%nat); ((576)%Z, [5; 3; 0; 0; 0]%nat);
((-256)%Z, [5; 3; 1; 0; 0]%nat); ((-336)%Z, [5; 4; 0; 0; 0]%nat); ((64)%Z, [6; 3; 0; 0; 0]%nat)].
Definition resB1 : list (Z * list nat) := [((1296)%Z, [1; 2; 2; 0; 0]%nat); ((-144)%Z, [1; 2; 2; 2; 0]%nat); ((-288)%Z,
[1; 2; 3; 1; 0]%nat); ((-144)%Z, [1; 2; 4; 0; 0]%nat); ((-648)%Z, [1; 3; 1; 0; 0]%nat); ((216)%Z, [1; 3; 1; 1; 0]%nat);
((1512)%Z, [1; 3; 2; 0; 0]%nat); ((-1296)%Z, [1; 3; 2; 1; 0]%nat); ((48)%Z, [1; 3; 2; 2; 0]%nat); ((-1440)%Z, [1; 3; 3;
0; 0]%nat); ((192)%Z, [1; 3; 3; 1; 0]%nat); ((-16)%Z, [1; 3; 3; 2; 0]%nat); ((144)%Z, [1; 3; 4; 0; 0]%nat); ((-32)%Z,
[1; 3; 4; 1; 0]%nat); ((-16)%Z, [1; 3; 5; 0; 0]%nat); ((-1620)%Z, [1; 4; 0; 0; 0]%nat); ((2484)%Z, [1; 4; 1; 0; 0]%nat);
((-648)%Z, [1; 4; 1; 1; 0]%nat); ((-3312)%Z, [1; 4; 2; 0; 0]%nat); ((408)%Z, [1; 4; 2; 1; 0]%nat); ((-20)%Z, [1; 4; 2;
2; 0]%nat); ((648)%Z, [1; 4; 3; 0; 0]%nat); ((-120)%Z, [1; 4; 3; 1; 0]%nat); ((-100)%Z, [1; 4; 4; 0; 0]%nat); ((756)%Z,
[1; 5; 0; 0; 0]%nat); ((-2124)%Z, [1; 5; 1; 0; 0]%nat); ((108)%Z, [1; 5; 1; 1; 0]%nat); ((876)%Z, [1; 5; 2; 0; 0]%nat);
((-116)%Z, [1; 5; 2; 1; 0]%nat); ((-216)%Z, [1; 5; 3; 0; 0]%nat); ((-333)%Z, [1; 6; 0; 0; 0]%nat); ((354)%Z, [1; 6; 1;
0; 0]%nat); ((-20)%Z, [1; 6; 1; 1; 0]%nat); ((-185)%Z, [1; 6; 2; 0; 0]%nat); ((42)%Z, [1; 7; 0; 0; 0]%nat); ((-54)%Z,
[1; 7; 1; 0; 0]%nat); ((-5)%Z, [1; 8; 0; 0; 0]%nat); ((-864)%Z, [2; 2; 2; 0; 0]%nat); ((576)%Z, [2; 2; 2; 1; 0]%nat);
((576)%Z, [2; 2; 3; 0; 0]%nat); ((3888)%Z, [2; 3; 0; 0; 0]%nat); ((-3888)%Z, [2; 3; 1; 0; 0]%nat); ((1368)%Z, [2; 3; 1;
1; 0]%nat); ((4104)%Z, [2; 3; 2; 0; 0]%nat); ((-384)%Z, [2; 3; 2; 1; 0]%nat); ((16)%Z, [2; 3; 2; 2; 0]%nat); ((-576)%Z,
[2; 3; 3; 0; 0]%nat); ((96)%Z, [2; 3; 3; 1; 0]%nat); ((80)%Z, [2; 3; 4; 0; 0]%nat); ((-2700)%Z, [2; 4; 0; 0; 0]%nat);
((6372)%Z, [2; 4; 1; 0; 0]%nat); ((-432)%Z, [2; 4; 1; 1; 0]%nat); ((-1992)%Z, [2; 4; 2; 0; 0]%nat); ((248)%Z, [2; 4; 2;
1; 0]%nat); ((408)%Z, [2; 4; 3; 0; 0]%nat); ((2016)%Z, [2; 5; 0; 0; 0]%nat); ((-1854)%Z, [2; 5; 1; 0; 0]%nat); ((126)%Z,
[2; 5; 1; 1; 0]%nat); ((678)%Z, [2; 5; 2; 0; 0]%nat); ((-381)%Z, [2; 6; 0; 0; 0]%nat); ((399)%Z, [2; 6; 1; 0; 0]%nat);
((59)%Z, [2; 7; 0; 0; 0]%nat); ((-1296)%Z, [3; 2; 0; 0; 0]%nat); ((864)%Z, [3; 2; 1; 0; 0]%nat); ((-288)%Z, [3; 2; 1; 1;
0]%nat); ((-720)%Z, [3; 2; 2; 0; 0]%nat); ((1296)%Z, [3; 3; 0; 0; 0]%nat); ((-3240)%Z, [3; 3; 1; 0; 0]%nat); ((192)%Z,
[3; 3; 1; 1; 0]%nat); ((720)%Z, [3; 3; 2; 0; 0]%nat); ((-96)%Z, [3; 3; 2; 1; 0]%nat); ((-144)%Z, [3; 3; 3; 0; 0]%nat);
((-2484)%Z, [3; 4; 0; 0; 0]%nat); ((1680)%Z, [3; 4; 1; 0; 0]%nat); ((-128)%Z, [3; 4; 1; 1; 0]%nat); ((-564)%Z, [3; 4; 2;
0; 0]%nat); ((756)%Z, [3; 5; 0; 0; 0]%nat); ((-634)%Z, [3; 5; 1; 0; 0]%nat); ((-184)%Z, [3; 6; 0; 0; 0]%nat); ((288)%Z,
[4; 2; 1; 0; 0]%nat); ((576)%Z, [4; 3; 0; 0; 0]%nat); ((-288)%Z, [4; 3; 1; 0; 0]%nat); ((32)%Z, [4; 3; 1; 1; 0]%nat);
((112)%Z, [4; 3; 2; 0; 0]%nat); ((-336)%Z, [4; 4; 0; 0; 0]%nat); ((304)%Z, [4; 4; 1; 0; 0]%nat); ((172)%Z, [4; 5; 0; 0;
0]%nat); ((-32)%Z, [5; 3; 1; 0; 0]%nat); ((-48)%Z, [5; 4; 0; 0; 0]%nat)].
Definition resB2 : list (Z * list nat) := [((3888)%Z, [0; 1; 1; 1; 1]%nat); ((2592)%Z, [0; 1; 2; 2; 0]%nat); ((-432)%Z,
[0; 1; 2; 3; 0]%nat); ((2592)%Z, [0; 1; 3; 1; 0]%nat); ((-864)%Z, [0; 1; 3; 2; 0]%nat); ((-432)%Z, [0; 1; 4; 1; 0]%nat);
((5184)%Z, [0; 2; 2; 1; 0]%nat); ((-1296)%Z, [0; 2; 2; 2; 0]%nat); ((-144)%Z, [0; 2; 2; 3; 0]%nat); ((2592)%Z, [0; 2; 3;
0; 0]%nat); ((-1728)%Z, [0; 2; 3; 1; 0]%nat); ((-576)%Z, [0; 2; 3; 2; 0]%nat); ((72)%Z, [0; 2; 3; 3; 0]%nat); ((-8)%Z,
[0; 2; 3; 4; 0]%nat); ((-648)%Z, [0; 2; 4; 0; 0]%nat); ((-504)%Z, [0; 2; 4; 1; 0]%nat); ((144)%Z, [0; 2; 4; 2; 0]%nat);
((-24)%Z, [0; 2; 4; 3; 0]%nat); ((-72)%Z, [0; 2; 5; 0; 0]%nat); ((72)%Z, [0; 2; 5; 1; 0]%nat); ((-24)%Z, [0; 2; 5; 2;
0]%nat); ((-8)%Z, [0; 2; 6; 1; 0]%nat); ((-324)%Z, [0; 3; 2; 1; 0]%nat); ((-864)%Z, [0; 3; 2; 2; 0]%nat); ((24)%Z, [0;
3; 2; 3; 0]%nat); ((-324)%Z, [0; 3; 3; 0; 0]%nat); ((-2268)%Z, [0; 3; 3; 1; 0]%nat); ((432)%Z, [0; 3; 3; 2; 0]%nat);
((-60)%Z, [0; 3; 3; 3; 0]%nat); ((-1044)%Z, [0; 3; 4; 0; 0]%nat); ((552)%Z, [0; 3; 4; 1; 0]%nat); ((-140)%Z, [0; 3; 4;
2; 0]%nat); ((144)%Z, [0; 3; 5; 0; 0]%nat); ((-100)%Z, [0; 3; 5; 1; 0]%nat); ((-20)%Z, [0; 3; 6; 0; 0]%nat); ((-810)%Z,
[0; 4; 1; 0; 0]%nat); ((270)%Z, [0; 4; 1; 1; 0]%nat); ((-90)%Z, [0; 4; 1; 2; 0]%nat); ((1080)%Z, [0; 4; 2; 0; 0]%nat);
((-1782)%Z, [0; 4; 2; 1; 0]%nat); ((168)%Z, [0; 4; 2; 2; 0]%nat); ((-8)%Z, [0; 4; 2; 3; 0]%nat); ((-2358)%Z, [0; 4; 3;
0; 0]%nat); ((870)%Z, [0; 4; 3; 1; 0]%nat); ((-178)%Z, [0; 4; 3; 2; 0]%nat); ((552)%Z, [0; 4; 4; 0; 0]%nat); ((-282)%Z,
[0; 4; 4; 1; 0]%nat); ((-112)%Z, [0; 4; 5; 0; 0]%nat); ((378)%Z, [0; 5; 1; 0; 0]%nat); ((-261)%Z, [0; 5; 1; 1; 0]%nat);
((12)%Z, [0; 5; 1; 2; 0]%nat); ((-1305)%Z, [0; 5; 2; 0; 0]%nat); ((342)%Z, [0; 5; 2; 1; 0]%nat); ((-40)%Z, [0; 5; 2; 2;
0]%nat); ((600)%Z, [0; 5; 3; 0; 0]%nat); ((-245)%Z, [0; 5; 3; 1; 0]%nat); ((-205)%Z, [0; 5; 4; 0; 0]%nat); ((-189)%Z,
[0; 6; 1; 0; 0]%nat); ((36)%Z, [0; 6; 1; 1; 0]%nat); ((-2)%Z, [0; 6; 1; 2; 0]%nat); ((216)%Z, [0; 6; 2; 0; 0]%nat);
((-64)%Z, [0; 6; 2; 1; 0]%nat); ((-137)%Z, [0; 6; 3; 0; 0]%nat); ((24)%Z, [0; 7; 1; 0; 0]%nat); ((-5)%Z, [0; 7; 1; 1;
0]%nat); ((-35)%Z, [0; 7; 2; 0; 0]%nat); ((-3)%Z, [0; 8; 1; 0; 0]%nat); ((-1296)%Z, [1; 1; 1; 1; 1]%nat); ((-2592)%Z,
[1; 1; 2; 1; 0]%nat); ((144)%Z, [1; 1; 2; 3; 0]%nat); ((288)%Z, [1; 1; 3; 2; 0]%nat); ((144)%Z, [1; 1; 4; 1; 0]%nat);
((-1296)%Z, [1; 2; 1; 1; 0]%nat); ((432)%Z, [1; 2; 1; 1; 1]%nat); ((432)%Z, [1; 2; 1; 2; 0]%nat); ((-2592)%Z, [1; 2; 2;
0; 0]%nat); ((432)%Z, [1; 2; 2; 1; 0]%nat); ((-144)%Z, [1; 2; 2; 1; 1]%nat); ((1296)%Z, [1; 2; 2; 2; 0]%nat); ((-48)%Z,
[1; 2; 2; 3; 0]%nat); ((432)%Z, [1; 2; 3; 0; 0]%nat); ((2016)%Z, [1; 2; 3; 1; 0]%nat); ((-336)%Z, [1; 2; 3; 2; 0]%nat);
((40)%Z, [1; 2; 3; 3; 0]%nat); ((504)%Z, [1; 2; 4; 0; 0]%nat); ((-288)%Z, [1; 2; 4; 1; 0]%nat); ((80)%Z, [1; 2; 4; 2;
0]%nat); ((40)%Z, [1; 2; 5; 1; 0]%nat); ((648)%Z, [1; 3; 1; 1; 0]%nat); ((-180)%Z, [1; 3; 1; 1; 1]%nat); ((360)%Z, [1;
3; 1; 2; 0]%nat); ((648)%Z, [1; 3; 2; 0; 0]%nat); ((4140)%Z, [1; 3; 2; 1; 0]%nat); ((-576)%Z, [1; 3; 2; 2; 0]%nat);
((44)%Z, [1; 3; 2; 3; 0]%nat); ((3492)%Z, [1; 3; 3; 0; 0]%nat); ((-1536)%Z, [1; 3; 3; 1; 0]%nat); ((312)%Z, [1; 3; 3; 2;
0]%nat); ((-600)%Z, [1; 3; 4; 0; 0]%nat); ((372)%Z, [1; 3; 4; 1; 0]%nat); ((104)%Z, [1; 3; 5; 0; 0]%nat); ((-270)%Z, [1;
4; 1; 0; 0]%nat); ((1476)%Z, [1; 4; 1; 1; 0]%nat); ((-90)%Z, [1; 4; 1; 2; 0]%nat); ((5076)%Z, [1; 4; 2; 0; 0]%nat);
((-1650)%Z, [1; 4; 2; 1; 0]%nat); ((256)%Z, [1; 4; 2; 2; 0]%nat); ((-1842)%Z, [1; 4; 3; 0; 0]%nat); ((796)%Z, [1; 4; 3;
1; 0]%nat); ((490)%Z, [1; 4; 4; 0; 0]%nat); ((1926)%Z, [1; 5; 1; 0; 0]%nat); ((-339)%Z, [1; 5; 1; 1; 0]%nat); ((22)%Z,
[1; 5; 1; 2; 0]%nat); ((-1521)%Z, [1; 5; 2; 0; 0]%nat); ((507)%Z, [1; 5; 2; 1; 0]%nat); ((735)%Z, [1; 5; 3; 0; 0]%nat);
((135)%Z, [1; 6; 0; 0; 0]%nat); ((-363)%Z, [1; 6; 1; 0; 0]%nat); ((69)%Z, [1; 6; 1; 1; 0]%nat); ((391)%Z, [1; 6; 2; 0;
0]%nat); ((-18)%Z, [1; 7; 0; 0; 0]%nat); ((69)%Z, [1; 7; 1; 0; 0]%nat); ((3)%Z, [1; 8; 0; 0; 0]%nat); ((432)%Z, [2; 1;
2; 1; 0]%nat); ((-288)%Z, [2; 1; 2; 2; 0]%nat); ((-288)%Z, [2; 1; 3; 1; 0]%nat); ((-648)%Z, [2; 2; 1; 0; 0]%nat);
((216)%Z, [2; 2; 1; 1; 0]%nat); ((144)%Z, [2; 2; 1; 1; 1]%nat); ((-216)%Z, [2; 2; 1; 2; 0]%nat); ((432)%Z, [2; 2; 2; 0;
0]%nat); ((-1800)%Z, [2; 2; 2; 1; 0]%nat); ((192)%Z, [2; 2; 2; 2; 0]%nat); ((-16)%Z, [2; 2; 2; 3; 0]%nat); ((-864)%Z,
[2; 2; 3; 0; 0]%nat); ((360)%Z, [2; 2; 3; 1; 0]%nat); ((-88)%Z, [2; 2; 3; 2; 0]%nat); ((-72)%Z, [2; 2; 4; 1; 0]%nat);
((-216)%Z, [2; 3; 1; 0; 0]%nat); ((-1404)%Z, [2; 3; 1; 1; 0]%nat); ((96)%Z, [2; 3; 1; 2; 0]%nat); ((-3492)%Z, [2; 3; 2;
0; 0]%nat); ((1152)%Z, [2; 3; 2; 1; 0]%nat); ((-192)%Z, [2; 3; 2; 2; 0]%nat); ((792)%Z, [2; 3; 3; 0; 0]%nat); ((-468)%Z,
[2; 3; 3; 1; 0]%nat); ((-196)%Z, [2; 3; 4; 0; 0]%nat); ((-648)%Z, [2; 4; 0; 0; 0]%nat); ((-2988)%Z, [2; 4; 1; 0;
0]%nat); ((570)%Z, [2; 4; 1; 1; 0]%nat); ((-56)%Z, [2; 4; 1; 2; 0]%nat); ((1824)%Z, [2; 4; 2; 0; 0]%nat); ((-656)%Z, [2;
4; 2; 1; 0]%nat); ((-750)%Z, [2; 4; 3; 0; 0]%nat); ((-540)%Z, [2; 5; 0; 0; 0]%nat); ((1032)%Z, [2; 5; 1; 0; 0]%nat);
((-228)%Z, [2; 5; 1; 1; 0]%nat); ((-866)%Z, [2; 5; 2; 0; 0]%nat); ((135)%Z, [2; 6; 0; 0; 0]%nat); ((-339)%Z, [2; 6; 1;
0; 0]%nat); ((-33)%Z, [2; 7; 0; 0; 0]%nat); ((144)%Z, [3; 1; 2; 1; 0]%nat); ((216)%Z, [3; 2; 1; 1; 0]%nat); ((432)%Z,
[3; 2; 2; 0; 0]%nat); ((-144)%Z, [3; 2; 2; 1; 0]%nat); ((32)%Z, [3; 2; 2; 2; 0]%nat); ((56)%Z, [3; 2; 3; 1; 0]%nat);
((936)%Z, [3; 3; 1; 0; 0]%nat); ((-168)%Z, [3; 3; 1; 1; 0]%nat); ((24)%Z, [3; 3; 1; 2; 0]%nat); ((-336)%Z, [3; 3; 2; 0;
0]%nat); ((220)%Z, [3; 3; 2; 1; 0]%nat); ((160)%Z, [3; 3; 3; 0; 0]%nat); ((324)%Z, [3; 4; 0; 0; 0]%nat); ((-504)%Z, [3;
4; 1; 0; 0]%nat); ((140)%Z, [3; 4; 1; 1; 0]%nat); ((468)%Z, [3; 4; 2; 0; 0]%nat); ((-144)%Z, [3; 5; 0; 0; 0]%nat);
((366)%Z, [3; 5; 1; 0; 0]%nat); ((84)%Z, [3; 6; 0; 0; 0]%nat); ((-16)%Z, [4; 2; 2; 1; 0]%nat); ((-24)%Z, [4; 3; 1; 1;
0]%nat); ((-48)%Z, [4; 3; 2; 0; 0]%nat); ((-96)%Z, [4; 4; 1; 0; 0]%nat); ((-36)%Z, [4; 5; 0; 0; 0]%nat)].
Definition resB2p : list (Z * list nat) := [((1296)%Z, [0; 1; 2; 1; 1]%nat); ((2592)%Z, [0; 1; 2; 2; 0]%nat); ((-432)%Z,
[0; 1; 2; 2; 1]%nat); ((-432)%Z, [0; 1; 2; 3; 0]%nat); ((2592)%Z, [0; 1; 3; 1; 0]%nat); ((-432)%Z, [0; 1; 3; 1; 1]%nat);
((-864)%Z, [0; 1; 3; 2; 0]%nat); ((-432)%Z, [0; 1; 4; 1; 0]%nat); ((5184)%Z, [0; 2; 2; 1; 0]%nat); ((-648)%Z, [0; 2; 2;
1; 1]%nat); ((-1296)%Z, [0; 2; 2; 2; 0]%nat); ((-144)%Z, [0; 2; 2; 2; 1]%nat); ((-144)%Z, [0; 2; 2; 3; 0]%nat);
((2592)%Z, [0; 2; 3; 0; 0]%nat); ((-1728)%Z, [0; 2; 3; 1; 0]%nat); ((-216)%Z, [0; 2; 3; 1; 1]%nat); ((-576)%Z, [0; 2; 3;
2; 0]%nat); ((48)%Z, [0; 2; 3; 2; 1]%nat); ((72)%Z, [0; 2; 3; 3; 0]%nat); ((-8)%Z, [0; 2; 3; 3; 1]%nat); ((-8)%Z, [0; 2;
3; 4; 0]%nat); ((-648)%Z, [0; 2; 4; 0; 0]%nat); ((-504)%Z, [0; 2; 4; 1; 0]%nat); ((48)%Z, [0; 2; 4; 1; 1]%nat);
((144)%Z, [0; 2; 4; 2; 0]%nat); ((-16)%Z, [0; 2; 4; 2; 1]%nat); ((-24)%Z, [0; 2; 4; 3; 0]%nat); ((-72)%Z, [0; 2; 5; 0;
0]%nat); ((72)%Z, [0; 2; 5; 1; 0]%nat); ((-8)%Z, [0; 2; 5; 1; 1]%nat); ((-24)%Z, [0; 2; 5; 2; 0]%nat); ((-8)%Z, [0; 2;
6; 1; 0]%nat); ((-324)%Z, [0; 3; 2; 1; 0]%nat); ((-432)%Z, [0; 3; 2; 1; 1]%nat); ((-864)%Z, [0; 3; 2; 2; 0]%nat);
((24)%Z, [0; 3; 2; 2; 1]%nat); ((24)%Z, [0; 3; 2; 3; 0]%nat); ((-324)%Z, [0; 3; 3; 0; 0]%nat); ((-2268)%Z, [0; 3; 3; 1;
0]%nat); ((144)%Z, [0; 3; 3; 1; 1]%nat); ((432)%Z, [0; 3; 3; 2; 0]%nat); ((-40)%Z, [0; 3; 3; 2; 1]%nat); ((-60)%Z, [0;
3; 3; 3; 0]%nat); ((-1044)%Z, [0; 3; 4; 0; 0]%nat); ((552)%Z, [0; 3; 4; 1; 0]%nat); ((-40)%Z, [0; 3; 4; 1; 1]%nat);
((-140)%Z, [0; 3; 4; 2; 0]%nat); ((144)%Z, [0; 3; 5; 0; 0]%nat); ((-100)%Z, [0; 3; 5; 1; 0]%nat); ((-20)%Z, [0; 3; 6; 0;
0]%nat); ((-810)%Z, [0; 4; 1; 0; 0]%nat); ((270)%Z, [0; 4; 1; 1; 0]%nat); ((-90)%Z, [0; 4; 1; 1; 1]%nat); ((-90)%Z, [0;
4; 1; 2; 0]%nat); ((1080)%Z, [0; 4; 2; 0; 0]%nat); ((-1782)%Z, [0; 4; 2; 1; 0]%nat); ((84)%Z, [0; 4; 2; 1; 1]%nat);
((168)%Z, [0; 4; 2; 2; 0]%nat); ((-8)%Z, [0; 4; 2; 2; 1]%nat); ((-8)%Z, [0; 4; 2; 3; 0]%nat); ((-2358)%Z, [0; 4; 3; 0;
0]%nat); ((870)%Z, [0; 4; 3; 1; 0]%nat); ((-58)%Z, [0; 4; 3; 1; 1]%nat); ((-178)%Z, [0; 4; 3; 2; 0]%nat); ((552)%Z, [0;
4; 4; 0; 0]%nat); ((-282)%Z, [0; 4; 4; 1; 0]%nat); ((-112)%Z, [0; 4; 5; 0; 0]%nat); ((378)%Z, [0; 5; 1; 0; 0]%nat);
((-261)%Z, [0; 5; 1; 1; 0]%nat); ((12)%Z, [0; 5; 1; 1; 1]%nat); ((12)%Z, [0; 5; 1; 2; 0]%nat); ((-1305)%Z, [0; 5; 2; 0;
0]%nat); ((342)%Z, [0; 5; 2; 1; 0]%nat); ((-20)%Z, [0; 5; 2; 1; 1]%nat); ((-40)%Z, [0; 5; 2; 2; 0]%nat); ((600)%Z, [0;
5; 3; 0; 0]%nat); ((-245)%Z, [0; 5; 3; 1; 0]%nat); ((-205)%Z, [0; 5; 4; 0; 0]%nat); ((-189)%Z, [0; 6; 1; 0; 0]%nat);
((36)%Z, [0; 6; 1; 1; 0]%nat); ((-2)%Z, [0; 6; 1; 1; 1]%nat); ((-2)%Z, [0; 6; 1; 2; 0]%nat); ((216)%Z, [0; 6; 2; 0;
0]%nat); ((-64)%Z, [0; 6; 2; 1; 0]%nat); ((-137)%Z, [0; 6; 3; 0; 0]%nat); ((24)%Z, [0; 7; 1; 0; 0]%nat); ((-5)%Z, [0; 7;
1; 1; 0]%nat); ((-35)%Z, [0; 7; 2; 0; 0]%nat); ((-3)%Z, [0; 8; 1; 0; 0]%nat); ((-2592)%Z, [1; 1; 2; 1; 0]%nat);
((144)%Z, [1; 1; 2; 2; 1]%nat); ((144)%Z, [1; 1; 2; 3; 0]%nat); ((144)%Z, [1; 1; 3; 1; 1]%nat); ((288)%Z, [1; 1; 3; 2;
0]%nat); ((144)%Z, [1; 1; 4; 1; 0]%nat); ((-1296)%Z, [1; 2; 1; 1; 0]%nat); ((432)%Z, [1; 2; 1; 1; 1]%nat); ((432)%Z, [1;
2; 1; 2; 0]%nat); ((-2592)%Z, [1; 2; 2; 0; 0]%nat); ((432)%Z, [1; 2; 2; 1; 0]%nat); ((648)%Z, [1; 2; 2; 1; 1]%nat);
((1296)%Z, [1; 2; 2; 2; 0]%nat); ((-48)%Z, [1; 2; 2; 2; 1]%nat); ((-48)%Z, [1; 2; 2; 3; 0]%nat); ((432)%Z, [1; 2; 3; 0;
0]%nat); ((2016)%Z, [1; 2; 3; 1; 0]%nat); ((-144)%Z, [1; 2; 3; 1; 1]%nat); ((-336)%Z, [1; 2; 3; 2; 0]%nat); ((32)%Z, [1;
2; 3; 2; 1]%nat); ((40)%Z, [1; 2; 3; 3; 0]%nat); ((504)%Z, [1; 2; 4; 0; 0]%nat); ((-288)%Z, [1; 2; 4; 1; 0]%nat);
((32)%Z, [1; 2; 4; 1; 1]%nat); ((80)%Z, [1; 2; 4; 2; 0]%nat); ((40)%Z, [1; 2; 5; 1; 0]%nat); ((648)%Z, [1; 3; 1; 1;
0]%nat); ((360)%Z, [1; 3; 1; 1; 1]%nat); ((360)%Z, [1; 3; 1; 2; 0]%nat); ((648)%Z, [1; 3; 2; 0; 0]%nat); ((4140)%Z, [1;
3; 2; 1; 0]%nat); ((-300)%Z, [1; 3; 2; 1; 1]%nat); ((-576)%Z, [1; 3; 2; 2; 0]%nat); ((44)%Z, [1; 3; 2; 2; 1]%nat);
((44)%Z, [1; 3; 2; 3; 0]%nat); ((3492)%Z, [1; 3; 3; 0; 0]%nat); ((-1536)%Z, [1; 3; 3; 1; 0]%nat); ((124)%Z, [1; 3; 3; 1;
1]%nat); ((312)%Z, [1; 3; 3; 2; 0]%nat); ((-600)%Z, [1; 3; 4; 0; 0]%nat); ((372)%Z, [1; 3; 4; 1; 0]%nat); ((104)%Z, [1;
3; 5; 0; 0]%nat); ((-270)%Z, [1; 4; 1; 0; 0]%nat); ((1476)%Z, [1; 4; 1; 1; 0]%nat); ((-90)%Z, [1; 4; 1; 1; 1]%nat);
((-90)%Z, [1; 4; 1; 2; 0]%nat); ((5076)%Z, [1; 4; 2; 0; 0]%nat); ((-1650)%Z, [1; 4; 2; 1; 0]%nat); ((126)%Z, [1; 4; 2;
1; 1]%nat); ((256)%Z, [1; 4; 2; 2; 0]%nat); ((-1842)%Z, [1; 4; 3; 0; 0]%nat); ((796)%Z, [1; 4; 3; 1; 0]%nat); ((490)%Z,
[1; 4; 4; 0; 0]%nat); ((1926)%Z, [1; 5; 1; 0; 0]%nat); ((-339)%Z, [1; 5; 1; 1; 0]%nat); ((22)%Z, [1; 5; 1; 1; 1]%nat);
((22)%Z, [1; 5; 1; 2; 0]%nat); ((-1521)%Z, [1; 5; 2; 0; 0]%nat); ((507)%Z, [1; 5; 2; 1; 0]%nat); ((735)%Z, [1; 5; 3; 0;
0]%nat); ((135)%Z, [1; 6; 0; 0; 0]%nat); ((-363)%Z, [1; 6; 1; 0; 0]%nat); ((69)%Z, [1; 6; 1; 1; 0]%nat); ((391)%Z, [1;
6; 2; 0; 0]%nat); ((-18)%Z, [1; 7; 0; 0; 0]%nat); ((69)%Z, [1; 7; 1; 0; 0]%nat); ((3)%Z, [1; 8; 0; 0; 0]%nat); ((432)%Z,
[2; 1; 2; 1; 0]%nat); ((-144)%Z, [2; 1; 2; 1; 1]%nat); ((-288)%Z, [2; 1; 2; 2; 0]%nat); ((-288)%Z, [2; 1; 3; 1; 0]%nat);
((-648)%Z, [2; 2; 1; 0; 0]%nat); ((216)%Z, [2; 2; 1; 1; 0]%nat); ((-216)%Z, [2; 2; 1; 1; 1]%nat); ((-216)%Z, [2; 2; 1;
2; 0]%nat); ((432)%Z, [2; 2; 2; 0; 0]%nat); ((-1800)%Z, [2; 2; 2; 1; 0]%nat); ((96)%Z, [2; 2; 2; 1; 1]%nat); ((192)%Z,
[2; 2; 2; 2; 0]%nat); ((-16)%Z, [2; 2; 2; 2; 1]%nat); ((-16)%Z, [2; 2; 2; 3; 0]%nat); ((-864)%Z, [2; 2; 3; 0; 0]%nat);
((360)%Z, [2; 2; 3; 1; 0]%nat); ((-40)%Z, [2; 2; 3; 1; 1]%nat); ((-88)%Z, [2; 2; 3; 2; 0]%nat); ((-72)%Z, [2; 2; 4; 1;
0]%nat); ((-216)%Z, [2; 3; 1; 0; 0]%nat); ((-1404)%Z, [2; 3; 1; 1; 0]%nat); ((96)%Z, [2; 3; 1; 1; 1]%nat); ((96)%Z, [2;
3; 1; 2; 0]%nat); ((-3492)%Z, [2; 3; 2; 0; 0]%nat); ((1152)%Z, [2; 3; 2; 1; 0]%nat); ((-108)%Z, [2; 3; 2; 1; 1]%nat);
((-192)%Z, [2; 3; 2; 2; 0]%nat); ((792)%Z, [2; 3; 3; 0; 0]%nat); ((-468)%Z, [2; 3; 3; 1; 0]%nat); ((-196)%Z, [2; 3; 4;
0; 0]%nat); ((-648)%Z, [2; 4; 0; 0; 0]%nat); ((-2988)%Z, [2; 4; 1; 0; 0]%nat); ((570)%Z, [2; 4; 1; 1; 0]%nat); ((-56)%Z,
[2; 4; 1; 1; 1]%nat); ((-56)%Z, [2; 4; 1; 2; 0]%nat); ((1824)%Z, [2; 4; 2; 0; 0]%nat); ((-656)%Z, [2; 4; 2; 1; 0]%nat);
((-750)%Z, [2; 4; 3; 0; 0]%nat); ((-540)%Z, [2; 5; 0; 0; 0]%nat); ((1032)%Z, [2; 5; 1; 0; 0]%nat); ((-228)%Z, [2; 5; 1;
1; 0]%nat); ((-866)%Z, [2; 5; 2; 0; 0]%nat); ((135)%Z, [2; 6; 0; 0; 0]%nat); ((-339)%Z, [2; 6; 1; 0; 0]%nat); ((-33)%Z,
[2; 7; 0; 0; 0]%nat); ((144)%Z, [3; 1; 2; 1; 0]%nat); ((216)%Z, [3; 2; 1; 1; 0]%nat); ((432)%Z, [3; 2; 2; 0; 0]%nat);
((-144)%Z, [3; 2; 2; 1; 0]%nat); ((16)%Z, [3; 2; 2; 1; 1]%nat); ((32)%Z, [3; 2; 2; 2; 0]%nat); ((56)%Z, [3; 2; 3; 1;
0]%nat); ((936)%Z, [3; 3; 1; 0; 0]%nat); ((-168)%Z, [3; 3; 1; 1; 0]%nat); ((24)%Z, [3; 3; 1; 1; 1]%nat); ((24)%Z, [3; 3;
1; 2; 0]%nat); ((-336)%Z, [3; 3; 2; 0; 0]%nat); ((220)%Z, [3; 3; 2; 1; 0]%nat); ((160)%Z, [3; 3; 3; 0; 0]%nat);
((324)%Z, [3; 4; 0; 0; 0]%nat); ((-504)%Z, [3; 4; 1; 0; 0]%nat); ((140)%Z, [3; 4; 1; 1; 0]%nat); ((468)%Z, [3; 4; 2; 0;
0]%nat); ((-144)%Z, [3; 5; 0; 0; 0]%nat); ((366)%Z, [3; 5; 1; 0; 0]%nat); ((84)%Z, [3; 6; 0; 0; 0]%nat); ((-16)%Z, [4;
2; 2; 1; 0]%nat); ((-24)%Z, [4; 3; 1; 1; 0]%nat); ((-48)%Z, [4; 3; 2; 0; 0]%nat); ((-96)%Z, [4; 4; 1; 0; 0]%nat);
((-36)%Z, [4; 5; 0; 0; 0]%nat)].
Definition resB3 : list (Z * list nat) := [((-3888)%Z, [0; 0; 1; 1; 1]%nat); ((2592)%Z, [0; 0; 1; 2; 1]%nat); ((1296)%Z,
[0; 0; 2; 1; 1]%nat); ((1296)%Z, [0; 0; 2; 2; 0]%nat); ((3240)%Z, [0; 1; 1; 1; 1]%nat); ((5832)%Z, [0; 1; 2; 1; 0]%nat);
((144)%Z, [0; 1; 2; 3; 0]%nat); ((-24)%Z, [0; 1; 2; 4; 0]%nat); ((3240)%Z, [0; 1; 3; 0; 0]%nat); ((216)%Z, [0; 1; 3; 1;
0]%nat); ((144)%Z, [0; 1; 3; 2; 0]%nat); ((-48)%Z, [0; 1; 3; 3; 0]%nat); ((-24)%Z, [0; 1; 4; 2; 0]%nat); ((648)%Z, [0;
2; 1; 1; 0]%nat); ((-216)%Z, [0; 2; 1; 2; 0]%nat); ((72)%Z, [0; 2; 1; 3; 0]%nat); ((3240)%Z, [0; 2; 2; 0; 0]%nat);
((648)%Z, [0; 2; 2; 2; 0]%nat); ((-144)%Z, [0; 2; 2; 3; 0]%nat); ((4)%Z, [0; 2; 2; 4; 0]%nat); ((864)%Z, [0; 2; 3; 0;
0]%nat); ((504)%Z, [0; 2; 3; 1; 0]%nat); ((-252)%Z, [0; 2; 3; 2; 0]%nat); ((16)%Z, [0; 2; 3; 3; 0]%nat); ((72)%Z, [0; 2;
4; 0; 0]%nat); ((-108)%Z, [0; 2; 4; 1; 0]%nat); ((20)%Z, [0; 2; 4; 2; 0]%nat); ((8)%Z, [0; 2; 5; 1; 0]%nat); ((-378)%Z,
[0; 3; 1; 1; 0]%nat); ((234)%Z, [0; 3; 1; 2; 0]%nat); ((-18)%Z, [0; 3; 1; 3; 0]%nat); ((324)%Z, [0; 3; 2; 0; 0]%nat);
((810)%Z, [0; 3; 2; 1; 0]%nat); ((-288)%Z, [0; 3; 2; 2; 0]%nat); ((20)%Z, [0; 3; 2; 3; 0]%nat); ((432)%Z, [0; 3; 3; 0;
0]%nat); ((-384)%Z, [0; 3; 3; 1; 0]%nat); ((70)%Z, [0; 3; 3; 2; 0]%nat); ((-84)%Z, [0; 3; 4; 0; 0]%nat); ((70)%Z, [0; 3;
4; 1; 0]%nat); ((20)%Z, [0; 3; 5; 0; 0]%nat); ((180)%Z, [0; 4; 1; 1; 0]%nat); ((-51)%Z, [0; 4; 1; 2; 0]%nat); ((2)%Z,
[0; 4; 1; 3; 0]%nat); ((180)%Z, [0; 4; 2; 0; 0]%nat); ((-225)%Z, [0; 4; 2; 1; 0]%nat); ((37)%Z, [0; 4; 2; 2; 0]%nat);
((-126)%Z, [0; 4; 3; 0; 0]%nat); ((97)%Z, [0; 4; 3; 1; 0]%nat); ((62)%Z, [0; 4; 4; 0; 0]%nat); ((-33)%Z, [0; 5; 1; 1;
0]%nat); ((5)%Z, [0; 5; 1; 2; 0]%nat); ((-30)%Z, [0; 5; 2; 0; 0]%nat); ((30)%Z, [0; 5; 2; 1; 0]%nat); ((40)%Z, [0; 5; 3;
0; 0]%nat); ((3)%Z, [0; 6; 1; 1; 0]%nat); ((6)%Z, [0; 6; 2; 0; 0]%nat); ((-864)%Z, [1; 0; 1; 2; 1]%nat); ((-432)%Z, [1;
0; 2; 1; 1]%nat); ((-432)%Z, [1; 0; 2; 2; 0]%nat); ((-1944)%Z, [1; 1; 1; 1; 0]%nat); ((-1512)%Z, [1; 1; 1; 1; 1]%nat);
((216)%Z, [1; 1; 1; 2; 0]%nat); ((288)%Z, [1; 1; 1; 2; 1]%nat); ((-72)%Z, [1; 1; 1; 3; 0]%nat); ((-3888)%Z, [1; 1; 2; 0;
0]%nat); ((-1944)%Z, [1; 1; 2; 1; 0]%nat); ((288)%Z, [1; 1; 2; 1; 1]%nat); ((-216)%Z, [1; 1; 2; 2; 0]%nat); ((-96)%Z,
[1; 1; 2; 2; 1]%nat); ((48)%Z, [1; 1; 2; 3; 0]%nat); ((-1080)%Z, [1; 1; 3; 0; 0]%nat); ((-144)%Z, [1; 1; 3; 1; 0]%nat);
((-48)%Z, [1; 1; 3; 1; 1]%nat); ((1944)%Z, [1; 2; 0; 1; 0]%nat); ((-7776)%Z, [1; 2; 1; 0; 0]%nat); ((756)%Z, [1; 2; 1;
1; 0]%nat); ((540)%Z, [1; 2; 1; 1; 1]%nat); ((-432)%Z, [1; 2; 1; 2; 0]%nat); ((-120)%Z, [1; 2; 1; 2; 1]%nat); ((60)%Z,
[1; 2; 1; 3; 0]%nat); ((-2160)%Z, [1; 2; 2; 0; 0]%nat); ((-432)%Z, [1; 2; 2; 1; 0]%nat); ((-180)%Z, [1; 2; 2; 1;
1]%nat); ((288)%Z, [1; 2; 2; 2; 0]%nat); ((-16)%Z, [1; 2; 2; 3; 0]%nat); ((-72)%Z, [1; 2; 3; 0; 0]%nat); ((36)%Z, [1; 2;
3; 1; 0]%nat); ((-48)%Z, [1; 2; 3; 2; 0]%nat); ((-120)%Z, [1; 2; 4; 0; 0]%nat); ((-32)%Z, [1; 2; 4; 1; 0]%nat);
((-1944)%Z, [1; 3; 0; 0; 0]%nat); ((-648)%Z, [1; 3; 1; 0; 0]%nat); ((-756)%Z, [1; 3; 1; 1; 0]%nat); ((-150)%Z, [1; 3; 1;
1; 1]%nat); ((252)%Z, [1; 3; 1; 2; 0]%nat); ((-16)%Z, [1; 3; 1; 3; 0]%nat); ((-252)%Z, [1; 3; 2; 0; 0]%nat); ((402)%Z,
[1; 3; 2; 1; 0]%nat); ((-100)%Z, [1; 3; 2; 2; 0]%nat); ((-30)%Z, [1; 3; 3; 0; 0]%nat); ((-178)%Z, [1; 3; 3; 1; 0]%nat);
((-84)%Z, [1; 3; 4; 0; 0]%nat); ((-108)%Z, [1; 4; 0; 1; 0]%nat); ((-108)%Z, [1; 4; 1; 0; 0]%nat); ((300)%Z, [1; 4; 1; 1;
0]%nat); ((-48)%Z, [1; 4; 1; 2; 0]%nat); ((60)%Z, [1; 4; 2; 0; 0]%nat); ((-190)%Z, [1; 4; 2; 1; 0]%nat); ((-188)%Z, [1;
4; 3; 0; 0]%nat); ((27)%Z, [1; 5; 0; 1; 0]%nat); ((18)%Z, [1; 5; 1; 0; 0]%nat); ((-45)%Z, [1; 5; 1; 1; 0]%nat);
((-90)%Z, [1; 5; 2; 0; 0]%nat); ((-3)%Z, [1; 6; 0; 1; 0]%nat); ((-6)%Z, [1; 6; 1; 0; 0]%nat); ((432)%Z, [2; 0; 1; 1;
1]%nat); ((432)%Z, [2; 1; 1; 1; 0]%nat); ((-288)%Z, [2; 1; 1; 1; 1]%nat); ((72)%Z, [2; 1; 1; 2; 0]%nat); ((96)%Z, [2; 1;
1; 2; 1]%nat); ((1296)%Z, [2; 1; 2; 0; 0]%nat); ((144)%Z, [2; 1; 2; 1; 0]%nat); ((96)%Z, [2; 1; 2; 1; 1]%nat); ((24)%Z,
[2; 1; 2; 2; 0]%nat); ((-648)%Z, [2; 2; 0; 1; 0]%nat); ((2592)%Z, [2; 2; 1; 0; 0]%nat); ((144)%Z, [2; 2; 1; 1; 0]%nat);
((180)%Z, [2; 2; 1; 1; 1]%nat); ((-84)%Z, [2; 2; 1; 2; 0]%nat); ((8)%Z, [2; 2; 1; 3; 0]%nat); ((120)%Z, [2; 2; 2; 1;
0]%nat); ((36)%Z, [2; 2; 2; 2; 0]%nat); ((264)%Z, [2; 2; 3; 0; 0]%nat); ((40)%Z, [2; 2; 3; 1; 0]%nat); ((648)%Z, [2; 3;
0; 0; 0]%nat); ((324)%Z, [2; 3; 0; 1; 0]%nat); ((-648)%Z, [2; 3; 1; 0; 0]%nat); ((-252)%Z, [2; 3; 1; 1; 0]%nat);
((36)%Z, [2; 3; 1; 2; 0]%nat); ((420)%Z, [2; 3; 2; 0; 0]%nat); ((128)%Z, [2; 3; 2; 1; 0]%nat); ((112)%Z, [2; 3; 3; 0;
0]%nat); ((-216)%Z, [2; 4; 0; 0; 0]%nat); ((-180)%Z, [2; 4; 0; 1; 0]%nat); ((360)%Z, [2; 4; 1; 0; 0]%nat); ((78)%Z, [2;
4; 1; 1; 0]%nat); ((156)%Z, [2; 4; 2; 0; 0]%nat); ((90)%Z, [2; 5; 0; 0; 0]%nat); ((24)%Z, [2; 5; 0; 1; 0]%nat); ((48)%Z,
[2; 5; 1; 0; 0]%nat); ((-48)%Z, [3; 1; 1; 1; 1]%nat); ((-48)%Z, [3; 2; 1; 1; 0]%nat); ((-8)%Z, [3; 2; 1; 2; 0]%nat);
((-144)%Z, [3; 2; 2; 0; 0]%nat); ((-16)%Z, [3; 2; 2; 1; 0]%nat); ((72)%Z, [3; 3; 0; 1; 0]%nat); ((-288)%Z, [3; 3; 1; 0;
0]%nat); ((-24)%Z, [3; 3; 1; 1; 0]%nat); ((-48)%Z, [3; 3; 2; 0; 0]%nat); ((-72)%Z, [3; 4; 0; 0; 0]%nat); ((-12)%Z, [3;
4; 0; 1; 0]%nat); ((-24)%Z, [3; 4; 1; 0; 0]%nat)].
Definition resB3p : list (Z * list nat) := [((1296)%Z, [0; 0; 1; 2; 1]%nat); ((432)%Z, [0; 0; 1; 3; 1]%nat); ((1296)%Z,
[0; 0; 2; 1; 1]%nat); ((1296)%Z, [0; 0; 2; 2; 0]%nat); ((432)%Z, [0; 0; 2; 2; 1]%nat); ((2592)%Z, [0; 1; 1; 1; 1]%nat);
((864)%Z, [0; 1; 1; 2; 1]%nat); ((72)%Z, [0; 1; 1; 3; 1]%nat); ((5832)%Z, [0; 1; 2; 1; 0]%nat); ((864)%Z, [0; 1; 2; 1;
1]%nat); ((216)%Z, [0; 1; 2; 2; 1]%nat); ((144)%Z, [0; 1; 2; 3; 0]%nat); ((-48)%Z, [0; 1; 2; 3; 1]%nat); ((-24)%Z, [0;
1; 2; 4; 0]%nat); ((8)%Z, [0; 1; 2; 4; 1]%nat); ((3240)%Z, [0; 1; 3; 0; 0]%nat); ((216)%Z, [0; 1; 3; 1; 0]%nat);
((72)%Z, [0; 1; 3; 1; 1]%nat); ((144)%Z, [0; 1; 3; 2; 0]%nat); ((-48)%Z, [0; 1; 3; 2; 1]%nat); ((-48)%Z, [0; 1; 3; 3;
0]%nat); ((16)%Z, [0; 1; 3; 3; 1]%nat); ((-24)%Z, [0; 1; 4; 2; 0]%nat); ((8)%Z, [0; 1; 4; 2; 1]%nat); ((648)%Z, [0; 2;
1; 1; 0]%nat); ((324)%Z, [0; 2; 1; 1; 1]%nat); ((-216)%Z, [0; 2; 1; 2; 0]%nat); ((216)%Z, [0; 2; 1; 2; 1]%nat); ((72)%Z,
[0; 2; 1; 3; 0]%nat); ((-12)%Z, [0; 2; 1; 3; 1]%nat); ((3240)%Z, [0; 2; 2; 0; 0]%nat); ((432)%Z, [0; 2; 2; 1; 1]%nat);
((648)%Z, [0; 2; 2; 2; 0]%nat); ((-156)%Z, [0; 2; 2; 2; 1]%nat); ((-144)%Z, [0; 2; 2; 3; 0]%nat); ((40)%Z, [0; 2; 2; 3;
1]%nat); ((4)%Z, [0; 2; 2; 4; 0]%nat); ((864)%Z, [0; 2; 3; 0; 0]%nat); ((504)%Z, [0; 2; 3; 1; 0]%nat); ((-84)%Z, [0; 2;
3; 1; 1]%nat); ((-252)%Z, [0; 2; 3; 2; 0]%nat); ((60)%Z, [0; 2; 3; 2; 1]%nat); ((16)%Z, [0; 2; 3; 3; 0]%nat); ((72)%Z,
[0; 2; 4; 0; 0]%nat); ((-108)%Z, [0; 2; 4; 1; 0]%nat); ((20)%Z, [0; 2; 4; 1; 1]%nat); ((20)%Z, [0; 2; 4; 2; 0]%nat);
((8)%Z, [0; 2; 5; 1; 0]%nat); ((-378)%Z, [0; 3; 1; 1; 0]%nat); ((180)%Z, [0; 3; 1; 1; 1]%nat); ((234)%Z, [0; 3; 1; 2;
0]%nat); ((-42)%Z, [0; 3; 1; 2; 1]%nat); ((-18)%Z, [0; 3; 1; 3; 0]%nat); ((4)%Z, [0; 3; 1; 3; 1]%nat); ((324)%Z, [0; 3;
2; 0; 0]%nat); ((810)%Z, [0; 3; 2; 1; 0]%nat); ((-126)%Z, [0; 3; 2; 1; 1]%nat); ((-288)%Z, [0; 3; 2; 2; 0]%nat);
((66)%Z, [0; 3; 2; 2; 1]%nat); ((20)%Z, [0; 3; 2; 3; 0]%nat); ((432)%Z, [0; 3; 3; 0; 0]%nat); ((-384)%Z, [0; 3; 3; 1;
0]%nat); ((62)%Z, [0; 3; 3; 1; 1]%nat); ((70)%Z, [0; 3; 3; 2; 0]%nat); ((-84)%Z, [0; 3; 4; 0; 0]%nat); ((70)%Z, [0; 3;
4; 1; 0]%nat); ((20)%Z, [0; 3; 5; 0; 0]%nat); ((180)%Z, [0; 4; 1; 1; 0]%nat); ((-30)%Z, [0; 4; 1; 1; 1]%nat); ((-51)%Z,
[0; 4; 1; 2; 0]%nat); ((10)%Z, [0; 4; 1; 2; 1]%nat); ((2)%Z, [0; 4; 1; 3; 0]%nat); ((180)%Z, [0; 4; 2; 0; 0]%nat);
((-225)%Z, [0; 4; 2; 1; 0]%nat); ((40)%Z, [0; 4; 2; 1; 1]%nat); ((37)%Z, [0; 4; 2; 2; 0]%nat); ((-126)%Z, [0; 4; 3; 0;
0]%nat); ((97)%Z, [0; 4; 3; 1; 0]%nat); ((62)%Z, [0; 4; 4; 0; 0]%nat); ((-33)%Z, [0; 5; 1; 1; 0]%nat); ((6)%Z, [0; 5; 1;
1; 1]%nat); ((5)%Z, [0; 5; 1; 2; 0]%nat); ((-30)%Z, [0; 5; 2; 0; 0]%nat); ((30)%Z, [0; 5; 2; 1; 0]%nat); ((40)%Z, [0; 5;
3; 0; 0]%nat); ((3)%Z, [0; 6; 1; 1; 0]%nat); ((6)%Z, [0; 6; 2; 0; 0]%nat); ((-1296)%Z, [1; 0; 1; 1; 1]%nat); ((-864)%Z,
[1; 0; 1; 2; 1]%nat); ((-144)%Z, [1; 0; 1; 3; 1]%nat); ((-432)%Z, [1; 0; 2; 1; 1]%nat); ((-432)%Z, [1; 0; 2; 2; 0]%nat);
((-144)%Z, [1; 0; 2; 2; 1]%nat); ((-1944)%Z, [1; 1; 1; 1; 0]%nat); ((-1944)%Z, [1; 1; 1; 1; 1]%nat); ((216)%Z, [1; 1; 1;
2; 0]%nat); ((-288)%Z, [1; 1; 1; 2; 1]%nat); ((-72)%Z, [1; 1; 1; 3; 0]%nat); ((48)%Z, [1; 1; 1; 3; 1]%nat); ((-3888)%Z,
[1; 1; 2; 0; 0]%nat); ((-1944)%Z, [1; 1; 2; 1; 0]%nat); ((-288)%Z, [1; 1; 2; 1; 1]%nat); ((-216)%Z, [1; 1; 2; 2;
0]%nat); ((48)%Z, [1; 1; 2; 2; 1]%nat); ((48)%Z, [1; 1; 2; 3; 0]%nat); ((-32)%Z, [1; 1; 2; 3; 1]%nat); ((-1080)%Z, [1;
1; 3; 0; 0]%nat); ((-144)%Z, [1; 1; 3; 1; 0]%nat); ((-48)%Z, [1; 1; 3; 1; 1]%nat); ((-32)%Z, [1; 1; 3; 2; 1]%nat);
((1944)%Z, [1; 2; 0; 1; 0]%nat); ((-648)%Z, [1; 2; 0; 1; 1]%nat); ((-7776)%Z, [1; 2; 1; 0; 0]%nat); ((756)%Z, [1; 2; 1;
1; 0]%nat); ((-324)%Z, [1; 2; 1; 1; 1]%nat); ((-432)%Z, [1; 2; 1; 2; 0]%nat); ((108)%Z, [1; 2; 1; 2; 1]%nat); ((60)%Z,
[1; 2; 1; 3; 0]%nat); ((-32)%Z, [1; 2; 1; 3; 1]%nat); ((-2160)%Z, [1; 2; 2; 0; 0]%nat); ((-432)%Z, [1; 2; 2; 1; 0]%nat);
((84)%Z, [1; 2; 2; 1; 1]%nat); ((288)%Z, [1; 2; 2; 2; 0]%nat); ((-136)%Z, [1; 2; 2; 2; 1]%nat); ((-16)%Z, [1; 2; 2; 3;
0]%nat); ((-72)%Z, [1; 2; 3; 0; 0]%nat); ((36)%Z, [1; 2; 3; 1; 0]%nat); ((-84)%Z, [1; 2; 3; 1; 1]%nat); ((-48)%Z, [1; 2;
3; 2; 0]%nat); ((-120)%Z, [1; 2; 4; 0; 0]%nat); ((-32)%Z, [1; 2; 4; 1; 0]%nat); ((-1944)%Z, [1; 3; 0; 0; 0]%nat);
((-108)%Z, [1; 3; 0; 1; 1]%nat); ((-648)%Z, [1; 3; 1; 0; 0]%nat); ((-756)%Z, [1; 3; 1; 1; 0]%nat); ((90)%Z, [1; 3; 1; 1;
1]%nat); ((252)%Z, [1; 3; 1; 2; 0]%nat); ((-96)%Z, [1; 3; 1; 2; 1]%nat); ((-16)%Z, [1; 3; 1; 3; 0]%nat); ((-252)%Z, [1;
3; 2; 0; 0]%nat); ((402)%Z, [1; 3; 2; 1; 0]%nat); ((-188)%Z, [1; 3; 2; 1; 1]%nat); ((-100)%Z, [1; 3; 2; 2; 0]%nat);
((-30)%Z, [1; 3; 3; 0; 0]%nat); ((-178)%Z, [1; 3; 3; 1; 0]%nat); ((-84)%Z, [1; 3; 4; 0; 0]%nat); ((-108)%Z, [1; 4; 0; 1;
0]%nat); ((18)%Z, [1; 4; 0; 1; 1]%nat); ((-108)%Z, [1; 4; 1; 0; 0]%nat); ((300)%Z, [1; 4; 1; 1; 0]%nat); ((-90)%Z, [1;
4; 1; 1; 1]%nat); ((-48)%Z, [1; 4; 1; 2; 0]%nat); ((60)%Z, [1; 4; 2; 0; 0]%nat); ((-190)%Z, [1; 4; 2; 1; 0]%nat);
((-188)%Z, [1; 4; 3; 0; 0]%nat); ((27)%Z, [1; 5; 0; 1; 0]%nat); ((-6)%Z, [1; 5; 0; 1; 1]%nat); ((18)%Z, [1; 5; 1; 0;
0]%nat); ((-45)%Z, [1; 5; 1; 1; 0]%nat); ((-90)%Z, [1; 5; 2; 0; 0]%nat); ((-3)%Z, [1; 6; 0; 1; 0]%nat); ((-6)%Z, [1; 6;
1; 0; 0]%nat); ((432)%Z, [2; 0; 1; 1; 1]%nat); ((144)%Z, [2; 0; 1; 2; 1]%nat); ((432)%Z, [2; 1; 1; 1; 0]%nat); ((288)%Z,
[2; 1; 1; 1; 1]%nat); ((72)%Z, [2; 1; 1; 2; 0]%nat); ((16)%Z, [2; 1; 1; 3; 1]%nat); ((1296)%Z, [2; 1; 2; 0; 0]%nat);
((144)%Z, [2; 1; 2; 1; 0]%nat); ((96)%Z, [2; 1; 2; 1; 1]%nat); ((24)%Z, [2; 1; 2; 2; 0]%nat); ((40)%Z, [2; 1; 2; 2;
1]%nat); ((-648)%Z, [2; 2; 0; 1; 0]%nat); ((216)%Z, [2; 2; 0; 1; 1]%nat); ((2592)%Z, [2; 2; 1; 0; 0]%nat); ((144)%Z, [2;
2; 1; 1; 0]%nat); ((-12)%Z, [2; 2; 1; 1; 1]%nat); ((-84)%Z, [2; 2; 1; 2; 0]%nat); ((72)%Z, [2; 2; 1; 2; 1]%nat); ((8)%Z,
[2; 2; 1; 3; 0]%nat); ((120)%Z, [2; 2; 2; 1; 0]%nat); ((112)%Z, [2; 2; 2; 1; 1]%nat); ((36)%Z, [2; 2; 2; 2; 0]%nat);
((264)%Z, [2; 2; 3; 0; 0]%nat); ((40)%Z, [2; 2; 3; 1; 0]%nat); ((648)%Z, [2; 3; 0; 0; 0]%nat); ((324)%Z, [2; 3; 0; 1;
0]%nat); ((-72)%Z, [2; 3; 0; 1; 1]%nat); ((-648)%Z, [2; 3; 1; 0; 0]%nat); ((-252)%Z, [2; 3; 1; 1; 0]%nat); ((156)%Z, [2;
3; 1; 1; 1]%nat); ((36)%Z, [2; 3; 1; 2; 0]%nat); ((420)%Z, [2; 3; 2; 0; 0]%nat); ((128)%Z, [2; 3; 2; 1; 0]%nat);
((112)%Z, [2; 3; 3; 0; 0]%nat); ((-216)%Z, [2; 4; 0; 0; 0]%nat); ((-180)%Z, [2; 4; 0; 1; 0]%nat); ((48)%Z, [2; 4; 0; 1;
1]%nat); ((360)%Z, [2; 4; 1; 0; 0]%nat); ((78)%Z, [2; 4; 1; 1; 0]%nat); ((156)%Z, [2; 4; 2; 0; 0]%nat); ((90)%Z, [2; 5;
0; 0; 0]%nat); ((24)%Z, [2; 5; 0; 1; 0]%nat); ((48)%Z, [2; 5; 1; 0; 0]%nat); ((-48)%Z, [3; 1; 1; 1; 1]%nat); ((-16)%Z,
[3; 1; 1; 2; 1]%nat); ((-48)%Z, [3; 2; 1; 1; 0]%nat); ((-48)%Z, [3; 2; 1; 1; 1]%nat); ((-8)%Z, [3; 2; 1; 2; 0]%nat);
((-144)%Z, [3; 2; 2; 0; 0]%nat); ((-16)%Z, [3; 2; 2; 1; 0]%nat); ((72)%Z, [3; 3; 0; 1; 0]%nat); ((-24)%Z, [3; 3; 0; 1;
1]%nat); ((-288)%Z, [3; 3; 1; 0; 0]%nat); ((-24)%Z, [3; 3; 1; 1; 0]%nat); ((-48)%Z, [3; 3; 2; 0; 0]%nat); ((-72)%Z, [3;
4; 0; 0; 0]%nat); ((-12)%Z, [3; 4; 0; 1; 0]%nat); ((-24)%Z, [3; 4; 1; 0; 0]%nat)].
Definition pE1 : list (Z * list nat) := [((36)%Z, [1; 0; 0; 0; 0]%nat); ((-12)%Z, [1; 1; 0; 0; 0]%nat); ((4)%Z, [1; 1;
1; 0; 0]%nat); ((5)%Z, [1; 2; 0; 0; 0]%nat); ((-4)%Z, [2; 1; 0; 0; 0]%nat)].
Definition pE2 : list (Z * list nat) := [((18)%Z, [0; 1; 0; 0; 0]%nat); ((-6)%Z, [0; 1; 1; 0; 0]%nat); ((2)%Z, [0; 1; 1;
1; 0]%nat); ((2)%Z, [0; 1; 2; 0; 0]%nat); ((-3)%Z, [0; 2; 0; 0; 0]%nat); ((5)%Z, [0; 2; 1; 0; 0]%nat); ((1)%Z, [0; 3; 0;
0; 0]%nat); ((-2)%Z, [1; 1; 1; 0; 0]%nat); ((-3)%Z, [1; 2; 0; 0; 0]%nat)].

(** the Hamilton-Jacobi combination 2 (3 - h1) *)
Definition hj (x1 x2 x3 : R) : R := 2 * (3 - flow1 x1 x2 x3).
(** derivatives of the polynomials along d x_n = x_n x_{n+1} *)
Definition dflow1 (x1 x2 x3 x4 : R) : R :=
  x1*x2 - (x1*x2*x2 + x1*x2*x3) / 3 - (2*x1*(x1*x2)*x2 + x1^2*(x2*x3)) / 9
  + 5/36 * (x1*x2*x2^2 + 2*x1*x2*(x2*x3)) + (x1*x2*x2*x3 + x1*(x2*x3)*x3 + x1*x2*(x3*x4)) / 9.
Definition dflow2 (x1 x2 x3 x4 x5 : R) : R :=
  x2*x3 - 1/6*(2*x2*(x2*x3)) - 1/3*(x2*x3*x3 + x2*(x3*x4)) - 1/6*(x1*x2*x2^2 + 2*x1*x2*(x2*x3))
  + 1/18*(3*x2^2*(x2*x3)) - 1/9*(x1*x2*x2*x3 + x1*(x2*x3)*x3 + x1*x2*(x3*x4))
  + 5/18*(2*x2*(x2*x3)*x3 + x2^2*(x3*x4)) + 1/9*(x2*x3*x3^2 + 2*x2*x3*(x3*x4))
  + 1/9*(x2*x3*x3*x4 + x2*(x3*x4)*x4 + x2*x3*(x4*x5)).
Definition dflow3 (x1 x2 x3 x4 x5 : R) : R :=
  x3*x4 - 1/3*(x2*x3*x3 + x2*(x3*x4)) - 1/3*(x3*x4*x4 + x3*(x4*x5)) - 1/6*(x1*x2*x2^2 + 2*x1*x2*(x2*x3))
  - 1/3*(x1*x2*x2*x3 + x1*(x2*x3)*x3 + x1*x2*(x3*x4)) + 1/6*(2*x2*(x2*x3)*x3 + x2^2*(x3*x4))
  + 5/18*(x2*x3*x3^2 + 2*x2*x3*(x3*x4)) - 1/9*(x1*x2*x3*x4 + x1*(x3*x4)*x4 + x1*x3*(x4*x5))
  + 5/18*(x2*x3*x3*x4 + x2*(x3*x4)*x4 + x2*x3*(x4*x5)) + 1/9*(2*x3*(x3*x4)*x4 + x3^2*(x4*x5))
  + 1/9*(x3*x4*x4^2 + 2*x3*x4*(x4*x5)).

Ltac pev := unfold hj, dflow1, dflow2, dflow3, flow1, flow2, flow3, flow4; cbv [resA resB1 resB2 resB2p resB3 resB3p pE1 pE2 peval mono]; field.
Section Residuals.
Variables x1 x2 x3 x4 x5 : R.
Let xs := [x1; x2; x3; x4; x5].
Let h1 := flow1 x1 x2 x3. Let h2 := flow2 x1 x2 x3 x4. Let h3 := flow3 x1 x2 x3 x4. Let h4 := flow4 x2 x3 x4.
Let u := hj x1 x2 x3 + h2.
Lemma pE1_eq : peval pE1 xs = 36 * h1. Proof. unfold h1, xs. pev. Qed.
Lemma pE2_eq : peval pE2 xs = 18 * h2. Proof. unfold h2, xs. pev. Qed.
Lemma resA_eq : peval resA xs = 11664 * (x1 * hj x1 x2 x3 ^ 2 - h1 * u ^ 2).
Proof. unfold u, h1, h2, xs. pev. Qed.
Lemma resB1_eq : peval resB1 xs = 11664 * (dflow1 x1 x2 x3 x4 * hj x1 x2 x3 - h1 * h2 * u).
Proof. unfold u, h1, h2, xs. pev. Qed.
Lemma resB2_eq : peval resB2 xs = 5832 * (dflow2 x1 x2 x3 x4 x5 * hj x1 x2 x3 - h2 * h3 * u).
Proof. unfold u, h1, h2, h3, xs. pev. Qed.
Lemma resB2p_eq : peval resB2p xs = 5832 * (dflow2 x1 x2 x3 x4 x5 * hj x1 x2 x3 - h2 * (h3 + 1/9*x3*x4*x5) * u).
Proof. unfold u, h1, h2, h3, xs. pev. Qed.
Lemma resB3_eq : peval resB3 xs = 1944 * (dflow3 x1 x2 x3 x4 x5 * hj x1 x2 x3 - h3 * h4 * u).
Proof. unfold u, h1, h2, h3, h4, xs. pev. Qed.
Lemma resB3p_eq : peval resB3p xs = 1944 * (dflow3 x1 x2 x3 x4 x5 * hj x1 x2 x3 - h3 * (h4 - 1/3*x4*x5) * u).
Proof. unfold u, h1, h2, h3, h4, xs. pev. Qed.

Variable d : R.
Hypothesis Hd : 0 <= d <= 1/2.
Hypotheses (B1 : Rabs x1 <= d) (B2 : Rabs x2 <= d) (B3 : Rabs x3 <= d) (B4 : Rabs x4 <= d) (B5 : Rabs x5 <= d).
Lemma xs_bound : forall x, In x xs -> Rabs x <= d.
Proof. unfold xs. simpl. intros x H. repeat (destruct H as [<- | H]; [assumption|]). destruct H. Qed.
Ltac pb n p := pose proof (peval_bound n p xs d ltac:(lra) xs_bound eq_refl) as PB.
Lemma h1_bound : Rabs h1 <= 61/36 * d.
Proof. pb 1%nat pE1. rewrite pE1_eq, Rabs_mult, (Rabs_pos_eq 36) in PB by lra. change (csum pE1) with 61%Z in PB. lra. Qed.
Lemma h2_bound : Rabs h2 <= 42/18 * d.
Proof. pb 1%nat pE2. rewrite pE2_eq, Rabs_mult, (Rabs_pos_eq 18) in PB by lra. change (csum pE2) with 42%Z in PB. lra. Qed.
Lemma hj_low : 4 <= hj x1 x2 x3.
Proof. unfold hj. fold h1. pose proof h1_bound. pose proof (Rle_abs h1). lra. Qed.
Lemma u_low : 3 <= u.
Proof. unfold u, hj. fold h1. pose proof h1_bound. pose proof h2_bound. pose proof (Rle_abs h1). pose proof (Rle_abs (- h2)). rewrite Rabs_Ropp in *. lra. Qed.
Lemma A_bound : Rabs (x1 * hj x1 x2 x3 ^ 2 - h1 * u ^ 2) <= 40 * d ^ 4.
Proof.
  pb 4%nat resA. rewrite resA_eq, Rabs_mult, (Rabs_pos_eq 11664) in PB by lra. change (csum resA) with 458113%Z in PB.
  pose proof (pow_le d 4 ltac:(lra)). lra.
Qed.
Lemma B1_bound : Rabs (dflow1 x1 x2 x3 x4 * hj x1 x2 x3 - h1 * h2 * u) <= 7 * d ^ 5.
Proof.
  pb 5%nat resB1. rewrite resB1_eq, Rabs_mult, (Rabs_pos_eq 11664) in PB by lra. change (csum resB1) with 73536%Z in PB.
  pose proof (pow_le d 5 ltac:(lra)). lra.
Qed.
Lemma B2_bound : Rabs (dflow2 x1 x2 x3 x4 x5 * hj x1 x2 x3 - h2 * h3 * u) <= 21 * d ^ 4.
Proof.
  pb 4%nat resB2. rewrite resB2_eq, Rabs_mult, (Rabs_pos_eq 5832) in PB by lra. change (csum resB2) with 118626%Z in PB.
  pose proof (pow_le d 4 ltac:(lra)). lra.
Qed.
Lemma B2p_bound : Rabs (dflow2 x1 x2 x3 x4 x5 * hj x1 x2 x3 - h2 * (h3 + 1/9*x3*x4*x5) * u) <= 21 * d ^ 5.
Proof.
  pb 5%nat resB2p. rewrite resB2p_eq, Rabs_mult, (Rabs_pos_eq 5832) in PB by lra. change (csum resB2p) with 120294%Z in PB.
  pose proof (pow_le d 5 ltac:(lra)). lra.
Qed.
Lemma B3_bound : Rabs (dflow3 x1 x2 x3 x4 x5 * hj x1 x2 x3 - h3 * h4 * u) <= 41 * d ^ 3.
Proof.
  pb 3%nat resB3. rewrite resB3_eq, Rabs_mult, (Rabs_pos_eq 1944) in PB by lra. change (csum resB3) with 79086%Z in PB.
  pose proof (pow_le d 3 ltac:(lra)). lra.
Qed.
Lemma B3p_bound : Rabs (dflow3 x1 x2 x3 x4 x5 * hj x1 x2 x3 - h3 * (h4 - 1/3*x4*x5) * u) <= 43 * d ^ 4.
Proof.
  pb 4%nat resB3p. rewrite resB3p_eq, Rabs_mult, (Rabs_pos_eq 1944) in PB by lra. change (csum resB3p) with 82046%Z in PB.
  pose proof (pow_le d 4 ltac:(lra)). lra.
Qed.
End Residuals.
