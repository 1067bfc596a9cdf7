(** Model of scipy's [interp1d(x, y)] (kind linear, default bounds handling),
    used in potentials.py:844 and inflation.py.
    The samples are sorted by abscissa first ([assume_sorted=False]); evaluation outside
    [min x, max x] raises ValueError; inside, the segment is the first whose
    right abscissa is >= the argument (np.searchsorted, side left, clipped to 1..n-1).
    Simplification: scalar evaluation over the reals, no NaN. *)
From Coq Require Import Reals List.
From Verif Require Import Base.
Import ListNotations.
Open Scope R_scope.

(** stable insertion sort by abscissa (np.argsort(kind='mergesort') is stable) *)
Fixpoint insert_x (q : R * R) (l : list (R * R)) : list (R * R) :=
  match l with
  | [] => [q]
  | h :: t => if Rle_dec (fst q) (fst h) then q :: l else h :: insert_x q t
  end.
Fixpoint sort_x (l : list (R * R)) : list (R * R) :=
  match l with
  | [] => []
  | h :: t => insert_x h (sort_x t)
  end.

(** value on the first segment whose right end is >= x; [l] sorted with at least two points *)
Fixpoint seg_value (l : list (R * R)) (x : R) : R :=
  match l with
  | (x0, y0) :: (((x1, y1) :: rest) as tl) =>
      match rest with
      | [] => (y1 - y0) / (x1 - x0) * (x - x0) + y0
      | _ => if Rle_dec x x1 then (y1 - y0) / (x1 - x0) * (x - x0) + y0
             else seg_value tl x
      end
  | _ => 0
  end.

Definition interp1d (l : list (R * R)) (x : R) : res R :=
  let s := sort_x l in
  match s with
  | [] => Raise ValueError
  | h :: _ =>
      if Rlt_dec x (fst h) then Raise ValueError
      else if Rlt_dec (fst (last s h)) x then Raise ValueError
      else match s with
           | [q] => Ok (snd q)
           | _ => Ok (seg_value s x)
           end
  end.
