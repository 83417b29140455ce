(** What printing a double may write. *)
From Coq Require Import Reals.
From Verif Require Import Base CStrSpec NumSpec Float FloatSpec PrintSpec.

(** the value of the numbers behind the point, the first one standing for tens to the -[i] *)
Fixpoint tail_val (i : nat) (vs : list Z) : R := match vs with [] => 0 | v :: r => IZR v / IZR (10 ^ Z.of_nat i) + tail_val (S i) r end.
(** [p] numbers, each between 0 and 10, stand for the fraction [f] cut off behind the [p]th place,
    up to 2^-50 *)
Definition digits_for (p : nat) (f : R) (vs : list Z) : Prop :=
  length vs = p /\ Forall (fun v => 0 <= v <= 10)%Z vs /\ (- / 2 ^ 50 <= f - tail_val 1 vs <= / 10 ^ p + / 2 ^ 50)%R.
(** zero is "0"; any other number is a sign, the whole part and, if there are places, the point and
    the numbers *)
Definition f64_body (plus : bool) (p : nat) (x : f64) (t : list Z) : Prop :=
  exists r, is_real x r /\
  ((r = 0%R /\ t = [48]) \/
   (r <> 0%R /\ exists sg w wt vs vts,
     ((r < 0)%R /\ sg = [45] \/ (0 < r)%R /\ sg = if plus then [43] else []) /\
     (IZR w <= Rabs r < IZR w + 1)%R /\ numeral 10 w wt /\
     digits_for p (Rabs r - IZR w) vs /\ Forall2 (numeral 10) vs vts /\
     t = sg ++ wt ++ match p with O => [] | _ => 46 :: concat vts end)).

(** pieces of a format, with doubles; f F g G a A all mean the same *)
Inductive fpiece := Old (x : piece) | Flt (lft zero : bool) (w p : fnum) (conv : Z) (x : f64).
Definition fpiece_text (x : fpiece) : list Z :=
  match x with
  | Old x => piece_text x
  | Flt lft zero w p c x =>
    37 :: (if lft then [45] else []) ++ (if zero then [48] else []) ++ num_text w ++
    (match p with Absent => [] | _ => 46 :: num_text p end) ++ [c]
  end.
Definition places (p : fnum) : Z := match p with Absent => 6 | _ => if value p <? 0 then 6 else value p end.
(** the flag - asks for a plus sign; the width always fills on the left *)
Definition frendered (x : fpiece) (text : list Z) : Prop :=
  match x with
  | Old x => rendered x text
  | Flt lft zero w p c x =>
    exists t, f64_body (lft || (value w <? 0)) (Z.to_nat (places p)) x t /\
    text = apply_width false (zero && match p with Absent => true | _ => false end) (Z.abs (value w)) t
  end.
(** what can be printed: finite doubles below 2^64 with at most 15 places *)
Definition printable (x : fpiece) : Prop :=
  match x with
  | Old x => exists t, rendered x t
  | Flt lft zero w p c x =>
    good_width zero w /\ good_num p /\ In c [102; 70; 103; 71; 97; 65] /\ 0 <= places p <= 15 /\ exists r, is_real x r /\ (Rabs r < IZR (2 ^ 64))%R
  end.
