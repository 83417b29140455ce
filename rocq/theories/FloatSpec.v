(** What decimal texts and doubles stand for. *)
From Coq Require Import Reals SpecFloat.
From Flocq Require Import Core BinarySingleNaN.
From Verif Require Import Base NumSpec.

(** [x] is a finite double and stands for the real number [r] *)
Definition is_real (x : spec_float) (r : R) : Prop := valid_binary 53 1024 x = true /\ is_finite_SF x = true /\ SF2R radix2 x = r.
(** no double is nearer to [t] than [x] *)
Definition nearest (x : spec_float) (t : R) : Prop :=
  exists r, is_real x r /\ forall y s, is_real y s -> (Rabs (r - t) <= Rabs (s - t))%R.

(** ** Decimal texts *)
Definition dig (d : Z) : Prop := (0 <= d < 10)%Z.
Definition chars (ds : list Z) : list Z := map (fun d => 48 + d)%Z ds.
Definition blanks (l : list Z) : Prop := Forall (fun c => In c [32; 9; 10; 11; 12; 13]%Z) l.
Inductive sign_of : list Z -> R -> Prop :=
| no_sign : sign_of [] 1
| plus_sign : sign_of [43%Z] 1
| minus_sign : sign_of [45%Z] (-1).
(** the digits behind the point *)
Inductive frac_of : list Z -> list Z -> Prop :=
| no_frac : frac_of [] []
| point fs : Forall dig fs -> frac_of (46%Z :: chars fs) fs.
(** e or E, a sign, at least one digit; the exponent *)
Inductive exp_of : list Z -> Z -> Prop :=
| no_exp : exp_of [] 0
| pos_exp e sg es : In e [101; 69]%Z -> In sg [[]; [43%Z]] -> Forall dig es -> es <> [] -> exp_of (e :: sg ++ chars es) (number 10 es)
| neg_exp e es : In e [101; 69]%Z -> Forall dig es -> es <> [] -> exp_of (e :: 45%Z :: chars es) (- number 10 es).
(** the number written by [ds . fs] *)
Definition decimal (ds fs : list Z) : R := (IZR (number 10 (ds ++ fs)) / 10 ^ length fs)%R.
(** [text] writes [sg] times [ds . fs] times 10^[k] *)
Definition decimal_text (text : list Z) (sg : R) (ds fs : list Z) (k : Z) : Prop :=
  exists b s f e, text = b ++ s ++ chars ds ++ f ++ e /\ blanks b /\ sign_of s sg /\ Forall dig ds /\ frac_of f fs /\ exp_of e k /\ ds ++ f <> [].
(** a character that cannot continue such a text *)
Definition ends (c : Z) : Prop := ~ (48 <= c <= 57)%Z /\ c <> 46%Z /\ c <> 101%Z /\ c <> 69%Z.
