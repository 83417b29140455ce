(** Angles, code/source/math.c:19-27: in exact arithmetic over the numbers of [Geom], and on singles as in [SingleFun]. *)
From Coq Require Import QArith SpecFloat.
From Verif Require Import Base Geom Float Single SingleFun.

(** ZPL_TAU, header/math.h:139: the single nearest to the constant *)
Definition tau : Q := 13176795 # 2097152.
(** zpl_to_radians, zpl_to_degrees, math.c:19-20 *)
Definition to_radians (degrees : Q) : Q := (degrees * tau / 360)%Q.
Definition to_degrees (radians : Q) : Q := (radians * 360 / tau)%Q.
(** zpl_angle_diff, math.c:22-27 *)
Definition angle_diff (radians_a radians_b : Q) : option Q :=
  delta <- zpl_mod (radians_b - radians_a)%Q tau ;;
  delta <- zpl_mod (delta + (3 # 2) * tau)%Q tau ;;
  Some (delta - (1 # 2) * tau)%Q.

(** the same on singles *)
Definition tauf : f32 := S754_finite false 13176795 (-21).
Definition to_radiansf (degrees : f32) : f32 := sdiv (smul degrees tauf) (s_of_int 360).
Definition to_degreesf (radians : f32) : f32 := sdiv (smul radians (s_of_int 360)) tauf.
Definition angle_difff (radians_a radians_b : f32) : option f32 :=
  delta <- modf (ssub radians_b radians_a) tauf ;;
  delta <- modf (sadd delta (smul three_halfs tauf)) tauf ;;
  Some (ssub delta (smul s_half tauf)).
