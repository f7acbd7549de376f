(** Property theorems C124-C130: order, cancellation and agreement laws.  Statements only; proofs are in LawProofs.v, RootLaws.v,
    AngleRound.v and FormatStream.v.  [in_span w s f q]: q lies between the least number of the type and one ulp above the greatest. *)
From Coq Require Import ZArith Bool List QArith Qabs Reals String.
From Verif Require Import Base Fixed Math Spec SpecClient SpecText SpecReal TextOut Format FormatThms LawProofs RootLaws AngleRound FormatStream.
Import ListNotations.
Open Scope Z_scope.

(** C124 *)
Theorem C124_mul_monotone : forall c x y z, wf c = true -> cr c = false ->
  valid c x = true -> valid c y = true -> valid c z = true -> (qval (cf c) x <= qval (cf c) y)%Q ->
  in_span (bits (ct c)) (sgn (ct c)) (cf c) (qval (cf c) x * qval (cf c) z) ->
  in_span (bits (ct c)) (sgn (ct c)) (cf c) (qval (cf c) y * qval (cf c) z) ->
  exists p q, fx_mul c x z = Ok p /\ fx_mul c y z = Ok q /\ valid c p = true /\ valid c q = true /\
  ((0 <= qval (cf c) z)%Q -> (qval (cf c) p <= qval (cf c) q)%Q) /\ ((qval (cf c) z <= 0)%Q -> (qval (cf c) q <= qval (cf c) p)%Q).
Proof. exact (fun c x y z W N => mul_mono c W N x y z). Qed.
Theorem C124_div_monotone : forall c x y z, wf c = true -> cr c = false ->
  valid c x = true -> valid c y = true -> valid c z = true -> (qval (cf c) x <= qval (cf c) y)%Q -> (~ qval (cf c) z == 0)%Q ->
  in_span (bits (ct c)) (sgn (ct c)) (cf c) (qval (cf c) x / qval (cf c) z) ->
  in_span (bits (ct c)) (sgn (ct c)) (cf c) (qval (cf c) y / qval (cf c) z) ->
  exists p q, fx_div c x z = Ok p /\ fx_div c y z = Ok q /\ valid c p = true /\ valid c q = true /\
  ((0 < qval (cf c) z)%Q -> (qval (cf c) p <= qval (cf c) q)%Q) /\ ((qval (cf c) z < 0)%Q -> (qval (cf c) q <= qval (cf c) p)%Q).
Proof. exact (fun c x y z W N => div_mono c W N x y z). Qed.
Theorem C124_div_antitone : forall c x y z, wf c = true -> cr c = false ->
  valid c x = true -> valid c y = true -> valid c z = true -> (0 <= qval (cf c) x)%Q -> (0 < qval (cf c) y)%Q ->
  (qval (cf c) y <= qval (cf c) z)%Q -> in_span (bits (ct c)) (sgn (ct c)) (cf c) (qval (cf c) x / qval (cf c) y) ->
  exists p q, fx_div c x y = Ok p /\ fx_div c x z = Ok q /\ valid c p = true /\ valid c q = true /\
  (0 <= qval (cf c) q)%Q /\ (qval (cf c) q <= qval (cf c) p)%Q.
Proof. exact (fun c x y z W N => div_anti c W N x y z). Qed.
(** -0.3 <= 0.2 times and over -1.5, and 7/2 >= 7/3; a product outside the range does not follow the order *)
Example C124_case : fx_mul F32 (-19661) (-98304) = Ok 29491 /\ fx_mul F32 13107 (-98304) = Ok (-19661) /\
  fx_div F32 (-19661) (-98304) = Ok 13107 /\ fx_div F32 13107 (-98304) = Ok (-8738) /\
  fx_div F32 458752 131072 = Ok 229376 /\ fx_div F32 458752 196608 = Ok 152917 /\
  fx_mul F32 (200 * 65536) (150 * 65536) = Ok (30000 * 65536) /\ fx_mul F32 (200 * 65536) (170 * 65536) = Ok (-31536 * 65536) /\
  in_span 32 true 16 (qval 16 (-19661) * qval 16 (-98304)) /\ in_span 32 true 16 (qval 16 458752 / qval 16 131072).
Proof. vm_compute. repeat split; congruence. Qed.

(** C125 *)
Theorem C125_div_then_mul : forall c x y q, wf c = true -> cr c = false -> valid c x = true -> valid c y = true ->
  (~ qval (cf c) y == 0)%Q -> in_span (bits (ct c)) (sgn (ct c)) (cf c) (qval (cf c) x / qval (cf c) y) ->
  fx_div c x y = Ok q -> in_span (bits (ct c)) (sgn (ct c)) (cf c) (qval (cf c) q * qval (cf c) y) ->
  exists p, fx_mul c q y = Ok p /\ valid c p = true /\
  (Qabs (qval (cf c) p - qval (cf c) x) <= (Qabs (qval (cf c) y) + 1) * qval (cf c) 1)%Q.
Proof. exact (fun c x y q W N => div_mul c W N x y q). Qed.
Theorem C125_mul_then_div : forall c x y p, wf c = true -> cr c = false -> valid c x = true -> valid c y = true ->
  (~ qval (cf c) y == 0)%Q -> in_span (bits (ct c)) (sgn (ct c)) (cf c) (qval (cf c) x * qval (cf c) y) ->
  fx_mul c x y = Ok p -> in_span (bits (ct c)) (sgn (ct c)) (cf c) (qval (cf c) p / qval (cf c) y) ->
  exists q, fx_div c p y = Ok q /\ valid c q = true /\
  (Qabs (qval (cf c) q - qval (cf c) x) <= (/ Qabs (qval (cf c) y) + 1) * qval (cf c) 1)%Q.
Proof. exact (fun c x y p W N => mul_div c W N x y p). Qed.
(** 100 / 3 * 3 and (0.3 * 0.01) / 0.01 *)
Example C125_case : fx_div F32 6553600 196608 = Ok 2184533 /\ fx_mul F32 2184533 196608 = Ok 6553599 /\
  fx_mul F32 19661 655 = Ok 196 /\ fx_div F32 196 655 = Ok 19610 /\
  in_span 32 true 16 (qval 16 6553600 / qval 16 196608) /\ in_span 32 true 16 (qval 16 19661 * qval 16 655).
Proof. vm_compute. repeat split; congruence. Qed.

(** C126 *)
Theorem C126_zero_product : forall c x y p, wf c = true -> cr c = false -> valid c x = true -> valid c y = true ->
  in_span (bits (ct c)) (sgn (ct c)) (cf c) (qval (cf c) x * qval (cf c) y) -> fx_mul c x y = Ok p ->
  ((qval (cf c) p == 0)%Q <-> (0 <= qval (cf c) x * qval (cf c) y /\ qval (cf c) x * qval (cf c) y < qval (cf c) 1)%Q) /\
  ((qval (cf c) p < 0)%Q <-> (qval (cf c) x * qval (cf c) y < 0)%Q).
Proof. exact (fun c x y p W N => mul_zero c W N x y p). Qed.
Theorem C126_zero_quotient : forall c x y p, wf c = true -> cr c = false -> valid c x = true -> valid c y = true ->
  (~ qval (cf c) y == 0)%Q -> in_span (bits (ct c)) (sgn (ct c)) (cf c) (qval (cf c) x / qval (cf c) y) -> fx_div c x y = Ok p ->
  ((qval (cf c) p == 0)%Q <-> (Qabs (qval (cf c) x / qval (cf c) y) < qval (cf c) 1)%Q).
Proof. exact (fun c x y p W N => div_zero c W N x y p). Qed.
(** ulp * 0.5 vanishes, -ulp * 0.5 does not; the quotients both vanish *)
Example C126_case : fx_mul F32 1 32768 = Ok 0 /\ fx_mul F32 (-1) 32768 = Ok (-1) /\ fx_div F32 1 131072 = Ok 0 /\
  fx_div F32 (-1) 131072 = Ok 0 /\ in_span 32 true 16 (qval 16 (-1) * qval 16 32768).
Proof. vm_compute. repeat split; congruence. Qed.

(** C127 *)
Theorem C127_sqrt_monotone : forall a b, valid F32 a = true -> valid F32 b = true -> (0 <= qval 16 a)%Q -> (qval 16 a <= qval 16 b)%Q ->
  exists p q, fx_sqrt F32 a = Ok p /\ fx_sqrt F32 b = Ok q /\ (qval 16 p <= qval 16 q)%Q.
Proof. exact sqrt32_mono. Qed.
Theorem C127_sqrt_perfect : forall r m, valid F32 r = true -> valid F32 m = true -> (0 <= qval 16 r)%Q ->
  (qval 16 m == qval 16 r * qval 16 r)%Q -> fx_sqrt F32 m = Ok r.
Proof. exact sqrt32_exact. Qed.
Theorem C127_square_of_root : forall m r, valid F32 m = true -> (0 <= qval 16 m)%Q -> fx_sqrt F32 m = Ok r ->
  exists s, fx_mul F32 r r = Ok s /\ valid F32 s = true /\ (qval 16 s <= qval 16 m)%Q /\
  (qval 16 m - qval 16 s <= (2 * qval 16 r + 1) * qval 16 1 + qval 16 1)%Q.
Proof. exact sqrt32_square. Qed.
Theorem C127_root_of_square : forall x, valid F32 x = true -> (qval 16 x * qval 16 x < qval 16 2147483648)%Q ->
  exists s r, fx_mul F32 x x = Ok s /\ fx_sqrt F32 s = Ok r /\ (qval 16 r <= Qabs (qval 16 x))%Q /\
  (qval 16 x * qval 16 x < qval 16 (r + 1) * qval 16 (r + 1) + qval 16 1)%Q.
Proof. exact sqrt32_of_square. Qed.
(** sqrt 2.25 = 1.5; sqrt 2 squared; the root of (-0.01)^2 *)
Example C127_case : fx_sqrt F32 147456 = Ok 98304 /\ (qval 16 147456 == qval 16 98304 * qval 16 98304)%Q /\
  fx_sqrt F32 131072 = Ok 92681 /\ fx_mul F32 92681 92681 = Ok 131069 /\ fx_mul F32 (-655) (-655) = Ok 6 /\ fx_sqrt F32 6 = Ok 627.
Proof. vm_compute. repeat split. Qed.

(** C128 *)
Theorem C128_hypot_monotone : forall x y x' y', valid F32 x = true -> valid F32 y = true -> valid F32 x' = true -> valid F32 y' = true ->
  (Qabs (qval 16 x) <= Qabs (qval 16 x'))%Q -> (Qabs (qval 16 y) <= Qabs (qval 16 y'))%Q ->
  (qval 16 x' * qval 16 x' + qval 16 y' * qval 16 y' < qval 16 2147483648)%Q ->
  exists r r', fx_hypot F32 x y = Ok r /\ fx_hypot F32 x' y' = Ok r' /\ (qval 16 r <= qval 16 r')%Q.
Proof. exact hypot32_mono. Qed.
Theorem C128_hypot_bounds : forall x y, valid F32 x = true -> valid F32 y = true ->
  (qval 16 x * qval 16 x + qval 16 y * qval 16 y < qval 16 2147483648)%Q ->
  exists r, fx_hypot F32 x y = Ok r /\ valid F32 r = true /\ (0 <= qval 16 r)%Q /\
  (qval 16 r * qval 16 r <= qval 16 x * qval 16 x + qval 16 y * qval 16 y)%Q /\
  (qval 16 x * qval 16 x + qval 16 y * qval 16 y < qval 16 (r + 1) * qval 16 (r + 1) + qval 16 2)%Q /\
  (qval 16 r <= Qabs (qval 16 x) + Qabs (qval 16 y))%Q.
Proof. exact hypot32_bounds. Qed.
(** (-1, 2) is shorter than (3, -4) *)
Example C128_case : fx_hypot F32 (-65536) 131072 = Ok 146542 /\ fx_hypot F32 196608 (-262144) = Ok 327680.
Proof. vm_compute. split; reflexivity. Qed.

(** C129 *)
Theorem C129_radians_of_degrees32 : forall m, valid F32 m = true -> (Rabs (rval 16 m * (180 / PI)) <= 32760)%R ->
  exists d r, fx_degrees F32 m = Ok d /\ fx_radians F32 d = Ok r /\
  (Rabs (rval 16 r - rval 16 m) <= 8.15 * ulp 16 + 4.21e-6 * Rabs (rval 16 m))%R.
Proof. exact rad_of_deg32. Qed.
Theorem C129_degrees_of_radians32 : forall m, valid F32 m = true ->
  exists r, fx_radians F32 m = Ok r /\ ((Rabs (rval 16 m) <= 32400)%R -> exists d, fx_degrees F32 r = Ok d /\
  (Rabs (rval 16 d - rval 16 m) <= 466.5 * ulp 16 + 4.21e-6 * Rabs (rval 16 m))%R).
Proof. exact deg_of_rad32. Qed.
Theorem C129_radians_of_degrees64 : forall m, valid F64 m = true -> (Rabs (rval 32 m * (180 / PI)) <= 2147483647)%R ->
  exists d r, fx_degrees F64 m = Ok d /\ fx_radians F64 d = Ok r /\
  (Rabs (rval 32 r - rval 32 m) <= 8.15 * ulp 32 + 8.01e-11 * Rabs (rval 32 m))%R.
Proof. exact rad_of_deg64. Qed.
(** 2 rad there and back: 2 ulps lost; 90 degrees there and back *)
Example C129_case : exists d r, fx_degrees F32 131072 = Ok d /\ fx_radians F32 d = Ok r /\ r = 131070 /\
  exists r' d', fx_radians F32 (90 * 65536) = Ok r' /\ fx_degrees F32 r' = Ok d' /\ d' = 5898060.
Proof. do 2 eexists. split; [vm_compute; reflexivity|]. split; [vm_compute; reflexivity|]. split; [reflexivity|].
  do 2 eexists. split; [vm_compute; reflexivity|]. split; vm_compute; reflexivity. Qed.

(** C130 *)
Theorem C130_expansion_unique : forall b up s s' q q', 2 <= b -> expansion b up s q -> expansion b up s' q' -> (q == q')%Q -> s = s'.
Proof. exact expansion_fun. Qed.
Theorem C130_format_equals_stream : forall c st m up, wf c = true -> valid c m = true -> sgn (ct c) = true -> cf c <= bits (ct c) - 2 ->
  10 * (2 ^ cf c - 1) <= hi (bits (ct c)) (sgn (ct c)) -> In (ftype st) [103; 71] -> cf c <= precision st ->
  fits 32 true (width_val st) -> width_val st <= 0 ->
  let x := qval (cf c) m in
  (0 <= x)%Q /\ sign_mode st <> 43 /\ sign_mode st <> 32 \/
  is_int x /\ (x < 0)%Q /\ (qval (cf c) (lo (bits (ct c)) true + 2 ^ cf c) <= x)%Q ->
  exists s, format_to c st m = Ok s /\ stream_out c false true false up m = Ok s.
Proof. exact format_eq_stream. Qed.
(** format("{:.16}", x) and cout << dec << x; for -1.5 they differ *)
Example C130_case : format_to F32 (with_prec state0 16) 205887 = Ok (txt "3.1415863037109375") /\
  stream_out F32 false true false false 205887 = Ok (txt "3.1415863037109375") /\
  format_to F32 (with_prec state0 16) (-98304) = Ok (txt "-2.5") /\ stream_out F32 false true false false (-98304) = Ok (txt "-1.5").
Proof. vm_compute. repeat split. Qed.
Theorem C130_negative_fraction_refuted : exists m s s', valid F32 m = true /\ format_to F32 (with_prec state0 16) m = Ok s /\
  stream_out F32 false true false false m = Ok s' /\ s <> s'.
Proof. exists (-98304), (txt "-2.5"), (txt "-1.5"). vm_compute. repeat split; congruence. Qed.

Print Assumptions C124_mul_monotone.
Print Assumptions C124_div_monotone.
Print Assumptions C124_div_antitone.
Print Assumptions C125_div_then_mul.
Print Assumptions C125_mul_then_div.
Print Assumptions C126_zero_product.
Print Assumptions C126_zero_quotient.
Print Assumptions C127_sqrt_monotone.
Print Assumptions C127_sqrt_perfect.
Print Assumptions C127_square_of_root.
Print Assumptions C127_root_of_square.
Print Assumptions C128_hypot_monotone.
Print Assumptions C128_hypot_bounds.
Print Assumptions C129_radians_of_degrees32.
Print Assumptions C129_degrees_of_radians32.
Print Assumptions C129_radians_of_degrees64.
Print Assumptions C130_expansion_unique.
Print Assumptions C130_format_equals_stream.
Print Assumptions C130_negative_fraction_refuted.
