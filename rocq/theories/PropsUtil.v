(** Property theorems C91-C93, C110-C113, C135, C136: detail/util.hpp and detail/perf.hpp.  Statements only; proofs are in
    UtilProofs.v, PerfProofs.v, LutProofs.v, LutMore.v, UtilThms.v and LutThms.v. *)
From Coq Require Import ZArith List QArith Reals Lra.
From Verif Require Import Base Fixed Math Spec SpecReal Util CordicProofs UtilProofs PerfProofs LutProofs UtilThms LutThms.
Import ListNotations.
Open Scope Z_scope.

(** C91: the inner loop divides by 16 four times per term, so the sum converges to the wrong number: no N gives pi *)
Theorem C91_bbp_values :
  bbp_calc_pi 61 1 = Ok 7224974762202907717 /\ bbp_calc_pi 61 2 = Ok 7224979315980003464 /\ bbp_calc_pi 61 3 = Ok 7224979316002670436 /\
  (forall N, 4 <= N <= 2 ^ 28 -> bbp_calc_pi 61 N = Ok 7224979316002670606) /\
  (forall N, 2 ^ 28 < N -> bbp_calc_pi 61 N = UB).
Proof. exact bbp_all. Qed.
Theorem C91_pi_refuted : forall N v, 1 <= N -> bbp_calc_pi 61 N = Ok v -> (0.008 < Rabs (rval 61 v - PI))%R.
Proof. exact bbp_not_pi. Qed.
Example C91_case : bbp_calc_pi 61 10 = Ok 7224979316002670606.
Proof. apply C91_bbp_values. split; discriminate. Qed.
Print Assumptions C91_bbp_values.
Print Assumptions C91_pi_refuted.

(** C92: the double is n/2^k *)
Theorem C92_eval_value : forall t n k f r, ity_ok t = true /\ 32 <= bits t /\ sgn t = true -> bits t <= 64 ->
  0 <= k -> 0 <= f < bits t -> 0 <= n -> is_floor f (qval k n) r -> fits (bits t) (sgn t) r -> eval_value t n k f = Ok r.
Proof. exact C92_lemma. Qed.
Example C92_case : is_floor 4 (qval 5 105) 52 /\ fits 64 true 52 /\ eval_value int64 105 5 4 = Ok 52.   (* 3.28125 *)
Proof. exact case92. Qed.
Print Assumptions C92_eval_value.

(** C110: negative arguments lose their fraction *)
Theorem C110_eval_value_negative : forall t n k f r p, ity_ok t = true /\ 32 <= bits t /\ sgn t = true -> bits t <= 64 ->
  0 <= k -> 0 <= f < bits t -> n < 0 -> is_trunc 0 (qval k n) p -> r = p * 2 ^ f -> fits (bits t) (sgn t) r ->
  eval_value t n k f = Ok r.
Proof. exact C110_lemma. Qed.
Example C110_case : is_trunc 0 (qval 5 (-105)) (-3) /\ eval_value int64 (-105) 5 4 = Ok (-48).
Proof. exact case110. Qed.
Print Assumptions C110_eval_value_negative.

(** C93 *)
Theorem C93_extrema : forall c func std_func start stop step init fuel r,
  ity_ok (ct c) = true /\ 32 <= bits (ct c) /\ sgn (ct c) = true ->
  (forall x v, func x = Ok v -> valid c v = true) -> (forall x v, std_func x = Ok v -> valid c v = true) ->
  valid c start = true -> valid c stop = true -> valid c step = true -> valid c (init 0) = true -> valid c (init 255) = true -> 0 < step ->
  measure_esp fuel c start stop step func std_func init = Ok r ->
  let error x e := exists a b, func x = Ok a /\ std_func x = Ok b /\ e = Z.abs (b - a) in
  (forall k, 0 <= k -> start + k * step <= stop -> exists e, error (start + k * step) e /\ min_esp r <= e <= max_esp r) /\
  ((max_esp r = init 0 /\ max_esp_input r = init 0) \/
   (init 0 < max_esp r /\ exists k, 0 <= k /\ start + k * step <= stop /\ max_esp_input r = start + k * step /\ error (start + k * step) (max_esp r))) /\
  ((min_esp r = init 255 /\ min_esp_input r = init 0) \/
   (min_esp r < init 255 /\ exists k, 0 <= k /\ start + k * step <= stop /\ min_esp_input r = start + k * step /\ error (start + k * step) (min_esp r))).
Proof. exact C93_lemma. Qed.
Theorem C93_attained_refuted : exists func std_func start stop step init r,
  (forall x v, func x = Ok v -> valid F32 v = true) /\ (forall x v, std_func x = Ok v -> valid F32 v = true) /\ 0 < step /\
  measure_esp 2 F32 start stop step func std_func init = Ok r /\
  (forall n, 0 <= n <= 255 -> init n = n * 65536) /\
  ~ (exists k, 0 <= k /\ start + k * step <= stop /\ max_esp_input r = start + k * step).
Proof. exact C93_refuted_lemma. Qed.
Example C93_case : measure_esp 9 F32 0 (2 * 65536) 65536 (fun x => Ok 0) (fun x => Ok (x / 2)) (fun n => n * 65536) =
  Ok {| max_esp := 65536; min_esp := 0; max_esp_input := 131072; min_esp_input := 0 |}.
Proof. exact case93. Qed.
Print Assumptions C93_extrema.
Print Assumptions C93_attained_refuted.

(** C111: when the measurement ends *)
Theorem C111_terminates : forall c func std_func start stop step init,
  ity_ok (ct c) = true /\ 32 <= bits (ct c) /\ sgn (ct c) = true ->
  (forall x v, func x = Ok v -> valid c v = true) -> (forall x v, std_func x = Ok v -> valid c v = true) ->
  valid c start = true -> valid c stop = true -> valid c step = true -> valid c (init 0) = true -> valid c (init 255) = true ->
  0 < step -> stop + step <= maxv (ct c) ->
  (forall k, 0 <= k -> start + k * step <= stop -> exists e,
     (exists a b, func (start + k * step) = Ok a /\ std_func (start + k * step) = Ok b /\ e = Z.abs (b - a)) /\ e <= maxv (ct c)) ->
  exists fuel r, measure_esp fuel c start stop step func std_func init = Ok r.
Proof. exact C111_total. Qed.
(** with a step that is not positive, or an end at the largest value, no run returns *)
Theorem C111_never_returns : forall c func std_func start stop step init fuel r,
  ity_ok (ct c) = true /\ 32 <= bits (ct c) /\ sgn (ct c) = true ->
  (forall x v, func x = Ok v -> valid c v = true) -> (forall x v, std_func x = Ok v -> valid c v = true) ->
  valid c start = true -> valid c stop = true -> valid c step = true -> valid c (init 0) = true -> valid c (init 255) = true ->
  start <= stop -> step <= 0 \/ stop = maxv (ct c) ->
  measure_esp fuel c start stop step func std_func init <> Ok r.
Proof. exact C111_never. Qed.
Example C111_case : measure_esp 9 F32 (2 ^ 31 - 1) (2 ^ 31 - 1) 1 (fun _ => Ok 0) (fun _ => Ok 0) (fun n => n * 65536) = UB /\
  measure_esp 9 F32 0 65536 0 (fun _ => Ok 0) (fun _ => Ok 0) (fun n => n * 65536) = OutOfFuel.
Proof. exact case111. Qed.
Print Assumptions C111_terminates.
Print Assumptions C111_never_returns.

(** C112: every entry of the angle table is below i*pi/N by less than (i+1) units in the last place *)
Theorem C112_angles : forall N, 1 <= N < 2 ^ 31 -> exists l, angels_lut N = Ok l /\ Z.of_nat (length l) = N /\
  forall i, 0 <= i < N ->
  (rval 32 (nth (Z.to_nat i) l 0%Z) <= IZR i * PI / IZR N < rval 32 (nth (Z.to_nat i) l 0%Z) + IZR (i + 1) * ulp 32)%R.
Proof. exact angels_ok. Qed.
Example C112_case : angels_lut 4 = Ok [0; 3373259426; 6746518852; 10119778278].
Proof. exact case112. Qed.
Print Assumptions C112_angles.

(** C113: [sin_d i] stands for the double std::sin(i); all that is used is sin 0 = 0 and |sin| <= 1 *)
Theorem C113_lut_sine_zero : forall sin_d N x,
  fst (sin_d 0) = 0 /\ (forall i, 0 <= snd (sin_d i) /\ Z.abs (fst (sin_d i)) <= 2 ^ snd (sin_d i)) ->
  4 <= N < 2 ^ 31 -> 0 <= x -> (rval 32 x + PI / IZR N < 1)%R -> lut_calc_sin sin_d N x = Ok 0.
Proof. exact lut_zero_real. Qed.
Theorem C113_lut_sine_refuted : forall sin_d,
  fst (sin_d 0) = 0 /\ (forall i, 0 <= snd (sin_d i) /\ Z.abs (fst (sin_d i)) <= 2 ^ snd (sin_d i)) ->
  exists x, (rval 32 x = 1 / 2 /\ lut_calc_sin sin_d 512 x = Ok 0%Z /\ 0.47 < Rabs (rval 32 0 - sin (rval 32 x)))%R.
Proof. exact lut_refuted. Qed.
Example C113_case : (fst (sin_zero 0) = 0 /\ forall i, 0 <= snd (sin_zero i) /\ Z.abs (fst (sin_zero i)) <= 2 ^ snd (sin_zero i)) /\
  lut_calc_sin sin_zero 8 2147483648 = Ok 0 /\ lut_calc_sin sin_zero 8 6442450944 = Ok 3614090359.
Proof. exact (conj sin_zero_like sin_zero_case). Qed.
Print Assumptions C113_lut_sine_zero.
Print Assumptions C113_lut_sine_refuted.

(** C135: adding the stored pi to an angle that is not negative flips the sign of the table sine, exactly; every such angle
    has a result and it stays within 1.01 *)
Theorem C135_half_turn : forall sin_d N x p,
  fst (sin_d 0) = 0 /\ (forall i, 0 <= snd (sin_d i) /\ Z.abs (fst (sin_d i)) <= 2 ^ snd (sin_d i)) ->
  5 <= N <= 4096 -> pi_v F64 = Ok p -> 0 <= x -> valid F64 (x + p) = true ->
  exists v, lut_calc_sin sin_d N x = Ok v /\ lut_calc_sin sin_d N (x + p) = Ok (- v).
Proof. exact half_turn_thm. Qed.
Theorem C135_bounded : forall sin_d N x,
  fst (sin_d 0) = 0 /\ (forall i, 0 <= snd (sin_d i) /\ Z.abs (fst (sin_d i)) <= 2 ^ snd (sin_d i)) ->
  5 <= N <= 4096 -> 0 <= x -> valid F64 x = true ->
  exists v, lut_calc_sin sin_d N x = Ok v /\ (Rabs (rval 32 v) <= 1.01)%R.
Proof. exact bounded_thm. Qed.
Example C135_case : (fst (sin_zero 0) = 0 /\ forall i, 0 <= snd (sin_zero i) /\ Z.abs (fst (sin_zero i)) <= 2 ^ snd (sin_zero i)) /\
  lut_calc_sin sin_zero 512 6442450944 = Ok 3614090359 /\ lut_calc_sin sin_zero 512 (6442450944 + 13493037704) = Ok (-3614090359).
Proof. exact (conj sin_zero_like case135). Qed.
Print Assumptions C135_half_turn.
Print Assumptions C135_bounded.

(** C136: every negative angle down to -2^21 gives the same number, std::sin(3), whatever the angle; so the result is wrong
    on the whole of [-3, -1/2], and it is not the negation of the result at the opposite angle *)
Theorem C136_negative_constant : forall sin_d N x,
  fst (sin_d 0) = 0 /\ (forall i, 0 <= snd (sin_d i) /\ Z.abs (fst (sin_d i)) <= 2 ^ snd (sin_d i)) ->
  64 <= N <= 512 -> (- 2097152 <= rval 32 x <= - 7 * ulp 32)%R ->
  exists v, lut_calc_sin sin_d N x = Ok v /\ (Rabs (rval 32 v - IZR (fst (sin_d 3%Z)) / IZR (2 ^ snd (sin_d 3%Z))) <= 2 * ulp 32)%R.
Proof. exact negative_thm. Qed.
Theorem C136_negative_refuted : forall sin_d N x,
  fst (sin_d 0) = 0 /\ (forall i, 0 <= snd (sin_d i) /\ Z.abs (fst (sin_d i)) <= 2 ^ snd (sin_d i)) ->
  (Rabs (IZR (fst (sin_d 3%Z)) / IZR (2 ^ snd (sin_d 3%Z)) - sin 3) <= 0.001)%R -> 64 <= N <= 512 -> (-3 <= rval 32 x <= -1/2)%R ->
  exists v, lut_calc_sin sin_d N x = Ok v /\ (0.28 <= Rabs (rval 32 v - sin (rval 32 x)))%R.
Proof. exact negative_wrong. Qed.
Theorem C136_odd_refuted : forall sin_d x,
  fst (sin_d 0) = 0 /\ (forall i, 0 <= snd (sin_d i) /\ Z.abs (fst (sin_d i)) <= 2 ^ snd (sin_d i)) ->
  (Rabs (IZR (fst (sin_d 3%Z)) / IZR (2 ^ snd (sin_d 3%Z)) - sin 3) <= 0.001)%R -> (7 * ulp 32 <= rval 32 x <= 0.99)%R ->
  exists v, lut_calc_sin sin_d 512 x = Ok 0 /\ lut_calc_sin sin_d 512 (- x) = Ok v /\ (0.14 <= rval 32 v)%R.
Proof. exact not_odd. Qed.
Example C136_case : (fst (sin_zero 0) = 0 /\ forall i, 0 <= snd (sin_zero i) /\ Z.abs (fst (sin_zero i)) <= 2 ^ snd (sin_zero i)) /\
  (Rabs (IZR (fst (sin_zero 3%Z)) / IZR (2 ^ snd (sin_zero 3%Z)) - sin 3) <= 0.001)%R /\ lut_calc_sin sin_zero 512 (-4294967296) = Ok 606118416.
Proof. exact (conj sin_zero_like (conj sin_zero3 case136)). Qed.
Print Assumptions C136_negative_constant.
Print Assumptions C136_negative_refuted.
Print Assumptions C136_odd_refuted.
