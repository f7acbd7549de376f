(** Property theorems C176-C178: order of the text reader and of the angle conversions; logarithms of every instantiation. *)
From Coq Require Import ZArith QArith Reals List String Lia Lra.
From Interval Require Import Tactic.
From Verif Require Import Base Fixed Math TextIn Spec SpecText SpecReal RefuteArith StdProofs SinThms InProofs ParseOrder AngleOrder LogGen LogGen2.
Import ListNotations.
Open Scope string_scope.
Open Scope Z_scope.
(** ** C176: the text reader keeps the order of decimal numerals.  [readable]: digits, in range, and not so many
    leading zeros in the fraction that the power of ten overflows. *)
Theorem C176_order : forall c n1 i1 p1 n2 i2 p2 o1 o2, wf c = true -> cf c <= 62 ->
  readable c n1 i1 (frac_of p1) -> readable c n2 i2 (frac_of p2) ->
  (numeral 10 n1 i1 (frac_of p1) <= numeral 10 n2 i2 (frac_of p2))%Q ->
  exists m1 m2, detail_parse c (dec_text n1 i1 p1) o1 = Ok (true, m1) /\
    detail_parse c (dec_text n2 i2 p2) o2 = Ok (true, m2) /\ m1 <= m2.
Proof. exact parse_order. Qed.
(** 1.5, 01.5, 1.50 and 1.500000000000000000000 are the same number *)
Theorem C176_same : forall c n1 i1 p1 n2 i2 p2 o1 o2, wf c = true -> cf c <= 62 ->
  readable c n1 i1 (frac_of p1) -> readable c n2 i2 (frac_of p2) ->
  (numeral 10 n1 i1 (frac_of p1) == numeral 10 n2 i2 (frac_of p2))%Q ->
  detail_parse c (dec_text n1 i1 p1) o1 = detail_parse c (dec_text n2 i2 p2) o2.
Proof. exact parse_same. Qed.
Theorem C176_from_cstring_order : forall c n1 i1 p1 n2 i2 p2 o1 o2, wf c = true -> cf c <= 62 ->
  cf c <= bits (ct c) - (if sgn (ct c) then 2 else 1) ->
  readable c n1 i1 (frac_of p1) -> readable c n2 i2 (frac_of p2) ->
  (numeral 10 n1 i1 (frac_of p1) <= numeral 10 n2 i2 (frac_of p2))%Q ->
  exists m1 m2, fixed_from_cstring c (dec_text n1 i1 p1) o1 = Ok (true, m1) /\
    fixed_from_cstring c (dec_text n2 i2 p2) o2 = Ok (true, m2) /\ m1 <= m2.
Proof. exact from_cstring_order. Qed.
Theorem C176_literal_order : forall c n1 i1 p1 n2 i2 p2 o1 o2, wf c = true -> cf c <= 62 ->
  readable c n1 i1 (frac_of p1) -> readable c n2 i2 (frac_of p2) ->
  (numeral 10 n1 i1 (frac_of p1) <= numeral 10 n2 i2 (frac_of p2))%Q ->
  exists m1 m2, literal c (dec_text n1 i1 p1) o1 = Ok m1 /\ literal c (dec_text n2 i2 p2) o2 = Ok m2 /\ m1 <= m2.
Proof. exact literal_order. Qed.
Example C176_case : readable F32 true [1] [5] /\ readable F32 false [0; 1] [4; 9; 9; 9; 9; 9; 9; 9; 9; 9; 9; 9; 9] /\
  dec_text false [0; 1] (Some [4; 9; 9; 9; 9; 9; 9; 9; 9; 9; 9; 9; 9]) = txt "01.4999999999999" /\
  detail_parse F32 (txt "01.4999999999999") 7 = Ok (true, 98303) /\ detail_parse F32 (txt "1.5") 7 = Ok (true, 98304).
Proof.
  assert (D : forall l, forallb (fun d => (0 <=? d) && (d <? 10))%bool l = true -> is_digits 10 l).
  { intros l H. apply Forall_forall. intros d I. rewrite forallb_forall in H. specialize (H d I). lia. }
  unfold readable. repeat split; try (apply D; reflexivity); vm_compute; congruence.
Qed.
Print Assumptions C176_order.
Print Assumptions C176_same.
Print Assumptions C176_from_cstring_order.
Print Assumptions C176_literal_order.

Open Scope R_scope.
(** ** C177: degrees and radians keep the order; degrees is odd *)
Theorem C177_radians_odd_refuted : exists m r, valid F32 m = true /\ valid F32 (- m) = true /\ fx_radians F32 m = Ok r /\ fx_radians F32 (- m) <> Ok (- r)%Z.
Proof. exact rad_odd_refuted. Qed.
Theorem C177_degrees32_order : forall m n, valid F32 m = true -> valid F32 n = true ->
  Rabs (rval 16 m * (180 / PI)) <= 32760 -> Rabs (rval 16 n * (180 / PI)) <= 32760 -> rval 16 m <= rval 16 n ->
  exists r s, fx_degrees F32 m = Ok r /\ fx_degrees F32 n = Ok s /\ rval 16 r <= rval 16 s.
Proof. intros m n. exact (deg_order F32 m n s32). Qed.
Theorem C177_degrees64_order : forall m n, valid F64 m = true -> valid F64 n = true ->
  Rabs (rval 32 m * (180 / PI)) <= 2147483647 -> Rabs (rval 32 n * (180 / PI)) <= 2147483647 -> rval 32 m <= rval 32 n ->
  exists r s, fx_degrees F64 m = Ok r /\ fx_degrees F64 n = Ok s /\ rval 32 r <= rval 32 s.
Proof. intros m n. exact (deg_order F64 m n s64). Qed.
Theorem C177_degrees32_odd : forall m, valid F32 m = true -> Rabs (rval 16 m * (180 / PI)) <= 32760 ->
  exists r, fx_degrees F32 m = Ok r /\ fx_degrees F32 (- m) = Ok (- r)%Z.
Proof. intros m. exact (deg_odd F32 m s32). Qed.
Theorem C177_degrees64_odd : forall m, valid F64 m = true -> Rabs (rval 32 m * (180 / PI)) <= 2147483647 ->
  exists r, fx_degrees F64 m = Ok r /\ fx_degrees F64 (- m) = Ok (- r)%Z.
Proof. intros m. exact (deg_odd F64 m s64). Qed.
Theorem C177_radians_order : forall c m n, c = F32 \/ c = F64 -> valid c m = true -> valid c n = true ->
  rval (cf c) m <= rval (cf c) n ->
  exists r s, fx_radians c m = Ok r /\ fx_radians c n = Ok s /\ rval (cf c) r <= rval (cf c) s.
Proof. exact rad_order. Qed.
(** rounding down may put radians(-x) one unit below -radians(x) *)
Theorem C177_radians_odd : forall c m, c = F32 \/ c = F64 -> valid c m = true -> valid c (- m) = true ->
  exists r s, fx_radians c m = Ok r /\ fx_radians c (- m) = Ok s /\ (s = - r \/ s = - r - 1)%Z.
Proof. exact rad_odd. Qed.
Example C177_case : valid F32 (-131072) = true /\ Rabs (rval 16 (-131072) * (180 / PI)) <= 32760 /\
  fx_degrees F32 (-131072) = Ok (-7509780)%Z /\ fx_radians F32 (-131072) = Ok (-2288)%Z /\ fx_radians F32 131072 = Ok 2287%Z.
Proof.
  split; [reflexivity|]. split; [|vm_compute; auto].
  unfold rval. change (IZR (2 ^ 16)) with 65536. interval with (i_prec 60).
Qed.
Print Assumptions C177_degrees32_order.
Print Assumptions C177_degrees64_odd.
Print Assumptions C177_radians_order.
Print Assumptions C177_radians_odd.

(** ** C178: the logarithms of every instantiation *)
(** 1u << (f - 1) has no value for more than 32 fraction bits *)
Theorem C178_wide_refuted : forall c m, (33 <= cf c)%Z -> fx_log2 c m = UB.
Proof. exact log2_wide. Qed.
Theorem C178_small_refuted : wf Q28 = true /\ valid Q28 1 = true /\ fx_log2 Q28 1 = UB.
Proof. exact log2_small. Qed.
(** log2 0.5 of an unsigned type *)
Theorem C178_unsigned_refuted : wf U32 = true /\ valid U32 32768 = true /\ fx_log2 U32 32768 = Ok 4294901760%Z.
Proof. exact log2_unsigned. Qed.
Theorem C178_log2 : forall c m, wf c = true -> sgn (ct c) = true ->
  (bits (ct c) = 32 /\ cf c <= 26 \/ bits (ct c) = 64 /\ cf c <= 32)%Z -> valid c m = true -> 0 < rval (cf c) m ->
  exists r, fx_log2 c m = Ok r /\ valid c r = true /\
    rval (cf c) r <= ln (rval (cf c) m) / ln 2 < rval (cf c) r + 4 * ulp (cf c).
Proof. intros c m W S B. exact (log2_gen c m (conj W (conj S B))). Qed.
Theorem C178_log : forall c m, wf c = true -> sgn (ct c) = true ->
  (bits (ct c) = 32 /\ cf c <= 26 \/ bits (ct c) = 64 /\ cf c <= 32)%Z -> cr c = false -> valid c m = true -> 0 < rval (cf c) m ->
  exists r, fx_log c m = Ok r /\ valid c r = true /\
    Rabs (rval (cf c) r - ln (rval (cf c) m)) <= (6 + Rabs (ln (rval (cf c) m))) * ulp (cf c).
Proof. intros c m W S B. exact (log_gen c m (conj W (conj S B))). Qed.
Theorem C178_log10 : forall c m, wf c = true -> sgn (ct c) = true ->
  (bits (ct c) = 32 /\ cf c <= 26 \/ bits (ct c) = 64 /\ cf c <= 32)%Z -> cr c = false -> valid c m = true -> 0 < rval (cf c) m ->
  exists r, fx_log10 c m = Ok r /\ valid c r = true /\
    Rabs (rval (cf c) r - ln (rval (cf c) m) / ln 10) <= (3 + Rabs (ln (rval (cf c) m) / ln 10)) * ulp (cf c).
Proof. intros c m W S B. exact (log10_gen c m (conj W (conj S B))). Qed.
Theorem C178_domain : forall c m, wf c = true -> sgn (ct c) = true ->
  (bits (ct c) = 32 /\ cf c <= 26 \/ bits (ct c) = 64 /\ cf c <= 32)%Z -> valid c m = true ->
  (fx_log2 c m = Throw domain_error <-> rval (cf c) m <= 0).
Proof. intros c m W S B. exact (log2_gen_domain c m (conj W (conj S B))). Qed.
Example C178_case : wf Q8 = true /\ valid Q8 2560 = true /\ 0 < rval 8 2560 /\
  fx_log2 Q8 2560 = Ok 850%Z /\ fx_log Q8 2560 = Ok 589%Z /\ fx_log10 Q8 2560 = Ok 256%Z /\ wf Q40 = true /\ fx_log2 Q40 2560 = UB.
Proof.
  split; [reflexivity|]. split; [reflexivity|]. split.
  { unfold rval. change (IZR (2 ^ 8)) with 256. lra. }
  vm_compute. repeat split.
Qed.
Print Assumptions C178_wide_refuted.
Print Assumptions C178_log2.
Print Assumptions C178_log.
Print Assumptions C178_log10.
Print Assumptions C178_domain.
