(** Property theorems C159, C160 and further theorems for C24, C25, C89, C105: exact values.  Statements only; proofs are in ExactProofs.v. *)
From Coq Require Import ZArith QArith Bool List Reals.
From Verif Require Import Base Fixed Spec SpecReal SpecExact SpecConst Numbers Math Random RandomProofs Ext NumThms EulerGamma RefuteArith ExactProofs.
Import ListNotations.
Open Scope Z_scope.

(** C159: the value and the state after a draw, for every engine of 32 bits or more, when the processor takes shift counts modulo the width.
    [pcg_output] is the output function written with /, mod and bitwise operations on unbounded integers. *)
Theorem C159_draw_value : forall p e, pcg_ok p = true -> 32 <= bits (pu p) ->
  draw mask_shift p e = Ok (pcg_output (bits (pu p)) (pinc p) (pxor p) (pmix p) ((m_state e * pmul p + m_seed e) mod 2 ^ bits (pu p)),
    {| m_seed := m_seed e; m_state := (m_state e + 1) mod 2 ^ bits (pu p) |}).
Proof. exact draw_value. Qed.
Example C159_case : pcg_ok pcg2014 = true /\ pcg_ok pcg2014_64 = true /\ bits (pu pcg2014) = 32 /\ bits (pu pcg2014_64) = 64 /\
  res_map fst (draws mask_shift pcg2014 4 (new_default pcg2014)) = Ok [1609811217; 364240157; 169645074; 2009107149] /\
  res_map fst (draws mask_shift pcg2014_64 4 (new_default pcg2014_64)) = Ok [51304826932099822; 31964162986381207; 2339886732356333; 58284113471746770] /\
  pcg_output 32 (pinc pcg2014) (pxor pcg2014) (pmix pcg2014) (default_seed mod 2 ^ 32) = 1609811217.
Proof. repeat split; vm_compute; reflexivity. Qed.
Print Assumptions C159_draw_value.

(** C24: for which types numeric_limits<>::epsilon(), is_signed and round_style are right.  The gap between 1 and the next value is one ulp. *)
Theorem C24_epsilon_value : forall c e, wf c = true -> nl_epsilon c = Ok e ->
  (cr c = false -> is_floor (cf c) (5 # 65536) e) /\ (cr c = true -> is_nearest (cf c) (5 # 65536) e).
Proof. exact epsilon_bounds. Qed.
Theorem C24_epsilon_right_only : forall c, wf c = true -> (nl_epsilon c = Ok 1 <-> cf c = 14 \/ cr c = true /\ cf c = 13).
Proof. exact epsilon_right. Qed.
Theorem C24_is_signed_right_only : forall c, wf c = true ->
  ((nl_is_signed c = true <-> exists m, valid c m = true /\ (qval (cf c) m < 0)%Q) <-> sgn (ct c) = true).
Proof. exact is_signed_right. Qed.
Theorem C24_round_style_signed_refuted : forall c, wf c = true -> cr c = false -> sgn (ct c) = true ->
  nl_round_style c = round_toward_zero /\ valid c (-1) = true /\ valid c 1 = true /\ fx_mul c (-1) 1 = Ok (-1) /\
  ~ is_trunc (cf c) (qval (cf c) (-1) * qval (cf c) 1) (-1).
Proof. exact round_style_wrong. Qed.
Theorem C24_round_style_unsigned : forall c x y m, wf c = true -> cr c = false -> sgn (ct c) = false -> valid c x = true -> valid c y = true ->
  is_trunc (cf c) (qval (cf c) x * qval (cf c) y) m -> fits (bits (ct c)) false m -> fx_mul c x y = Ok m.
Proof. exact round_style_unsigned. Qed.
Example C24_exact_case : nl_epsilon F32 = Ok 5 /\ nl_epsilon {| ct := int32; ci := int64; cf := 14; cr := false |} = Ok 1 /\
  nl_epsilon {| ct := int8; ci := int16; cf := 7; cr := false |} = Ok 0 /\ nl_epsilon F64 = Ok 327680 /\ fx_mul U32 98304 98304 = Ok 147456.
Proof. repeat split. Qed.
Print Assumptions C24_epsilon_value.
Print Assumptions C24_epsilon_right_only.
Print Assumptions C24_is_signed_right_only.
Print Assumptions C24_round_style_signed_refuted.
Print Assumptions C24_round_style_unsigned.

(** C160: the constants of every type.  [constants c] pairs each constant with the real number it is named after;
    the last hypothesis says that the type has room for the number. *)
Theorem C160_constants : forall c r x, wf c = true -> In (r, x) (constants c) -> cf c <= 48 -> (x + ulp (cf c) <= rval (cf c) (maxv (ct c)))%R ->
  (cr c = false -> trunc_const (cf c) r x) /\
  (cr c = true -> cf c < 48 -> exists m, r = Ok m /\ (Rabs (rval (cf c) m - x) <= ulp (cf c) / 2)%R).
Proof. exact constants_every. Qed.
Theorem C160_pi_e : forall c r x, wf c = true -> In (r, x) (firstn 5 (constants c)) -> cf c <= 59 -> (x + ulp (cf c) <= rval (cf c) (maxv (ct c)))%R ->
  (cr c = false -> trunc_const (cf c) r x) /\
  (cr c = true -> cf c < 59 -> exists m, r = Ok m /\ (Rabs (rval (cf c) m - x) <= ulp (cf c) / 2)%R).
Proof. exact pi_e_every. Qed.
Theorem C160_egamma : forall g c, is_euler_gamma g -> wf c = true -> cf c <= 32 -> (g + ulp (cf c) <= rval (cf c) (maxv (ct c)))%R ->
  (cr c = false -> trunc_const (cf c) (egamma_v c) g) /\
  (cr c = true -> cf c < 32 -> exists m, egamma_v c = Ok m /\ (Rabs (rval (cf c) m - g) <= ulp (cf c) / 2)%R).
Proof. exact egamma_every. Qed.
Example C160_case : wf {| ct := int16; ci := int32; cf := 12; cr := true |} = true /\ fx_pi {| ct := int16; ci := int32; cf := 12; cr := true |} = Ok 12868 /\
  fx_pi {| ct := int16; ci := int32; cf := 12; cr := false |} = Ok 12867 /\ phi_v {| ct := uint64; ci := uint128; cf := 48; cr := false |} = Ok 455436079300426.
Proof. repeat split. Qed.
(** 49 fraction bits are too many for phi: its 61-bit literal is a rounded-up double *)
Theorem C160_phi_limit : wf U64_49 = true /\ phi_v U64_49 = Ok 910872158600853 /\ ((1 + sqrt 5) / 2 < rval 49 910872158600853)%R.
Proof. exact phi_refuted. Qed.
Print Assumptions C160_constants.
Print Assumptions C160_pi_e.
Print Assumptions C160_egamma.
Print Assumptions C160_phi_limit.

(** C161: on a machine where a shift by the width or more gives 0, both predefined engines draw only zeros, from every state *)
Theorem C161_zero_shift_refuted : forall n e,
  (exists e', draws zero_shift pcg2014 n e = Ok (repeat 0 n, e')) /\ (exists e', draws zero_shift pcg2014_64 n e = Ok (repeat 0 n, e')).
Proof. exact draws_zero_both. Qed.
Example C161_case : res_map fst (draws zero_shift pcg2014 3 (new_default pcg2014)) = Ok [0; 0; 0] /\
  res_map fst (draws mask_shift pcg2014 3 (new_default pcg2014)) = Ok [1609811217; 364240157; 169645074].
Proof. split; vm_compute; reflexivity. Qed.
Print Assumptions C161_zero_shift_refuted.

(** C89: what the two-lane reduction computes, for every pair of arguments: the results are swapped, and only the low half of each argument
    is looked at to find the number of turns *)
Theorem C89_two_lanes_value : forall x y,
  simd_reduce_angle_2 (x, y) = Ok (low64 (y - low32 (low32 y * 683565275) * 1216271632), low64 (x - low32 (low32 x * 683565275) * 1216271632)).
Proof. exact reduce2_value. Qed.
Example C89_two_lanes_case : simd_reduce_angle_2 (42949672960, 8589934592) = Ok (8589934592, 42949672960) /\
  simd_reduce_angle_2 (42949685305, -5) = Ok (-1066841619478653077, 1213129759500395785).
Proof. split; vm_compute; reflexivity. Qed.
Print Assumptions C89_two_lanes_value.

(** C105: a floating value whose integer part does not fit is undefined *)
Theorem C105_float_undefined : forall k v n, 0 <= k -> is_trunc 0 (qval k v) n -> ~ fits 64 true n -> xint_of_float (Z.quot v (2 ^ k)) = UB.
Proof. exact xint_float_ub. Qed.
Example C105_float_undefined_case : xint_of_float (Z.quot (2 ^ 65 + 1) 2) = UB.
Proof. vm_compute. reflexivity. Qed.
Print Assumptions C105_float_undefined.
