(** Order and oddness of degrees and radians for every instantiation that holds 180. *)
From Coq Require Import ZArith Reals Lia Lra Psatz Bool List.
From Interval Require Import Tactic.
From Verif Require Import Base Fixed Math Spec SpecReal BaseLemmas FixedLemmas CLemmas MathProofs RealLemmas StdProofs SinPoly SinProofs SinThms AtanProofs SinGen SinGen2 AngleGen.
Open Scope R_scope.

Lemma radians_form c m : sin_cfg c -> holds180 c -> valid c m = true ->
  exists P, pi_v c = Ok P /\ (0 < P)%Z /\ fx_radians c m = Ok (Z.quot m 180 * P / 2 ^ cf c)%Z.
Proof.
  intros HS H8 V. pose proof (g_f c HS) as F. pose proof (g_M c HS) as HM. pose proof (top180 c HS H8) as HT.
  destruct (pi_of c HS) as (P & EP & RP & _). exists P. split; [exact EP|]. split; [lia|].
  pose proof (proj1 (g_valid c HS m) V) as B. set (f := cf c) in *.
  assert (EQ : Z.quot (m * 2 ^ f) (180 * 2 ^ f) = Z.quot m 180) by (apply Z.quot_mul_cancel_r; lia).
  assert (QA : (Z.abs (Z.quot m 180) * 180 <= Z.abs m)%Z).
  { rewrite <- Z.quot_abs by lia. change (Z.abs 180) with 180%Z. rewrite Z.mul_comm. apply Z.mul_quot_le; lia. }
  assert (VQ : valid c (Z.quot m 180) = true) by (apply (g_valid c HS); lia).
  assert (VP : valid c P = true) by (apply (g_valid c HS); lia).
  assert (V180 : valid c (180 * 2 ^ f) = true) by (apply (g_valid c HS); lia).
  set (q := Z.quot m 180) in *.
  assert (LB : (- (Z.abs q * 4) <= q * P / 2 ^ f <= Z.abs q * 4)%Z).
  { clear - RP HM. split; [apply Z.div_le_lower_bound; nia|apply Z.div_le_upper_bound; nia]. }
  assert (VR : valid c (q * P / 2 ^ f) = true) by (apply (g_valid c HS); lia).
  unfold fx_radians. rewrite EP. cbn [bind]. rewrite (g_int c HS) by auto. cbn [bind].
  rewrite (g_div c HS); auto; fold f; rewrite ?EQ; auto; [|lia]. cbn [bind]. rewrite (g_mul c HS); auto.
Qed.
Lemma q_mono m n k : (0 < k)%Z -> (m <= n)%Z -> (Z.quot m k <= Z.quot n k)%Z.
Proof. intros. apply Z.quot_le_mono; auto. Qed.
Lemma radians_every_order c m n : sin_cfg c -> holds180 c -> valid c m = true -> valid c n = true -> (m <= n)%Z ->
  exists r s, fx_radians c m = Ok r /\ fx_radians c n = Ok s /\ (r <= s)%Z.
Proof.
  intros HS H8 V W L. pose proof (g_M c HS) as HM. destruct (radians_form c m HS H8 V) as (P & EP & P0 & E). destruct (radians_form c n HS H8 W) as (P' & EP' & _ & E').
  assert (P' = P) by congruence. subst P'. do 2 eexists. split; [exact E|]. split; [exact E'|].
  apply Z.div_le_mono; [lia|]. apply Z.mul_le_mono_nonneg_r; [lia|]. apply q_mono; lia.
Qed.
Lemma radians_every_odd c m : sin_cfg c -> holds180 c -> valid c m = true -> valid c (- m) = true ->
  exists r s, fx_radians c m = Ok r /\ fx_radians c (- m) = Ok s /\ (-1 <= r + s <= 0)%Z.
Proof.
  intros HS H8 V W. pose proof (g_M c HS) as HM. destruct (radians_form c m HS H8 V) as (P & EP & P0 & E). destruct (radians_form c (- m) HS H8 W) as (P' & EP' & _ & E').
  assert (P' = P) by congruence. subst P'. do 2 eexists. split; [exact E|]. split; [exact E'|].
  rewrite Z.quot_opp_l by lia. set (k := (2 ^ cf c)%Z) in *. replace (- Z.quot m 180 * P)%Z with (- (Z.quot m 180 * P))%Z by ring.
  set (a := (Z.quot m 180 * P)%Z). pose proof (Z.div_mod a k ltac:(lia)). pose proof (Z.mod_pos_bound a k ltac:(lia)).
  pose proof (Z.div_mod (- a) k ltac:(lia)). pose proof (Z.mod_pos_bound (- a) k ltac:(lia)). clear - H H0 H1 H2 HM. nia.
Qed.
(** the product fits *)
Definition deg_fits (c : cfg) (m : Z) : Prop :=
  Rabs (rval (cf c) m * (180 / PI)) + (180 + 20 * Rabs (rval (cf c) m)) * ulp (cf c) <= rval (cf c) (maxv (ct c)).
Lemma degrees_every_order c m n : sin_cfg c -> holds180 c -> valid c m = true -> valid c n = true -> deg_fits c m -> deg_fits c n -> (m <= n)%Z ->
  exists r s, fx_degrees c m = Ok r /\ fx_degrees c n = Ok s /\ (r <= s)%Z.
Proof.
  intros HS H8 V W A B L. pose proof (g_M c HS) as HM.
  destruct (degrees_gen_form c m HS H8 V A) as (P & r & EP & P0 & R & E & _). destruct (degrees_gen_form c n HS H8 W B) as (P' & s & EP' & _ & S & E' & _).
  assert (P' = P) by congruence. subst P'. exists r, s. split; [exact E|]. split; [exact E'|]. subst r s.
  apply Z.mul_le_mono_nonneg_r; [lia|]. apply q_mono; [lia|]. apply Z.mul_le_mono_nonneg_r; lia.
Qed.
Lemma degrees_every_odd c m : sin_cfg c -> holds180 c -> valid c m = true -> valid c (- m) = true -> deg_fits c m ->
  exists r, fx_degrees c m = Ok r /\ fx_degrees c (- m) = Ok (- r)%Z.
Proof.
  intros HS H8 V W A. pose proof (g_M c HS) as HM.
  assert (B : deg_fits c (- m)).
  { unfold deg_fits in *. rewrite rval_opp. replace (- rval (cf c) m * (180 / PI)) with (- (rval (cf c) m * (180 / PI))) by ring. rewrite !Rabs_Ropp. exact A. }
  destruct (degrees_gen_form c m HS H8 V A) as (P & r & EP & P0 & R & E & _). destruct (degrees_gen_form c (- m) HS H8 W B) as (P' & s & EP' & _ & S & E' & _).
  assert (P' = P) by congruence. subst P'. exists r. split; [exact E|]. rewrite E'. f_equal. subst r s.
  rewrite Z.mul_opp_l, Z.quot_opp_l by lia. ring.
Qed.
(** there and back *)
Lemma round_trip_every c m : sin_cfg c -> holds180 c -> valid c m = true -> deg_fits c m ->
  exists d r, fx_degrees c m = Ok d /\ fx_radians c d = Ok r /\ Rabs (rval (cf c) r - rval (cf c) m) <= (9 + Rabs (rval (cf c) m)) * ulp (cf c).
Proof.
  intros HS H8 V A. destruct (degrees_gen_every c m HS H8 V A) as (d & E & Vd & Bd). destruct (radians_gen_every c d HS H8 Vd) as (r & E' & _ & Br).
  exists d, r. split; [exact E|]. split; [exact E'|].
  pose proof (g_M c HS) as HM. assert (RM : 8 <= IZR (2 ^ cf c)) by (apply IZR_le; lia).
  assert (U : 0 < ulp (cf c) <= / 8) by (split; [apply Rinv_0_lt_compat; lra|apply Rinv_le_contravar; lra]).
  set (u := ulp (cf c)) in *. set (x := rval (cf c) m) in *. set (y := rval (cf c) d) in *. set (z := rval (cf c) r) in *.
  assert (H3 : 3.1415 < PI < 3.1416) by (split; interval with (i_prec 60)).
  assert (IP : 0 < / PI <= 0.3184) by (split; [apply Rinv_0_lt_compat; lra|interval with (i_prec 60)]).
  assert (AY : Rabs y <= 58 * Rabs x + (180 + 20 * Rabs x) * u).
  { replace y with (y - x * (180 / PI) + x * (180 / PI)) by ring. eapply Rle_trans; [apply Rabs_triang|].
    assert (Rabs (x * (180 / PI)) <= 58 * Rabs x).
    { rewrite Rabs_mult, (Rabs_pos_eq (180 / PI)) by (unfold Rdiv; apply Rmult_le_pos; lra). pose proof (Rabs_pos x). unfold Rdiv. nra. }
    lra. }
  replace (z - x) with ((z - y * (PI / 180)) + (y - x * (180 / PI)) * (PI / 180)) by (field; lra).
  eapply Rle_trans; [apply Rabs_triang|]. rewrite Rabs_mult, (Rabs_pos_eq (PI / 180)) by lra.
  pose proof (Rabs_pos x) as X0. set (ax := Rabs x) in *. clearbody ax. set (e1 := Rabs (z - y * (PI / 180))) in *. set (e2 := Rabs (y - x * (180 / PI))) in *.
  set (ay := Rabs y) in *. assert (P2 : 0 <= e2) by apply Rabs_pos. clearbody e1 e2 ay.
  assert (T1 : e2 * (PI / 180) <= (180 + 20 * ax) * u * (3.1416 / 180)).
  { apply Rmult_le_compat; lra. }
  assert (T2 : ay * u <= (58 * ax + (180 + 20 * ax) * / 8) * u).
  { apply Rmult_le_compat_r; [lra|]. clear - AY U X0. nra. }
  nra.
Qed.
