(** degrees and radians keep the order of their arguments; their symmetry. *)
From Coq Require Import ZArith Reals Lia Lra Psatz Bool.
From Interval Require Import Tactic.
From Verif Require Import Base Fixed Math Spec SpecReal BaseLemmas FixedLemmas CLemmas MathProofs PowProofs RealLemmas StdProofs SinPoly SinProofs SinThms.
Open Scope Z_scope.

Lemma deg_eq c m P : std c -> pi_v c = Ok P -> valid c m = true -> 2 * 2 ^ cf c < P < 4 * 2 ^ cf c ->
  valid c (Z.quot (m * 2 ^ cf c) P * 180) = true -> fx_degrees c m = Ok (Z.quot (m * 2 ^ cf c) P * 180).
Proof.
  intros HS HP V RP VR. pose proof (std_M c HS) as HM. set (M := 2 ^ cf c) in *.
  set (q := Z.quot (m * M) P) in *.
  assert (VP : valid c P = true) by (apply (std_valid c HS); fold M; nia).
  assert (VQ : valid c q = true) by (apply (std_valid c HS); apply (std_valid c HS) in VR; fold M in VR |- *; clear - VR; lia).
  assert (V180 : valid c (180 * M) = true) by (apply (std_valid c HS); fold M; nia).
  unfold fx_degrees. rewrite HP. cbn [bind]. rewrite s_int by auto. cbn [bind]. rewrite s_div; auto; [|lia].
  cbn [bind]. fold M. fold q.
  assert (EQ : q * (180 * M) / M = q * 180) by (rewrite Z.mul_assoc; apply Z.div_mul; lia).
  rewrite s_mul; auto; fold M; rewrite EQ; auto.
Qed.
Lemma rad_eq c m P : std c -> pi_v c = Ok P -> valid c m = true -> 2 * 2 ^ cf c < P < 4 * 2 ^ cf c ->
  fx_radians c m = Ok (Z.quot m 180 * P / 2 ^ cf c).
Proof.
  intros HS HP V RP. pose proof (std_M c HS) as HM. set (M := 2 ^ cf c) in *.
  pose proof (proj1 (std_valid c HS m) V) as B. fold M in B.
  assert (EQ : Z.quot (m * M) (180 * M) = Z.quot m 180) by (apply Z.quot_mul_cancel_r; lia).
  set (q := Z.quot m 180) in *.
  assert (QA : Z.abs q * 180 <= Z.abs m).
  { unfold q. rewrite <- Z.quot_abs by lia. change (Z.abs 180) with 180. rewrite Z.mul_comm. apply Z.mul_quot_le; lia. }
  assert (VQ : valid c q = true) by (apply (std_valid c HS); fold M; lia).
  assert (VP : valid c P = true) by (apply (std_valid c HS); fold M; nia).
  assert (V180 : valid c (180 * M) = true) by (apply (std_valid c HS); fold M; nia).
  assert (LB : - (Z.abs q * 4) <= q * P / M <= Z.abs q * 4).
  { split; [apply Z.div_le_lower_bound; nia|apply Z.div_le_upper_bound; nia]. }
  assert (VR : valid c (q * P / M) = true) by (apply (std_valid c HS); fold M; lia).
  unfold fx_radians. rewrite HP. cbn [bind]. rewrite s_int by auto. cbn [bind]. fold M. rewrite s_div; auto; [|lia|].
  - cbn [bind]. fold M. rewrite EQ. rewrite s_mul; auto.
  - fold M. rewrite EQ. exact VQ.
Qed.

Lemma quot_le_mono a b p : 0 < p -> a <= b -> Z.quot a p <= Z.quot b p.
Proof. intros. apply Z.quot_le_mono; auto. Qed.

(** bound on the stored angle from its value *)
Lemma deg_bound f m P N K (k : R) : 0 <= f -> 0 < P -> 0 < 2 ^ f -> (Rabs (rval f m * (180 / PI)) <= k)%R ->
  (k * (PI / 180) * IZR (2 ^ f) < IZR N + 1)%R -> N * 2 ^ f <= K * P -> Z.abs (Z.quot (m * 2 ^ f) P) <= K.
Proof.
  intros F HP HM A B C.
  assert (PIP : (0 < PI)%R) by (assert (3 < PI)%R by interval with (i_prec 60); lra).
  assert (HR : (0 < IZR (2 ^ f))%R) by (apply IZR_lt; auto).
  assert (D : Z.abs m <= N).
  { assert (Z.abs m < N + 1); [|lia]. apply lt_IZR. rewrite plus_IZR. eapply Rle_lt_trans; [|exact B].
    replace (IZR (Z.abs m)) with (Rabs (rval f m * (180 / PI)) * (PI / 180) * IZR (2 ^ f))%R.
    - apply Rmult_le_compat_r; [lra|]. apply Rmult_le_compat_r; lra.
    - rewrite Rabs_mult, rval_abs. rewrite (Rabs_pos_eq (180 / PI)) by (apply Rmult_le_pos; [lra|left; apply Rinv_0_lt_compat; auto]).
      unfold rval. field. lra. }
  rewrite <- Z.quot_abs by lia. rewrite Z.abs_mul, (Z.abs_eq (2 ^ f)), (Z.abs_eq P) by lia.
  apply Z.quot_le_upper_bound; auto. nia.
Qed.

Lemma deg32_eq m : valid F32 m = true -> (Rabs (rval 16 m * (180 / PI)) <= 32760)%R ->
  fx_degrees F32 m = Ok (Z.quot (m * 65536) 205887 * 180).
Proof.
  intros V K. apply (deg_eq F32 m 205887); auto; [apply s32|cbn; lia|]. cbn [cf F32].
  assert (Z.abs (Z.quot (m * 2 ^ 16) 205887) <= 11928000).
  { apply (deg_bound 16 m 205887 37471690 _ 32760); try lia; auto.
    change (IZR (2 ^ 16)) with 65536%R. interval with (i_prec 60). }
  apply (std_valid F32 s32). cbn [cf F32]. lia.
Qed.
Lemma deg64_eq m : valid F64 m = true -> (Rabs (rval 32 m * (180 / PI)) <= 2147483647)%R ->
  fx_degrees F64 m = Ok (Z.quot (m * 4294967296) 13493037704 * 180).
Proof.
  intros V K. apply (deg_eq F64 m 13493037704); auto; [apply s64|cbn; lia|]. cbn [cf F64].
  assert (Z.abs (Z.quot (m * 2 ^ 32) 13493037704) <= 51240955760000000).
  { apply (deg_bound 32 m 13493037704 160978210104530300 _ 2147483647); try lia; auto.
    change (IZR (2 ^ 32)) with 4294967296%R. interval with (i_prec 90). }
  apply (std_valid F64 s64). cbn [cf F64]. lia.
Qed.

Lemma rv_le f a b : 0 <= f -> (rval f a <= rval f b)%R -> a <= b.
Proof.
  intros F H. unfold rval in H. pose proof (pow2_gt0 f F) as P. apply le_IZR.
  apply Rmult_le_reg_r with (/ IZR (2 ^ f))%R; [apply Rinv_0_lt_compat; auto|exact H].
Qed.
Lemma rv_mono f a b : 0 <= f -> a <= b -> (rval f a <= rval f b)%R.
Proof.
  intros F H. unfold rval. pose proof (pow2_gt0 f F) as P. apply Rmult_le_compat_r; [left; apply Rinv_0_lt_compat; auto|]. apply IZR_le; auto.
Qed.

Definition deg_lim (c : cfg) : R := if bits (ct c) =? 32 then 32760%R else 2147483647%R.
Lemma deg_all c m : std c -> valid c m = true -> (Rabs (rval (cf c) m * (180 / PI)) <= deg_lim c)%R ->
  exists P, pi_v c = Ok P /\ 0 < P /\ fx_degrees c m = Ok (Z.quot (m * 2 ^ cf c) P * 180).
Proof.
  intros [-> | ->] V K.
  - exists 205887. split; [reflexivity|]. split; [lia|]. apply deg32_eq; auto.
  - exists 13493037704. split; [reflexivity|]. split; [lia|]. apply deg64_eq; auto.
Qed.
Lemma rad_all c m : std c -> valid c m = true ->
  exists P, pi_v c = Ok P /\ 0 < P /\ fx_radians c m = Ok (Z.quot m 180 * P / 2 ^ cf c).
Proof.
  intros [-> | ->] V.
  - exists 205887. split; [reflexivity|]. split; [lia|]. apply rad_eq; auto; [left; reflexivity|cbn; lia].
  - exists 13493037704. split; [reflexivity|]. split; [lia|]. apply rad_eq; auto; [right; reflexivity|cbn; lia].
Qed.

Lemma deg_order c m n : std c -> valid c m = true -> valid c n = true ->
  (Rabs (rval (cf c) m * (180 / PI)) <= deg_lim c)%R -> (Rabs (rval (cf c) n * (180 / PI)) <= deg_lim c)%R ->
  (rval (cf c) m <= rval (cf c) n)%R ->
  exists r s, fx_degrees c m = Ok r /\ fx_degrees c n = Ok s /\ (rval (cf c) r <= rval (cf c) s)%R.
Proof.
  intros HS V1 V2 K1 K2 L. pose proof (std_f c HS) as F. apply rv_le in L; [|lia].
  destruct (deg_all c m HS V1 K1) as (P & EP & HP & E1). destruct (deg_all c n HS V2 K2) as (P' & EP' & _ & E2).
  rewrite EP in EP'. injection EP' as <-. rewrite E1, E2. eexists _, _. split; [reflexivity|]. split; [reflexivity|].
  apply rv_mono; [lia|]. assert (0 < 2 ^ cf c) by (apply pow2_pos; lia).
  pose proof (quot_le_mono (m * 2 ^ cf c) (n * 2 ^ cf c) P HP ltac:(nia)). lia.
Qed.
Lemma deg_odd c m : std c -> valid c m = true -> (Rabs (rval (cf c) m * (180 / PI)) <= deg_lim c)%R ->
  exists r, fx_degrees c m = Ok r /\ fx_degrees c (- m) = Ok (- r).
Proof.
  intros HS V1 K1. pose proof (std_f c HS) as F.
  assert (HM : 0 < 2 ^ cf c) by (apply pow2_pos; lia).
  assert (K2 : (Rabs (rval (cf c) (- m) * (180 / PI)) <= deg_lim c)%R).
  { rewrite rval_opp. replace (- rval (cf c) m * (180 / PI))%R with (- (rval (cf c) m * (180 / PI)))%R by ring. rewrite Rabs_Ropp. exact K1. }
  assert (V2 : valid c (- m) = true).
  { assert (N : m <> - (2 ^ cf c * 2 ^ cf c / 2)).
    { intros ->. revert K1. unfold deg_lim, rval. clear - HS.
      destruct HS as [-> | ->]; cbn [cf ct F32 F64 bits int32 int64 Z.eqb Pos.eqb].
      - change (- (2 ^ 16 * 2 ^ 16 / 2)) with (-2147483648). change (IZR (2 ^ 16)) with 65536%R. intros K.
        assert (40000 <= Rabs (-2147483648 / 65536 * (180 / PI)))%R by interval with (i_prec 60). lra.
      - change (- (2 ^ 32 * 2 ^ 32 / 2)) with (-9223372036854775808). change (IZR (2 ^ 32)) with 4294967296%R. intros K.
        assert (4000000000 <= Rabs (-9223372036854775808 / 4294967296 * (180 / PI)))%R by interval with (i_prec 60). lra. }
    apply (std_valid c HS) in V1. apply (std_valid c HS).
    assert (E : 2 ^ cf c * 2 ^ cf c = 2 * (2 ^ cf c * 2 ^ cf c / 2)) by (clear - HS; destruct HS as [-> | ->]; reflexivity). lia. }
  destruct (deg_all c m HS V1 K1) as (P & EP & HP & E1). destruct (deg_all c (- m) HS V2 K2) as (P' & EP' & _ & E2).
  rewrite EP in EP'. injection EP' as <-. rewrite E1, E2. eexists. split; [reflexivity|].
  rewrite Z.mul_opp_l, Z.quot_opp_l by lia. f_equal. lia.
Qed.
Lemma rad_order c m n : std c -> valid c m = true -> valid c n = true -> (rval (cf c) m <= rval (cf c) n)%R ->
  exists r s, fx_radians c m = Ok r /\ fx_radians c n = Ok s /\ (rval (cf c) r <= rval (cf c) s)%R.
Proof.
  intros HS V1 V2 L. pose proof (std_f c HS) as F. apply rv_le in L; [|lia].
  destruct (rad_all c m HS V1) as (P & EP & HP & E1). destruct (rad_all c n HS V2) as (P' & EP' & _ & E2).
  rewrite EP in EP'. injection EP' as <-. rewrite E1, E2. eexists _, _. split; [reflexivity|]. split; [reflexivity|].
  apply rv_mono; [lia|]. assert (0 < 2 ^ cf c) by (apply pow2_pos; lia). apply Z.div_le_mono; auto.
  pose proof (quot_le_mono m n 180 ltac:(lia) L). nia.
Qed.
(** the product is rounded down, so radians(-x) may be one unit below -radians(x) *)
Lemma rad_odd c m : std c -> valid c m = true -> valid c (- m) = true ->
  exists r s, fx_radians c m = Ok r /\ fx_radians c (- m) = Ok s /\ (s = - r \/ s = - r - 1).
Proof.
  intros HS V1 V2. pose proof (std_f c HS) as F.
  destruct (rad_all c m HS V1) as (P & EP & HP & E1). destruct (rad_all c (- m) HS V2) as (P' & EP' & _ & E2).
  rewrite EP in EP'. injection EP' as <-. rewrite E1, E2. eexists _, _. split; [reflexivity|]. split; [reflexivity|].
  assert (HM : 0 < 2 ^ cf c) by (apply pow2_pos; lia).
  rewrite Z.quot_opp_l, Z.mul_opp_l by lia. set (a := Z.quot m 180 * P). set (M := 2 ^ cf c) in *.
  pose proof (Z.div_mod a M ltac:(lia)). pose proof (Z.mod_pos_bound a M HM).
  pose proof (Z.div_mod (- a) M ltac:(lia)). pose proof (Z.mod_pos_bound (- a) M HM).
  set (q := a / M) in *. set (q' := - a / M) in *. clearbody q q'.
  assert (M * (q + q') = - (a mod M + (- a) mod M)) by lia.
  assert (-2 < q + q' <= 0) by nia. lia.
Qed.
Lemma rad_odd_refuted : exists m r, valid F32 m = true /\ valid F32 (- m) = true /\ fx_radians F32 m = Ok r /\ fx_radians F32 (- m) <> Ok (- r).
Proof. exists 65536, 1143. repeat split; vm_compute; congruence. Qed.
