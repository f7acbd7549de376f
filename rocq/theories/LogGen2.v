(** log and log10 for the instantiations of LogGen.v; what happens outside. *)
From Coq Require Import ZArith Bool List Lia Reals Lra.
From Interval Require Import Tactic.
From Verif Require Import Base Fixed Math SpecReal BaseLemmas FixedLemmas CLemmas MathProofs RealLemmas NumThms ExactProofs RefuteArith LogGen.
Open Scope R_scope.

Lemma log2_gen c m : log_cfg c -> valid c m = true -> 0 < rval (cf c) m ->
  exists r, fx_log2 c m = Ok r /\ valid c r = true /\ rval (cf c) r <= log2r (rval (cf c) m) < rval (cf c) r + 4 * ulp (cf c).
Proof.
  intros HS V P0. pose proof (lc_f c HS) as F.
  assert (HR : 0 < IZR (2 ^ cf c)) by (apply IZR_lt, pow2_pos; lia).
  assert (P : (0 < m)%Z).
  { unfold rval in P0. apply lt_IZR. apply Rmult_lt_reg_r with (/ IZR (2 ^ cf c)); [apply Rinv_0_lt_compat; auto|]. unfold Rdiv in P0. lra. }
  destruct (log2_main c HS m V P) as (r & E & R1 & B). exists r. split; [exact E|].
  assert (H2 : 2 / ln 2 < 2.9) by interval with (i_prec 60).
  destruct (lc_room c HS) as [O1 O2]. pose proof (lc_M c HS) as HM. unfold RM in B. change (IZR (mz c)) with (IZR (2 ^ cf c)) in B.
  split.
  - apply (lc_valid c HS). nia.
  - set (l := log2r _) in *. clearbody l. unfold rval, ulp. set (K := IZR (2 ^ cf c)) in *.
    assert (0 < / K) by (apply Rinv_0_lt_compat; lra).
    assert (E1 : l = K * l * / K) by (field; lra). rewrite E1. clear E1. unfold Rdiv. split.
    + apply Rmult_le_compat_r; lra.
    + replace (IZR r * / K + 4 * / K) with ((IZR r + 4) * / K) by ring. apply Rmult_lt_compat_r; lra.
Qed.

Lemma log2_gen_domain c m : log_cfg c -> valid c m = true -> (fx_log2 c m = Throw domain_error <-> rval (cf c) m <= 0).
Proof.
  intros HS V. rewrite (log2_domain c HS m V). pose proof (lc_f c HS) as F.
  assert (HR : 0 < / IZR (2 ^ cf c)) by (apply Rinv_0_lt_compat, IZR_lt, pow2_pos; lia). unfold rval, Rdiv. split; intros H.
  - apply IZR_le in H. nra.
  - apply le_IZR. apply Rmult_le_reg_r with (/ IZR (2 ^ cf c)); lra.
Qed.

(** a logarithm divided by the truncation [K] of [x] *)
Lemma div_gen c (r0 : res Z) (x : R) m : log_cfg c -> cr c = false -> trunc_const (cf c) r0 x -> 1 <= x <= 4 ->
  valid c m = true -> 0 < rval (cf c) m ->
  exists r, (let* k := r0 in let* l := fx_log2 c m in fx_div c l k) = Ok r /\ valid c r = true /\
    Rabs (rval (cf c) r - log2r (rval (cf c) m) / x) <= (1 + 6 / x + Rabs (log2r (rval (cf c) m) / x)) * ulp (cf c).
Proof.
  intros HS CR (K & EK & K1 & K2) X V P. destruct (log2_gen c m HS V P) as (l & El & Vl & L1 & L2).
  pose proof (lc_f c HS) as F. pose proof (lc_wf c HS) as W. pose proof (lc_M c HS) as HM. pose proof (lc_B c HS) as HB.
  set (M := (2 ^ cf c)%Z) in *. change (mz c) with M in HM, HB.
  assert (HR : 2 <= IZR M) by (apply IZR_le; lia). unfold rval, ulp in *. fold M in K1, K2, L1, L2 |- *.
  set (g := log2r (IZR m / IZR M)) in *. set (RM := IZR M) in *.
  assert (HI : 0 < / RM) by (apply Rinv_0_lt_compat; lra).
  assert (KA : IZR K <= x * RM < IZR K + 1).
  { split.
    - apply Rmult_le_reg_r with (/ RM); auto. replace (x * RM * / RM) with x by (field; lra). exact K1.
    - apply Rmult_lt_reg_r with (/ RM); auto. replace (x * RM * / RM) with x by (field; lra).
      replace ((IZR K + 1) * / RM) with (IZR K / RM + / RM) by (field; lra). exact K2. }
  assert (KM : (M <= K)%Z).
  { assert (M < K + 1)%Z; [|lia]. apply lt_IZR. rewrite plus_IZR. fold RM. assert (RM <= x * RM) by nra. lra. }
  assert (K4 : (K <= 4 * M)%Z) by (apply le_IZR; rewrite mult_IZR; fold RM; nra).
  assert (VK : valid c K = true) by (apply (lc_valid c HS); lia).
  rewrite EK. cbn [bind]. rewrite El. cbn [bind]. rewrite fx_div_eq by (auto; lia). fold M.
  pose proof (quot_real (l * M) K ltac:(lia)) as Q. rewrite mult_IZR in Q. fold RM in Q.
  assert (AB : (Z.abs (Z.quot (l * M) K) <= Z.abs l)%Z).
  { rewrite <- Z.quot_abs by lia. rewrite (Z.abs_eq K) by lia.
    rewrite Z.abs_mul, (Z.abs_eq M) by lia. apply Z.quot_le_upper_bound; nia. }
  assert (VR : valid c (Z.quot (l * M) K) = true).
  { apply (lc_valid c HS) in Vl. apply (lc_valid c HS).
    assert (Z.abs l <= bz c)%Z by lia.
    destruct (Z.eq_dec (Z.abs (Z.quot (l * M) K)) (bz c)) as [E|N]; [|lia].
    assert (l = - bz c)%Z by lia. assert (Z.quot (l * M) K <= 0)%Z; [|lia].
    rewrite H0. rewrite Z.mul_opp_l, Z.quot_opp_l by lia. assert (0 <= Z.quot (bz c * M) K)%Z by (apply Z.quot_pos; nia). lia. }
  rewrite valid_wrap by auto.
  exists (Z.quot (l * M) K). split; [reflexivity|]. split; [exact VR|].
  set (r := Z.quot (l * M) K) in *.
  assert (LB : IZR l <= RM * g < IZR l + 4).
  { split.
    - apply Rmult_le_reg_r with (/ RM); auto. replace (RM * g * / RM) with g by (field; lra). exact L1.
    - apply Rmult_lt_reg_r with (/ RM); auto. replace (RM * g * / RM) with g by (field; lra).
      replace ((IZR l + 4) * / RM) with (IZR l / RM + 4 * / RM) by (field; lra). exact L2. }
  assert (KR : RM <= IZR K) by (apply IZR_le; auto).
  set (a := / x). assert (A0 : 0 < a) by (apply Rinv_0_lt_compat; lra).
  assert (AX : a * x = 1) by (unfold a; apply Rinv_l; lra).
  replace (g / x) with (a * g) by (unfold a, Rdiv; ring). replace (6 / x) with (6 * a) by (unfold a, Rdiv; ring).
  (* l * M / K - a * l *)
  assert (T1 : Rabs (IZR l * RM / IZR K - a * IZR l) <= a * Rabs g + 2 * a).
  { replace (IZR l * RM / IZR K - a * IZR l) with (IZR l * (a * (x * RM - IZR K)) / IZR K).
    2: { unfold Rdiv. replace (a * (x * RM - IZR K)) with (a * x * RM - a * IZR K) by ring. rewrite AX. field. lra. }
    assert (KI : 0 < / IZR K <= / RM) by (split; [apply Rinv_0_lt_compat; lra|apply Rinv_le_contravar; lra]).
    unfold Rdiv. rewrite !Rabs_mult. rewrite (Rabs_pos_eq a), (Rabs_pos_eq (x * RM - IZR K)), (Rabs_pos_eq (/ IZR K)) by lra.
    assert (LA : Rabs (IZR l) <= RM * Rabs g + 4).
    { replace (RM * Rabs g) with (Rabs (RM * g)) by (rewrite Rabs_mult, (Rabs_pos_eq RM) by lra; reflexivity).
      clear - LB. unfold Rabs. destruct (Rcase_abs (IZR l)), (Rcase_abs (RM * g)); lra. }
    assert (G0 : 0 <= Rabs g) by apply Rabs_pos.
    apply Rle_trans with (Rabs (IZR l) * (a * 1) * / RM).
    - pose proof (Rabs_pos (IZR l)). apply Rmult_le_compat; [apply Rmult_le_pos; [auto|apply Rmult_le_pos; lra]|lra| |lra].
      apply Rmult_le_compat_l; [auto|]. apply Rmult_le_compat_l; lra.
    - apply Rle_trans with ((RM * Rabs g + 4) * (a * 1) * / RM).
      + apply Rmult_le_compat_r; [lra|]. apply Rmult_le_compat_r; lra.
      + replace ((RM * Rabs g + 4) * (a * 1) * / RM) with (a * Rabs g + 4 * / RM * a) by (field; lra).
        apply Rplus_le_compat_l. apply Rmult_le_compat_r; [lra|].
        assert (/ RM <= / 2) by (apply Rinv_le_contravar; lra). lra. }
  assert (T2 : Rabs (a * IZR l - a * (RM * g)) <= 4 * a).
  { replace (a * IZR l - a * (RM * g)) with (- (a * (RM * g - IZR l))) by ring. rewrite Rabs_Ropp.
    rewrite Rabs_pos_eq by (apply Rmult_le_pos; lra). rewrite (Rmult_comm 4). apply Rmult_le_compat_l; lra. }
  replace (Rabs (a * g)) with (a * Rabs g) by (rewrite Rabs_mult, (Rabs_pos_eq a) by lra; reflexivity).
  replace (IZR r / RM - a * g) with ((IZR r - a * (RM * g)) * / RM) by (field; lra).
  rewrite Rabs_mult, (Rabs_pos_eq (/ RM)) by lra. apply Rmult_le_compat_r; [lra|].
  apply Rabs_def2 in Q. apply Rabs_inv_le in T1, T2. apply Rabs_le. lra.
Qed.

Ltac cst n := match goal with |- (IZR ?a <= _ * IZR ?b < _)%R => let u := eval vm_compute in a in let w := eval vm_compute in b in change a with u; change b with w end;
  split; interval with (i_prec 120).

Lemma room4 c : log_cfg c -> 4 + ulp (cf c) <= rval (cf c) (maxv (ct c)).
Proof.
  intros HS. pose proof (lc_f c HS) as F. pose proof (lc_M c HS) as HM. pose proof (lc_B c HS) as HB.
  assert (MX : maxv (ct c) = (bz c - 1)%Z) by (unfold maxv, bz; destruct HS as (_ & -> & _); reflexivity).
  rewrite MX. unfold ulp, rval. change (2 ^ cf c)%Z with (mz c). assert (2 <= IZR (mz c)) by (apply IZR_le; lia).
  assert (0 < / IZR (mz c)) by (apply Rinv_0_lt_compat; lra).
  replace (4 + / IZR (mz c)) with ((4 * IZR (mz c) + 1) * / IZR (mz c)) by (field; lra).
  apply Rmult_le_compat_r; [lra|]. rewrite minus_IZR. apply IZR_le in HB. rewrite mult_IZR in HB. lra.
Qed.

Lemma k_e c : log_cfg c -> cr c = false -> trunc_const (cf c) (log_log2_e c) (/ ln 2).
Proof.
  intros HS CR. pose proof (lc_f c HS) as F. pose proof (room4 c HS) as R4.
  assert (X : / ln 2 <= 4) by interval.
  refine (proj1 (const_every c 60 0x171547652B82FE00 48 (/ ln 2) (lc_wf c HS) ltac:(lia) ltac:(lia) ltac:(lia) ltac:(lia) _ _) CR).
  - cst 48.
  - lra.
Qed.
Lemma k_10 c : log_cfg c -> cr c = false -> trunc_const (cf c) (log10_log2_10 c) (ln 10 / ln 2).
Proof.
  intros HS CR. pose proof (lc_f c HS) as F. pose proof (room4 c HS) as R4.
  assert (X : ln 10 / ln 2 <= 4) by interval.
  refine (proj1 (const_every c 60 0x35269E12F346E200 48 (ln 10 / ln 2) (lc_wf c HS) ltac:(lia) ltac:(lia) ltac:(lia) ltac:(lia) _ _) CR).
  - cst 48.
  - lra.
Qed.

Lemma log_gen c m : log_cfg c -> cr c = false -> valid c m = true -> 0 < rval (cf c) m ->
  exists r, fx_log c m = Ok r /\ valid c r = true /\
    Rabs (rval (cf c) r - ln (rval (cf c) m)) <= (6 + Rabs (ln (rval (cf c) m))) * ulp (cf c).
Proof.
  intros HS CR V P. assert (L2 : 0 < ln 2) by interval.
  destruct (div_gen c (log_log2_e c) (/ ln 2) m HS CR (k_e c HS CR) ltac:(split; interval) V P) as (r & E & VR & B).
  exists r. split; [exact E|]. split; [exact VR|].
  replace (log2r (rval (cf c) m) / (/ ln 2)) with (ln (rval (cf c) m)) in B by (unfold log2r; field; lra).
  eapply Rle_trans; [exact B|]. apply Rmult_le_compat_r.
  - unfold ulp. left. apply Rinv_0_lt_compat, IZR_lt, pow2_pos. pose proof (lc_f c HS). lia.
  - apply Rplus_le_compat_r. interval.
Qed.
Lemma log10_gen c m : log_cfg c -> cr c = false -> valid c m = true -> 0 < rval (cf c) m ->
  exists r, fx_log10 c m = Ok r /\ valid c r = true /\
    Rabs (rval (cf c) r - log10r (rval (cf c) m)) <= (3 + Rabs (log10r (rval (cf c) m))) * ulp (cf c).
Proof.
  intros HS CR V P. assert (L2 : 0 < ln 2) by interval. assert (L10 : 0 < ln 10) by interval.
  destruct (div_gen c (log10_log2_10 c) (ln 10 / ln 2) m HS CR (k_10 c HS CR) ltac:(split; interval) V P) as (r & E & VR & B).
  exists r. split; [exact E|]. split; [exact VR|].
  replace (log2r (rval (cf c) m) / (ln 10 / ln 2)) with (log10r (rval (cf c) m)) in B by (unfold log2r, log10r; field; lra).
  eapply Rle_trans; [exact B|]. apply Rmult_le_compat_r.
  - unfold ulp. left. apply Rinv_0_lt_compat, IZR_lt, pow2_pos. pose proof (lc_f c HS). lia.
  - apply Rplus_le_compat_r. interval.
Qed.

(** * outside *)
Lemma log2_wide c m : (33 <= cf c)%Z -> fx_log2 c m = UB.
Proof.
  intros H. unfold fx_log2, c_shl. change (promote uint32) with uint32. change (bits uint32) with 32%Z.
  replace ((0 <=? cf c - 1) && (cf c - 1 <? 32))%Z with false; [reflexivity|].
  symmetry. apply andb_false_iff. right. apply Z.ltb_ge. lia.
Qed.
Definition Q40 : cfg := {| ct := int64; ci := int128; cf := 40; cr := false |}.
Definition Q28 : cfg := {| ct := int32; ci := int64; cf := 28; cr := false |}.
Definition Q8 : cfg := {| ct := int32; ci := int64; cf := 8; cr := false |}.
Lemma log2_small : wf Q28 = true /\ valid Q28 1 = true /\ fx_log2 Q28 1 = UB.
Proof. repeat split. Qed.
Lemma log2_unsigned : wf U32 = true /\ valid U32 32768 = true /\ fx_log2 U32 32768 = Ok 4294901760%Z.
Proof. split; [|split]; vm_compute; reflexivity. Qed.
