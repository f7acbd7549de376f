(** Proofs completing C05 (large negative arguments) and C06 (wide shifts, unsigned sources). *)
From Coq Require Import ZArith QArith Qabs Bool List Lia.
From Verif Require Import Base Fixed Float Spec SpecFp BaseLemmas SpecLemmas FixedLemmas ConvProofs FloatProofs.
Open Scope Z_scope.

(** ** C05 *)
Lemma log2_between n L : 0 <= L -> 2 ^ L <= n < 2 ^ (L + 1) -> Z.log2 n = L.
Proof. intros H B. apply Z.log2_unique; [exact H|]. rewrite <- Z.add_1_r. exact B. Qed.
Lemma rne_odd_tie p N : 1 <= p -> 2 ^ (p - 1) <= N < 2 ^ p -> rne_pos p (2 * N + 1) = 2 * (if Z.even N then N else N + 1).
Proof.
  intros P B. assert (E : 2 ^ p = 2 * 2 ^ (p - 1)) by (rewrite <- Z.pow_succ_r by lia; f_equal; lia).
  unfold rne_pos. rewrite (log2_between (2 * N + 1) p) by (rewrite ?Z.pow_add_r; lia). replace (p + 1 - p) with 1 by lia. cbn [Z.leb Z.compare]. change (2 ^ 1) with 2.
  assert (Q : (2 * N + 1) / 2 = N) by (symmetry; apply (Z.div_unique_pos _ _ _ 1); lia).
  assert (R : (2 * N + 1) mod 2 = 1) by (symmetry; apply (Z.mod_unique_pos _ _ N); lia). rewrite Q, R. change (2 * 1 <? 2) with false. change (2 <? 2 * 1) with false. cbv iota.
  destruct (Z.even N); apply Z.mul_comm.
Qed.
Lemma rne_odd_far p N : 1 <= p -> 2 ^ p <= N -> irep p N -> rne_pos p (2 * N + 1) = 2 * N.
Proof.
  intros P B (a & t & T & A & E). pose proof (p2 p ltac:(lia)) as PP.
  assert (LB := logb (2 * N + 1) ltac:(lia)). set (L := Z.log2 (2 * N + 1)) in *. assert (LP : p + 1 <= L).
  { unfold L. apply Z.log2_le_pow2; [lia|]. rewrite Z.pow_add_r by lia. lia. }
  assert (EL : 2 ^ L = 2 * 2 ^ (L - 1)) by (rewrite <- Z.pow_succ_r by lia; f_equal; lia).
  assert (LN : Z.log2 N = L - 1). { apply log2_between; [lia|]. replace (L - 1 + 1) with L by lia. rewrite Z.pow_add_r in LB by lia. change (2 ^ 1) with 2 in LB. lia. }
  pose proof (p2 t T) as PT.
  assert (A0 : 0 <= a < 2 ^ p) by nia.
  destruct (grid p N ltac:(lia) ltac:(lia) a t T A0) as (q & Q). { rewrite LN, <- E. lia. } { rewrite LN. lia. }
  rewrite LN in Q. rewrite <- E in Q.
  unfold rne_pos. fold L. replace (L + 1 - p <=? 0) with false by lia. cbv zeta.
  assert (EW : 2 ^ (L + 1 - p) = 2 * 2 ^ (L - 1 + 1 - p)) by (rewrite <- Z.pow_succ_r by lia; f_equal; lia).
  set (w := 2 ^ (L - 1 + 1 - p)) in *. assert (W2 : 2 <= w) by (unfold w; replace (L - 1 + 1 - p) with (1 + (L - 1 - p)) by lia; rewrite Z.pow_add_r by lia; pose proof (p2 (L - 1 - p) ltac:(lia)); lia).
  rewrite EW. assert (Q1 : (2 * N + 1) / (2 * w) = q) by (symmetry; apply (Z.div_unique_pos _ _ _ 1); lia).
  assert (R1 : (2 * N + 1) mod (2 * w) = 1) by (symmetry; apply (Z.mod_unique_pos _ _ q); lia). rewrite Q1, R1.
  replace (2 * 1 <? 2 * w) with true by lia. lia.
Qed.
Lemma neg_form p c n k : wf c = true -> cr c = true -> 0 <= k -> n < 0 ->
  fx_of_fval p c (Fin n k) = let m := - (rne_pos p (2 * (- n * 2 ^ cf c) + 2 ^ k) / (2 * 2 ^ k)) in if in_range (ct c) m then Ok m else UB.
Proof.
  intros H R K N. pose proof (cf_pos c H) as WF. pose proof (p2 k K) as WK. unfold fx_of_fval, float_to_int. rewrite R. replace (0 <=? n) with false by lia. cbv zeta.
  set (F := 2 ^ cf c) in *. unfold rne. replace (2 * (n * F) - 2 ^ k <? 0) with true by nia.
  replace (- (2 * (n * F) - 2 ^ k)) with (2 * (- n * F) + 2 ^ k) by ring. destruct (Z.le_gt_cases 1 p) as [P|P].
  - pose proof (proj1 (rne_pos_irep p (2 * (- n * F) + 2 ^ k) P ltac:(nia))). rewrite Z.quot_opp_l by lia. rewrite Z.quot_div_nonneg by lia.
    rewrite (Z.mul_comm (2 ^ k) 2). reflexivity.
  - rewrite Z.quot_opp_l by lia. rewrite Z.quot_div_nonneg; [rewrite (Z.mul_comm (2 ^ k) 2); reflexivity| |lia].
    unfold rne_pos. set (m := 2 * (- n * F) + 2 ^ k). assert (0 < m) by (unfold m; nia). pose proof (Z.log2_nonneg m).
    destruct (Z.log2 m + 1 - p <=? 0); [lia|]. cbv zeta. pose proof (p2 (Z.log2 m + 1 - p) ltac:(lia)). pose proof (Z.div_pos m (2 ^ (Z.log2 m + 1 - p)) ltac:(lia) ltac:(lia)).
    destruct (_ <? _); [nia|]. destruct (_ <? _); [nia|]. destruct (Z.even _); nia.
Qed.
Lemma qint k n f N : 0 <= k -> (qval k (n * 2 ^ f) == inject_Z (- N))%Q -> n * 2 ^ f = - N * 2 ^ k.
Proof. intros K E. unfold qval, inject_Z, Qeq in E. cbn [Qnum Qden] in E. rewrite pow2p_Z in E by exact K. lia. Qed.
Lemma irep_shift p z t : 0 <= t -> irep p z -> irep p (z * 2 ^ t).
Proof. intros T (a & s & S & A & ->). exists a, (s + t). split; [lia|]. split; [exact A|]. rewrite Z.pow_add_r by lia. ring. Qed.
Lemma irep_unshift p z t : 0 <= t -> irep p (z * 2 ^ t) -> irep p z.
Proof.
  intros T I. apply (fp_irep p z 0 ltac:(lia)). destruct (irep_fp p _ t T I) as (a & s & k & S & K & A & E).
  exists a, s, k. split; [exact S|]. split; [exact K|]. split; [exact A|]. rewrite <- E. unfold qval, Qeq. cbn [Qnum Qden]. rewrite ?pow2p_Z by lia. rewrite Z.pow_0_r. ring.
Qed.
(** every integer from 2^(p-1) on *)
Lemma rounding_large p c n k N : wf c = true -> cr c = true -> 2 <= p -> 0 <= k -> fp_rep p (qval k n) ->
  2 ^ (p - 1) <= N -> (qval k (n * 2 ^ cf c) == inject_Z (- N))%Q ->
  fx_of_fval p c (Fin n k) = let m := - (if (N <? 2 ^ p) && Z.odd N then N + 1 else N) in if in_range (ct c) m then Ok m else UB.
Proof.
  intros H R P K I B E. pose proof (cf_pos c H) as WF. pose proof (cf_nonneg c H) as F0. pose proof (p2 k K) as WK. pose proof (p2 (p - 1) ltac:(lia)) as PP.
  apply qint in E; [|exact K]. assert (N0 : n < 0) by nia. rewrite neg_form by assumption. cbv zeta.
  replace (2 * (- n * 2 ^ cf c) + 2 ^ k) with ((2 * N + 1) * 2 ^ k) by (replace (- n * 2 ^ cf c) with (- (n * 2 ^ cf c)) by ring; rewrite E; ring).
  rewrite rne_pos_scale by lia.
  assert (IN : irep p N).
  { apply (irep_unshift p N k K). replace (N * 2 ^ k) with (- n * 2 ^ cf c) by nia. apply irep_shift; [exact F0|]. apply irep_opp. apply (fp_irep p n k K I). }
  rewrite <- Z.negb_even. destruct (Z.ltb_spec N (2 ^ p)) as [LT|GE].
  - rewrite rne_odd_tie by lia. set (M := if Z.even N then N else N + 1). replace (2 * M * 2 ^ k) with (M * (2 * 2 ^ k)) by ring. rewrite Z.div_mul by lia.
    unfold M. cbn [andb]. destruct (Z.even N); reflexivity.
  - rewrite rne_odd_far by (try assumption; lia). replace (2 * N * 2 ^ k) with (N * (2 * 2 ^ k)) by ring. rewrite Z.div_mul by lia. reflexivity.
Qed.
Lemma rounding_special p c n k : wf c = true -> cr c = true -> 1 <= p -> 0 <= k ->
  (qval k (n * 2 ^ cf c) == - ((1 # 2) - qval (p + 1) 1))%Q ->
  fx_of_fval p c (Fin n k) = if in_range (ct c) (- 1) then Ok (- 1) else UB.
Proof.
  intros H R P K E. pose proof (cf_pos c H) as WF. pose proof (p2 k K) as WK. pose proof (p2 p ltac:(lia)) as PP.
  assert (EP : 2 ^ (p + 1) = 2 * 2 ^ p) by (rewrite Z.pow_add_r by lia; ring).
  assert (EY : 2 * (- n * 2 ^ cf c) * 2 ^ p = (2 ^ p - 1) * 2 ^ k).
  { unfold qval, Qeq, Qminus, Qopp, Qplus in E. cbn [Qnum Qden] in E. rewrite ?Pos2Z.inj_mul, ?pow2p_Z in E by lia. rewrite EP in E.
    set (X := n * 2 ^ cf c) in *. replace (2 * (- n * 2 ^ cf c) * 2 ^ p) with (- (2 * X * 2 ^ p)) by (unfold X; ring). clearbody X. lia. }
  assert (N0 : n < 0). { assert (2 <= 2 ^ p) by (change 2 with (2 ^ 1) at 1; apply Z.pow_le_mono_r; lia). assert (0 < - n * 2 ^ cf c) by nia. nia. }
  rewrite neg_form by assumption. cbv zeta. set (Y := 2 * (- n * 2 ^ cf c)) in *. assert (0 < Y) by (unfold Y; nia).
  assert (S : rne_pos p (Y + 2 ^ k) * 2 ^ p = 2 ^ (p + 1) * 2 ^ k).
  { rewrite <- rne_pos_scale by lia. replace ((Y + 2 ^ k) * 2 ^ p) with ((2 * (2 ^ p - 1) + 1) * 2 ^ k) by lia. rewrite rne_pos_scale by lia.
    rewrite rne_odd_tie; [|exact P|]. 2:{ assert (2 ^ p = 2 * 2 ^ (p - 1)) by (rewrite <- Z.pow_succ_r by lia; f_equal; lia). pose proof (p2 (p - 1) ltac:(lia)). lia. }
    rewrite Z.even_sub, Z.even_pow by lia. cbn [Z.even eqb Bool.eqb]. rewrite EP. ring. }
  rewrite EP in S. replace (rne_pos p (Y + 2 ^ k)) with (1 * (2 * 2 ^ k)) by nia. rewrite Z.div_mul by lia. reflexivity.
Qed.
(** the arguments not covered before are these *)
Lemma large_cases p c n k : wf c = true -> 2 <= p -> 0 <= k -> n < 0 -> fp_rep p (qval k n) ->
  (inject_Z (2 ^ (p - 1)) <= - qval k (n * 2 ^ cf c) + (1 # 2))%Q ->
  (- qval k (n * 2 ^ cf c) == inject_Z (2 ^ (p - 1)) - (1 # 2))%Q \/
  exists N, 2 ^ (p - 1) <= N /\ (qval k (n * 2 ^ cf c) == inject_Z (- N))%Q.
Proof.
  intros H P K N0 I B. pose proof (cf_pos c H) as WF. pose proof (cf_nonneg c H) as F0. pose proof (p2 k K) as WK. pose proof (p2 (p - 1) ltac:(lia)) as PP.
  assert (IN : irep p (- n * 2 ^ cf c)) by (apply irep_shift; [exact F0|]; apply irep_opp; apply (fp_irep p n k K I)).
  set (X := - n * 2 ^ cf c) in *. replace (n * 2 ^ cf c) with (- X) in * by (unfold X; ring).
  assert (E : 2 ^ p = 2 * 2 ^ (p - 1)) by (rewrite <- Z.pow_succ_r by lia; f_equal; lia).
  assert (B1 : 2 ^ p * 2 ^ k <= 2 * X + 2 ^ k).
  { rewrite qval_opp in B. unfold qval, inject_Z, Qle, Qplus, Qopp in B. cbn [Qnum Qden] in B. rewrite ?Pos2Z.inj_mul, ?pow2p_Z in B by lia. lia. }
  assert (X0 : 0 < X) by (unfold X; nia).
  destruct IN as (a & t & T & A & EX). pose proof (p2 t T) as PT. assert (A0 : 0 < a < 2 ^ p) by nia.
  assert (TK : k <= t + 1).
  { destruct (Z.le_gt_cases k (t + 1)) as [|C]; [assumption|exfalso]. destruct (pow_div (t + 2) k ltac:(lia)) as (q & EQ & Q0).
    assert (ET : 2 ^ (t + 2) = 4 * 2 ^ t) by (rewrite Z.pow_add_r by lia; ring). rewrite ET in EQ. rewrite EQ in B1. rewrite EX in B1.
    assert (2 ^ p * (q * 4) <= 2 * a + q * 4) by nia. assert (4 <= 2 ^ p) by (change 4 with (2 ^ 2); apply Z.pow_le_mono_r; lia). nia. }
  destruct (Z.eq_dec k (t + 1)) as [EK|NK].
  - assert (EK2 : 2 ^ k = 2 * 2 ^ t) by (rewrite EK, Z.pow_add_r by lia; ring). rewrite EK2, EX in B1.
    assert (B2 : 2 ^ p <= a + 1) by nia. left. assert (EA : a = 2 ^ p - 1) by lia.
    rewrite qval_opp. unfold qval, inject_Z, Qeq, Qminus, Qplus, Qopp. cbn [Qnum Qden]. rewrite ?Pos2Z.inj_mul, ?pow2p_Z by lia. rewrite EX, EA, EK2, E. ring.
  - right. assert (k <= t) by lia. exists (a * 2 ^ (t - k)). assert (EN : a * 2 ^ (t - k) * 2 ^ k = X).
    { rewrite EX, <- Z.mul_assoc, <- Z.pow_add_r by lia. do 2 f_equal. lia. }
    split.
    + rewrite <- EN in B1. set (M := a * 2 ^ (t - k)) in *. clearbody M. assert (2 ^ p <= 2 * M + 1) by nia. lia.
    + unfold qval, inject_Z, Qeq. cbn [Qnum Qden]. rewrite pow2p_Z by lia. lia.
Qed.
Lemma rounding_border p c n k : wf c = true -> cr c = true -> 2 <= p -> 0 <= k -> n < 0 -> fp_rep p (qval k n) ->
  (- qval k (n * 2 ^ cf c) == inject_Z (2 ^ (p - 1)) - (1 # 2))%Q ->
  fx_of_fval p c (Fin n k) = if in_range (ct c) (- 2 ^ (p - 1)) then Ok (- 2 ^ (p - 1)) else UB.
Proof.
  intros H R P K N0 I E. pose proof (cf_pos c H) as WF. pose proof (p2 k K) as WK. pose proof (p2 (p - 1) ltac:(lia)) as PP.
  assert (EP : 2 ^ p = 2 * 2 ^ (p - 1)) by (rewrite <- Z.pow_succ_r by lia; f_equal; lia).
  rewrite neg_form by assumption. cbv zeta. set (X := - n * 2 ^ cf c) in *. replace (n * 2 ^ cf c) with (- X) in * by (unfold X; ring).
  assert (EX : 2 * X + 2 ^ k = 2 ^ p * 2 ^ k).
  { rewrite qval_opp in E. unfold qval, inject_Z, Qeq, Qminus, Qplus, Qopp in E. cbn [Qnum Qden] in E. rewrite ?Pos2Z.inj_mul, ?pow2p_Z in E by lia. lia. }
  rewrite EX. rewrite <- (Z.mul_1_l (2 ^ p)). rewrite <- Z.mul_assoc, <- Z.pow_add_r by lia. rewrite rne_pos_scale by lia.
  replace (rne_pos p 1) with 1 by (unfold rne_pos; change (Z.log2 1) with 0; replace (0 + 1 - p <=? 0) with true by lia; reflexivity).
  rewrite Z.pow_add_r, EP by lia. replace (1 * (2 * 2 ^ (p - 1) * 2 ^ k)) with (2 ^ (p - 1) * (2 * 2 ^ k)) by ring. rewrite Z.div_mul by lia. reflexivity.
Qed.

(** ** C06 *)
Lemma widen_shift_ub dst src m : cf src <= cf dst -> bits (promote (ct src)) <= cf dst - cf src -> fx_of_fixed dst src m = UB.
Proof.
  intros L B. unfold fx_of_fixed, from_fixed_num_value. replace (cf src >? cf dst) with false by lia. unfold c_shl.
  replace (cf dst - cf src <? bits (promote (ct src))) with false by lia. rewrite andb_false_r. reflexivity.
Qed.
Lemma widen_sign dst src m : wf dst = true -> wf src = true -> valid src m = true -> sgn (promote (ct src)) = true ->
  cf dst - cf src = bits (promote (ct src)) - 1 ->
  fx_of_fixed dst src m = if (m =? 0) || (m =? 1) then Ok (wrap (ct dst) (- (m * 2 ^ (cf dst - cf src)))) else UB.
Proof.
  intros Hd Hs V S E. pose proof (wf_ct _ Hs) as Ht. pose proof (promote_ok _ Ht) as Hp. destruct (ity_ok_pow _ Hp) as [B PB]. pose proof (ity_ok_bits _ Hp) as BB.
  unfold fx_of_fixed, from_fixed_num_value. replace (cf src >? cf dst) with false by lia. unfold c_shl. rewrite E.
  set (t := promote (ct src)) in *. set (w := 2 ^ (bits t - 1)) in *.
  replace ((0 <=? bits t - 1) && (bits t - 1 <? bits t)) with true by lia. cbn [bind].
  rewrite shiftl_mul, Z.mul_1_l by lia. fold w.
  assert (W : wrap t w = - w).
  { apply (wrap_unique t w (- w) (-1) Hp); [|lia]. unfold in_range, minv, maxv. rewrite S. fold w. lia. }
  rewrite W. unfold c_mul. unfold t. rewrite uac_promote_r. fold t.
  rewrite (wrap_id t (- w) Hp) by (unfold in_range, minv, maxv; rewrite S; fold w; lia). rewrite (wrap_id t m Hp) by (apply promote_range; assumption).
  unfold arith. rewrite S. unfold in_range, minv, maxv. rewrite S. fold w. destruct (Z.eqb_spec m 0) as [-> |N0]; [replace ((- w <=? 0 * - w) && (0 * - w <=? w - 1)) with true by lia; cbn [bind orb]; do 2 f_equal; ring|].
  destruct (Z.eqb_spec m 1) as [-> |N1]; [replace ((- w <=? 1 * - w) && (1 * - w <=? w - 1)) with true by lia; cbn [bind orb]; do 2 f_equal; ring|].
  replace ((- w <=? m * - w) && (m * - w <=? w - 1)) with false; [reflexivity|]. symmetry. apply andb_false_iff. rewrite !Z.leb_gt. assert (m < 0 \/ 2 <= m) by lia. nia.
Qed.
Lemma widen_unsigned dst src m : wf dst = true -> wf src = true -> cf src <= cf dst -> cf dst - cf src < bits (promote (ct src)) ->
  valid src m = true -> sgn (promote (ct src)) = false ->
  exists v r, 0 <= v < 2 ^ bits (promote (ct src)) /\ cong (bits (promote (ct src))) v (m * 2 ^ (cf dst - cf src)) /\
    fx_of_fixed dst src m = Ok r /\ valid dst r = true /\ cong (bits (ct dst)) r v /\ (fits (bits (ct dst)) (sgn (ct dst)) v -> r = v).
Proof.
  intros Hd Hs L D V S. pose proof (wf_ct _ Hs) as Ht. pose proof (wf_ct _ Hd) as Hdt. pose proof (promote_ok _ Ht) as Hp. destruct (ity_ok_pow _ Hp) as [B PB]. pose proof (ity_ok_bits _ Hp) as BB.
  unfold fx_of_fixed, from_fixed_num_value. replace (cf src >? cf dst) with false by lia. unfold c_shl.
  replace ((0 <=? cf dst - cf src) && (cf dst - cf src <? bits (promote (ct src)))) with true by lia. cbn [bind]. rewrite shiftl_mul, Z.mul_1_l by lia.
  set (k := cf dst - cf src) in *. assert (R : in_range (promote (ct src)) (2 ^ k) = true).
  { unfold in_range, minv, maxv. rewrite S. pose proof (Z.pow_lt_mono_r 2 k (bits (promote (ct src))) ltac:(lia) ltac:(lia) D). pose proof (p2 k ltac:(lia)). lia. }
  rewrite (wrap_id _ _ Hp R). unfold c_mul. rewrite uac_promote_r. rewrite !wrap_id; try assumption; [|apply promote_range; assumption].
  unfold arith. rewrite S. cbn [bind]. set (t := promote (ct src)) in *.
  exists (wrap t (m * 2 ^ k)), (wrap (ct dst) (wrap t (m * 2 ^ k))).
  split. { pose proof (wrap_range t (m * 2 ^ k) Hp) as X. unfold in_range, minv, maxv in X. rewrite S in X. lia. }
  split. { destruct (wrap_cong t (m * 2 ^ k) Hp) as (j & E). exists j. exact E. }
  split; [reflexivity|]. split; [apply valid_wrap_valid; exact Hd|]. split.
  - destruct (wrap_cong (ct dst) (wrap t (m * 2 ^ k)) Hdt) as (j & E). exists j. exact E.
  - intros F. apply wrap_id; [exact Hdt|]. apply fits_range. exact F.
Qed.
