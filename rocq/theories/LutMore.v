(** More about the table sine (C135, C136): the half-turn rule for angles that are not negative, and what happens to
    negative angles. *)
From Coq Require Import ZArith List Bool Lia.
From Verif Require Import Base BaseLemmas Fixed Math FixedLemmas MathProofs InspectProofs StdProofs Util LutProofs.
Import ListNotations.
Open Scope Z_scope.

Definition lut_tail (N : Z) (lut : list Z) (x_mod : Z) : res Z :=
  let c := F64 in
  let* pi := pi_v c in
  let* n1 := fx_of_int c (N - 1) in
  let* h := fx_div c pi n1 in
  let* pos := fx_div c x_mod h in
  let* ip := integral_part c pos in
  let idx := Z.min ip (N - 2) in
  let* fidx := fx_of_int c idx in
  let* frac := fx_sub c pos fidx in
  let* a := arr_at lut idx in
  let* omf := int_sub_fx c int32 1 frac in
  let* l := fx_mul c a omf in
  let* b := arr_at lut (idx + 1) in
  let* r := fx_mul c b frac in
  fx_add c l r.
Definition lut_red (x : Z) : res (Z * bool) :=
  let c := F64 in
  let* q := fx_div c x 26986075408 in
  let* ip := integral_part c q in
  let* turns := fx_mul_int c int64 26986075408 ip in
  let* x_mod := fx_sub c x turns in
  let negate := fx_ge c x_mod 13493037704 in
  let* x_mod := if negate then fx_sub_assign c x_mod 13493037704 else Ok x_mod in
  Ok (x_mod, negate).
Ltac step_bind := repeat match goal with
  | |- bind ?m _ = bind (bind ?m _) _ => destruct m; cbn [bind]; try reflexivity
  | |- bind ?m _ = bind ?m _ => destruct m; cbn [bind]; try reflexivity end.
Lemma lut_split N l x : lut_calc N l x =
  (let* yn := lut_red x in let* v := lut_tail N l (fst yn) in if snd yn then fx_neg F64 v else Ok v).
Proof.
  unfold lut_calc, lut_red, lut_tail. cbv zeta. rewrite pi64. rewrite !bind_ok. cbv beta. rewrite c_two. rewrite bind_ok. cbv beta. rewrite c_twopi. rewrite bind_ok. cbv beta.
  generalize (fx_of_int F64) (fx_div F64) (integral_part F64) (fx_sub F64) (fx_mul_int F64 int64) (fx_mul F64) (fx_add F64) (fx_neg F64) (fx_ge F64) (fx_sub_assign F64) (int_sub_fx F64 int32) arr_at.
  generalize 26986075408 13493037704. intros two_pi pi of_int div ipart sub mul_int mul add neg ge sub_assign int_sub at'.
  destruct (div x two_pi); cbn [bind]; try reflexivity.
  destruct (ipart a); cbn [bind]; try reflexivity.
  destruct (mul_int two_pi a0); cbn [bind]; try reflexivity.
  destruct (sub x a1); cbn [bind]; try reflexivity.
  destruct (ge a2 pi); cbn [fst snd]; [destruct (sub_assign a2 pi)|]; cbn [bind fst snd]; try reflexivity.
  all: step_bind.
Qed.

(** the product with a 64-bit integer *)
Lemma mul_int64 x n : -9223372036854775808 <= x <= 9223372036854775807 -> -9223372036854775808 <= n <= 9223372036854775807 ->
  -9223372036854775808 <= x * n <= 9223372036854775807 -> fx_mul_int F64 int64 x n = Ok (x * n).
Proof.
  intros X N B. unfold fx_mul_int, fx_mul_assign_int. apply v64 in X, N, B.
  rewrite (g_mul (ct F64) int64 (ct F64) x n (std_t_ok F64 sF64) eq_refl X N B). cbn [bind]. f_equal. apply wrap_id; auto.
Qed.
Lemma red_nonneg x : 0 <= x <= 9223372036854775807 ->
  lut_red x = Ok (if 13493037704 <=? x mod 26986075408 then (x mod 26986075408 - 13493037704, true) else (x mod 26986075408, false)).
Proof.
  intros X. unfold lut_red. cbv zeta.
  assert (Q : exists q, Z.quot (x * 4294967296) 26986075408 = q /\ 0 <= q <= 2305843009213693951 /\ q / 4294967296 = x / 26986075408).
  { eexists. split; [reflexivity|]. rewrite Z.quot_div_nonneg by lia. split; [split; [apply Z.div_pos; lia|apply Z.div_le_upper_bound; lia]|].
    rewrite Z.div_div by lia. rewrite Z.div_mul_cancel_r by lia. reflexivity. }
  destruct Q as (q & EQ & Q & EI).
  rewrite (s_div F64 sF64 x 26986075408); [|apply v64; lia|reflexivity|discriminate|apply v64; rewrite ?c_M; rewrite EQ; lia].
  rewrite ?c_M. rewrite EQ. bo.
  rewrite integral_nonneg by (reflexivity || lia || (apply v64; lia)). rewrite ?c_M. rewrite EI. bo.
  pose proof (Z.div_mod x 26986075408 ltac:(lia)) as DM. pose proof (Z.mod_pos_bound x 26986075408 ltac:(lia)) as MB.
  assert (K : 0 <= x / 26986075408 <= 9223372036854775807) by (clear - DM MB X; lia).
  rewrite mul_int64 by (clear - DM MB X K; lia). bo.
  rewrite (s_sub F64 sF64) by (apply v64; lia). bo.
  replace (x - 26986075408 * (x / 26986075408)) with (x mod 26986075408) by lia.
  rewrite (s_ge F64 sF64) by (apply v64; lia).
  destruct (13493037704 <=? x mod 26986075408) eqn:E; cbv iota; [|reflexivity].
  change fx_sub_assign with fx_sub. rewrite (s_sub F64 sF64) by (apply v64; lia). reflexivity.
Qed.
(** a table of [N] entries between -1 and 1 *)
Definition table_ok (N : Z) (l : list Z) := Z.of_nat (length l) = N /\ forall i, 0 <= i < N -> -4294967296 <= nth (Z.to_nat i) l 0 <= 4294967296.
Lemma at_ok N l i : table_ok N l -> 0 <= i < N -> exists a, arr_at l i = Ok a /\ -4294967296 <= a <= 4294967296 /\ a = nth (Z.to_nat i) l 0.
Proof.
  intros [L B] I. eexists. split; [|split; [apply (B i I)|reflexivity]]. unfold arr_at. replace ((0 <=? i) && (i <? Z.of_nat (length l))) with true by lia. reflexivity.
Qed.
(** one product of the interpolation *)
Lemma prod_bound a f : -4294967296 <= a <= 4294967296 -> - Z.abs f - 0 <= a * f / 4294967296 <= Z.abs f.
Proof.
  intros A. assert (B : - (4294967296 * Z.abs f) <= a * f <= 4294967296 * Z.abs f).
  { assert (Z.abs (a * f) <= 4294967296 * Z.abs f) by (rewrite Z.abs_mul; apply Z.mul_le_mono_nonneg_r; lia). lia. }
  split; [apply Z.div_le_lower_bound; lia|apply Z.div_le_upper_bound; lia].
Qed.
Lemma lerp_eq a b fr : -4294967296 <= a <= 4294967296 -> -4294967296 <= b <= 4294967296 -> Z.abs fr <= 4611686018427387904 -> Z.abs (4294967296 - fr) + Z.abs fr <= 9223372036854775807 ->
  (let* omf := int_sub_fx F64 int32 1 fr in let* p := fx_mul F64 a omf in let* r := fx_mul F64 b fr in fx_add F64 p r)
  = Ok (a * (4294967296 - fr) / 4294967296 + b * fr / 4294967296).
Proof.
  intros A B F G. rewrite c_omf. rewrite (s_sub F64 sF64) by (apply v64; lia). cbn [bind].
  pose proof (prod_bound a (4294967296 - fr) A) as PA. pose proof (prod_bound b fr B) as PB.
  rewrite (s_mul F64 sF64 a) by (rewrite ?c_M; apply v64; lia). cbn [bind].
  rewrite (s_mul F64 sF64 b) by (rewrite ?c_M; apply v64; lia). cbn [bind]. rewrite ?c_M.
  rewrite (s_add F64 sF64) by (apply v64; lia). reflexivity.
Qed.
(** everything after the reduction, once the position and the index are known *)
Lemma tail_eq N l y h pos idx : 5 <= N <= 4096 -> table_ok N l -> h = 13493037704 / (N - 1) ->
  -9223372036854775808 <= y <= 9223372036854775807 -> Z.quot (y * 4294967296) h = pos -> -4611686018427387904 <= pos <= 4611686018427387904 ->
  (let* ip := integral_part F64 pos in Ok (Z.min ip (N - 2))) = Ok idx -> 0 <= idx <= N - 2 ->
  Z.abs (pos - idx * 4294967296) <= 4611686018427387904 ->
  Z.abs (4294967296 - (pos - idx * 4294967296)) + Z.abs (pos - idx * 4294967296) <= 9223372036854775807 ->
  lut_tail N l y = Ok (nth (Z.to_nat idx) l 0 * (4294967296 - (pos - idx * 4294967296)) / 4294967296
                       + nth (Z.to_nat (idx + 1)) l 0 * (pos - idx * 4294967296) / 4294967296).
Proof.
  intros H T Eh Y PQ PB IP IB F1 F2.
  assert (HB : 3294000 <= h <= 13493037704).
  { rewrite Eh. split; [apply Z.div_le_lower_bound; lia|apply Z.div_le_upper_bound; lia]. }
  assert (HQ : Z.quot (13493037704 * 4294967296) ((N - 1) * 4294967296) = h).
  { rewrite Z.quot_mul_cancel_r by lia. rewrite Eh. apply Z.quot_div_nonneg; lia. }
  clear Eh. unfold lut_tail. cbv zeta. rewrite pi64. bo.
  rewrite (s_int F64 sF64 (N - 1)) by (apply v64; rewrite ?c_M; lia). rewrite ?c_M. bo.
  rewrite (s_div F64 sF64); rewrite ?c_M; rewrite ?HQ; try (apply v64; lia); [|lia]. bo.
  rewrite (s_div F64 sF64); rewrite ?c_M; rewrite ?PQ; try (apply v64; lia); [|lia]. bo.
  destruct (integral_part F64 pos) as [ip| | |]; try discriminate. cbn [bind] in *. injection IP as IP. rewrite IP.
  rewrite (s_int F64 sF64 idx) by (apply v64; rewrite ?c_M; lia). rewrite ?c_M. bo.
  rewrite (s_sub F64 sF64) by (apply v64; lia). bo.
  destruct (at_ok N l idx T ltac:(lia)) as (a & EA & A & NA). destruct (at_ok N l (idx + 1) T ltac:(lia)) as (b & EB & B & NB).
  rewrite EA, EB. bo. rewrite <- NA, <- NB. rewrite <- (lerp_eq a b) by assumption.
  destruct (int_sub_fx F64 int32 1 _); cbn [bind]; try reflexivity.
Qed.
Lemma tail_nonneg N l y : 5 <= N <= 4096 -> table_ok N l -> 0 <= y < 13493037704 -> exists v, lut_tail N l y = Ok v /\ Z.abs v <= 4337916968.
Proof.
  intros H T Y. remember (13493037704 / (N - 1)) as h eqn:Eh.
  assert (HB : 3294000 <= h <= 13493037704).
  { rewrite Eh. split; [apply Z.div_le_lower_bound; lia|apply Z.div_le_upper_bound; lia]. }
  assert (HP : 13493037704 < h * (N - 1) + N).
  { rewrite Eh. pose proof (Z.mod_pos_bound 13493037704 (N - 1) ltac:(lia)). pose proof (Z.div_mod 13493037704 (N - 1) ltac:(lia)). lia. }
  remember (y * 4294967296 / h) as pos eqn:Epos.
  assert (PQ : Z.quot (y * 4294967296) h = pos) by (rewrite Epos; apply Z.quot_div_nonneg; lia).
  assert (P0 : 0 <= pos) by (rewrite Epos; apply Z.div_pos; lia).
  assert (PM : h * pos <= y * 4294967296) by (rewrite Epos; apply Z.mul_div_le; lia).
  assert (PU : pos <= (N - 1) * 4294967296 + 5368710).
  { assert (h * pos < (h * (N - 1) + N) * 4294967296) by lia.
    assert (N * 4294967296 <= h * 5368710 + 0 \/ N * 4294967296 > h * 5368710) as [C|C] by lia.
    - apply Z.lt_le_incl. apply (Z.mul_lt_mono_pos_l h); [lia|]. clear - H0 C. lia.
    - exfalso. assert (h * (N - 1) >= 13488941608) by lia.
      clear - C H1 H HB. assert (h * 4095 >= 13488941608 \/ N - 1 < 4095) as [D|D] by nia. all: nia. }
  remember (Z.min (pos / 4294967296) (N - 2)) as idx eqn:Eidx.
  pose proof (Z.div_mod pos 4294967296 ltac:(lia)) as DM. pose proof (Z.mod_pos_bound pos 4294967296 ltac:(lia)) as MB.
  assert (D0 : 0 <= pos / 4294967296) by (apply Z.div_pos; lia).
  assert (FR : 0 <= pos - idx * 4294967296 <= 4294967296 + 5368710) by (clear - DM MB D0 PU Eidx H; lia).
  assert (I0 : 0 <= idx <= N - 2) by lia.
  rewrite (tail_eq N l y h pos idx); try assumption; try (clear - FR PU P0 I0 Y H; lia).
  - eexists. split; [reflexivity|]. destruct T as [_ T]. pose proof (T idx ltac:(lia)) as A. pose proof (T (idx + 1) ltac:(lia)) as B.
    revert FR A B. generalize (pos - idx * 4294967296) (nth (Z.to_nat idx) l 0) (nth (Z.to_nat (idx + 1)) l 0). clear. intros f a b F A B.
    pose proof (prod_bound a (4294967296 - f) A). pose proof (prod_bound b f B). lia.
  - rewrite integral_nonneg by (reflexivity || lia || (apply v64; lia)). rewrite ?c_M. cbn [bind]. rewrite Eidx. reflexivity.
Qed.
Lemma sin_table_ok sin_d N l : sin_like sin_d -> 1 <= N < 2147483648 -> Z.of_nat (length l) = N ->
  (forall i, 0 <= i < N -> nth (Z.to_nat i) l 0 = sval sin_d (13493037704 / N * i / 4294967296)) -> table_ok N l.
Proof.
  intros [_ S] H L NT. split; [exact L|]. intros i I. rewrite NT by auto. unfold sval. generalize (13493037704 / N * i / 4294967296). intros j.
  destruct (S j) as [K B]. destruct (sin_d j) as [n k]. cbn [fst snd] in *.
  assert (P : 0 < 2 ^ k) by (apply Z.pow_pos_nonneg; lia).
  assert (Q : Z.abs (Z.quot (n * 4294967296) (2 ^ k)) <= 4294967296).
  { rewrite <- Z.quot_abs by lia. rewrite (Z.abs_eq (2 ^ k)) by lia. rewrite Z.quot_div_nonneg by lia.
    apply Z.div_le_upper_bound; [lia|]. rewrite Z.abs_mul. change (Z.abs 4294967296) with 4294967296. nia. }
  lia.
Qed.
Lemma lut_nonneg N l x : 5 <= N <= 4096 -> table_ok N l -> 0 <= x <= 9223372036854775807 ->
  exists v, lut_tail N l (if 13493037704 <=? x mod 26986075408 then x mod 26986075408 - 13493037704 else x mod 26986075408) = Ok v /\
    Z.abs v <= 4337916968 /\ lut_calc N l x = Ok (if 13493037704 <=? x mod 26986075408 then - v else v).
Proof.
  intros H T X. rewrite lut_split. rewrite red_nonneg by auto. cbn [bind]. pose proof (Z.mod_pos_bound x 26986075408 ltac:(lia)) as MB.
  destruct (13493037704 <=? x mod 26986075408) eqn:E; cbn [fst snd].
  - destruct (tail_nonneg N l (x mod 26986075408 - 13493037704) H T ltac:(lia)) as (v & -> & B). exists v. cbn [bind].
    split; [reflexivity|]. split; [exact B|]. apply (s_neg F64 sF64); apply v64; lia.
  - destruct (tail_nonneg N l (x mod 26986075408) H T ltac:(lia)) as (v & -> & B). exists v. auto.
Qed.
Lemma half_turn x : (x + 13493037704) mod 26986075408 =
  if 13493037704 <=? x mod 26986075408 then x mod 26986075408 - 13493037704 else x mod 26986075408 + 13493037704.
Proof.
  pose proof (Z.div_mod x 26986075408 ltac:(lia)) as DM. pose proof (Z.mod_pos_bound x 26986075408 ltac:(lia)) as MB.
  destruct (13493037704 <=? x mod 26986075408) eqn:E; symmetry.
  - apply (Z.mod_unique_pos _ _ (x / 26986075408 + 1)); lia.
  - apply (Z.mod_unique_pos _ _ (x / 26986075408)); lia.
Qed.
Lemma lut_flip sin_d N x : sin_like sin_d -> 5 <= N <= 4096 -> 0 <= x -> x + 13493037704 <= 9223372036854775807 ->
  exists v, lut_calc_sin sin_d N x = Ok v /\ lut_calc_sin sin_d N (x + 13493037704) = Ok (- v) /\ Z.abs v <= 4337916968.
Proof.
  intros S H X XB. unfold lut_calc_sin. destruct (sin_table sin_d N S ltac:(lia)) as (l & -> & L & NT). cbn [bind].
  pose proof (sin_table_ok sin_d N l S ltac:(lia) L NT) as T.
  destruct (lut_nonneg N l x H T ltac:(lia)) as (v & E1 & B1 & ->). destruct (lut_nonneg N l (x + 13493037704) H T ltac:(lia)) as (w & E2 & B2 & ->).
  rewrite half_turn in *. pose proof (Z.mod_pos_bound x 26986075408 ltac:(lia)) as MB.
  destruct (13493037704 <=? x mod 26986075408) eqn:E.
  - replace (13493037704 <=? x mod 26986075408 - 13493037704) with false in * by lia. rewrite E1 in E2. injection E2 as <-.
    exists (- v). rewrite Z.opp_involutive. split; [reflexivity|]. split; [reflexivity|]. lia.
  - replace (13493037704 <=? x mod 26986075408 + 13493037704) with true in * by lia.
    replace (x mod 26986075408 + 13493037704 - 13493037704) with (x mod 26986075408) in E2 by lia. rewrite E1 in E2. injection E2 as <-.
    exists v. auto.
Qed.
Lemma lut_bounded sin_d N x : sin_like sin_d -> 5 <= N <= 4096 -> 0 <= x <= 9223372036854775807 ->
  exists v, lut_calc_sin sin_d N x = Ok v /\ Z.abs v <= 4337916968.
Proof.
  intros S H X. unfold lut_calc_sin. destruct (sin_table sin_d N S ltac:(lia)) as (l & -> & L & NT). cbn [bind].
  pose proof (sin_table_ok sin_d N l S ltac:(lia) L NT) as T.
  destruct (lut_nonneg N l x H T ltac:(lia)) as (v & E1 & B1 & ->). eexists. split; [reflexivity|]. destruct (13493037704 <=? _); lia.
Qed.
(** negative angles: always the last two entries *)
Lemma split_prod s f : exists d, 0 <= d <= 1 /\ s * (4294967296 - f) / 4294967296 + s * f / 4294967296 = s - d.
Proof.
  pose proof (Z.div_mod (s * f) 4294967296 ltac:(lia)) as D1. pose proof (Z.mod_pos_bound (s * f) 4294967296 ltac:(lia)) as M1.
  pose proof (Z.div_mod (s * (4294967296 - f)) 4294967296 ltac:(lia)) as D2. pose proof (Z.mod_pos_bound (s * (4294967296 - f)) 4294967296 ltac:(lia)) as M2.
  exists (s - (s * (4294967296 - f) / 4294967296 + s * f / 4294967296)). split; [|lia]. 
  replace (s * (4294967296 - f)) with (s * 4294967296 - s * f) in * by ring. lia.
Qed.
Lemma red_neg x : -9007199254740992 <= x <= -7 -> exists y, lut_red x = Ok (y, false) /\ 2 * x - 26986075408 <= y <= -26986075408.
Proof.
  intros X. unfold lut_red. cbv zeta.
  assert (Q : exists q, Z.quot (x * 4294967296) 26986075408 = - q /\ 1 <= q <= 2305843009213693951 /\ q <= - x /\ 26986075408 * q <= - x * 4294967296).
  { exists (- x * 4294967296 / 26986075408). split.
    - replace (x * 4294967296) with (- (- x * 4294967296)) by lia. rewrite Z.quot_opp_l by lia. rewrite Z.quot_div_nonneg by lia. reflexivity.
    - split; [split; [apply Z.div_le_lower_bound; lia|apply Z.div_le_upper_bound; lia]|]. split; [apply Z.div_le_upper_bound; lia|apply Z.mul_div_le; lia]. }
  destruct Q as (q & EQ & Q & _ & QX).
  rewrite (s_div F64 sF64 x 26986075408); [|apply v64; lia|reflexivity|discriminate|apply v64; rewrite ?c_M; rewrite EQ; lia].
  rewrite ?c_M. rewrite EQ. bo.
  rewrite integral_neg; [|reflexivity|intros _; vm_compute; discriminate|apply v64; lia|lia|apply v64; rewrite ?c_M; lia]. rewrite ?c_M. bo.
  pose proof (Z.div_mod (- q) 4294967296 ltac:(lia)) as DM. pose proof (Z.mod_pos_bound (- q) 4294967296 ltac:(lia)) as MB.
  remember (- q / 4294967296) as k eqn:Ek. clear Ek.
  assert (K : 1 <= - k) by lia.
  assert (KU : 26986075408 * - k <= - x + 26986075408) by (clear - DM MB Q QX; lia).
  rewrite mul_int64 by (clear - K KU X; lia). bo.
  rewrite (s_sub F64 sF64) by (apply v64; clear - K KU X; lia). bo.
  rewrite (s_ge F64 sF64) by (apply v64; clear - K KU X; lia).
  replace (13493037704 <=? _) with false by (clear - K KU X; lia). bo.
  eexists. split; [reflexivity|]. clear - K KU X. lia.
Qed.
Lemma lut_neg sin_d N x : sin_like sin_d -> 64 <= N <= 512 -> -9007199254740992 <= x <= -7 ->
  exists d, 0 <= d <= 1 /\ lut_calc_sin sin_d N x = Ok (sval sin_d 3 - d).
Proof.
  intros S H X. unfold lut_calc_sin. destruct (sin_table sin_d N S ltac:(lia)) as (l & -> & L & NT). cbn [bind].
  pose proof (sin_table_ok sin_d N l S ltac:(lia) L NT) as T.
  assert (LAST : forall i, N - 2 <= i < N -> nth (Z.to_nat i) l 0 = sval sin_d 3).
  { intros i I. rewrite NT by lia. f_equal. pose proof (Z.mod_pos_bound 13493037704 N ltac:(lia)). pose proof (Z.div_mod 13493037704 N ltac:(lia)).
    assert (13493037704 / N <= 210828715) by (apply Z.div_le_upper_bound; lia). remember (13493037704 / N) as st. symmetry.
    apply (Z.div_unique_pos _ _ _ (st * i - 12884901888)); [|lia].
    assert (st * i = st * N - st * (N - i)) as -> by ring. assert (0 <= st * (N - i) <= 2 * 210828715) by (clear - I H2 H0 H1 H; nia). lia. }
  rewrite lut_split. destruct (red_neg x X) as (y & -> & Y). cbn [bind fst snd].
  remember (13493037704 / (N - 1)) as h eqn:Eh.
  assert (HB : 26405161 <= h <= 214175202).
  { rewrite Eh. split; [apply Z.div_le_lower_bound; lia|apply Z.div_le_upper_bound; lia]. }
  assert (HN : h * (N - 1) <= 13493037704) by (rewrite Eh, Z.mul_comm; apply Z.mul_div_le; lia).
  assert (Q : exists p, Z.quot (y * 4294967296) h = - p /\ (N - 1) * 4294967296 <= p <= 2305843009213693951 * 2 - 4 * 4294967296 * 512).
  { exists (- y * 4294967296 / h). split.
    - replace (y * 4294967296) with (- (- y * 4294967296)) by lia. rewrite Z.quot_opp_l by lia. rewrite Z.quot_div_nonneg by lia. reflexivity.
    - split; [apply Z.div_le_lower_bound; [lia|]|apply Z.div_le_upper_bound; lia].
      replace (h * ((N - 1) * 4294967296)) with (h * (N - 1) * 4294967296) by ring. lia. }
  destruct Q as (p & PQ & PB).
  rewrite (tail_eq N l y h (- p) (N - 2)); try assumption; try lia.
  - cbn [bind]. rewrite !LAST by lia. destruct (split_prod (sval sin_d 3) (- p - (N - 2) * 4294967296)) as (d & D & ->). exists d. auto.
  - rewrite integral_neg; [|reflexivity|intros _; vm_compute; discriminate|apply v64; lia|lia|apply v64; rewrite ?c_M; lia]. rewrite ?c_M. cbn [bind].
    f_equal. pose proof (Z.div_mod (- p) 4294967296 ltac:(lia)). pose proof (Z.mod_pos_bound (- p) 4294967296 ltac:(lia)). lia.
Qed.
