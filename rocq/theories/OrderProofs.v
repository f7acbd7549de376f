(** Where the polynomials of atan and sin keep the order of their arguments: one step of the argument at a time, on the
    integers, and with the accuracy bounds elsewhere. *)
From Coq Require Import ZArith Reals Lia Lra Psatz Bool.
From Interval Require Import Tactic.
From Coq Require Import QArith Qabs.
From Verif Require Import Base Fixed Math Spec SpecReal BaseLemmas FixedLemmas CLemmas MathProofs PowProofs RealLemmas StdProofs SinPoly SinProofs SinThms
  AtanProofs RealThms.
Open Scope Z_scope.

(** a product that falls by at most [k] units falls by at most [k] after the shift, and one that grows by at most [k] ... *)
Lemma fm_down M u v u' v' k : 0 < M -> u * v - k * M <= u' * v' -> fm M u v - k <= fm M u' v'.
Proof.
  intros HM H. unfold fm. replace (u * v / M - k) with ((u * v + (- k) * M) / M) by (rewrite Z.div_add by lia; lia). apply Z.div_le_mono; lia.
Qed.
Lemma fm_up M u v u' v' k : 0 < M -> u' * v' <= u * v + k * M -> fm M u' v' <= fm M u v + k.
Proof. intros HM H. unfold fm. rewrite <- Z.div_add by lia. apply Z.div_le_mono; lia. Qed.
Lemma fm_bnd M u v a b : 0 < M -> a * M <= u * v -> u * v <= b * M -> a <= fm M u v <= b.
Proof. intros HM H1 H2. unfold fm. split; [apply Z.div_le_lower_bound; lia|apply Z.div_le_upper_bound; lia]. Qed.

(** steps to intervals *)
Lemma steps (f : Z -> Z) a b : (forall x, a <= x < b -> f x <= f (x + 1)) -> forall x y, a <= x -> x <= y -> y <= b -> f x <= f y.
Proof.
  intros S x y Ha Hxy Hb. replace y with (x + (y - x)) in * by lia. set (n := y - x) in *. assert (0 <= n) by lia. clearbody n.
  revert Hb. pattern n. apply natlike_ind; [|intros k K IH|assumption]; intros; [rewrite Z.add_0_r; lia|].
  replace (x + Z.succ k) with (x + k + 1) by lia. etransitivity; [apply IH; lia|apply S; lia].
Qed.

(** ** atan *)
Section ATAN.
Variables M A B C : Z.
Hypothesis HM : 0 < M.
Hypothesis RA : 0 <= A. Hypothesis RAB : A <= B. Hypothesis RC : B <= C. Hypothesis RC2 : 3 * C <= M.
Lemma atan_step x : 0 <= x -> 16 * (x + 1) <= 9 * M -> 1024 * x * x + 1024 * C * 2 * M <= 1024 * M * M -> atan_poly_z M A B C x <= atan_poly_z M A B C (x + 1).
Proof using HM RA RAB RC RC2.
  intros X XM XC. unfold atan_poly_z. cbv zeta.
  assert (S1 := fm_down M x x (x + 1) (x + 1) 0 HM ltac:(nia)). assert (S2 := fm_up M x x (x + 1) (x + 1) 2 HM ltac:(nia)).
  assert (S0 : 0 <= fm M x x <= M) by (apply fm_bnd; nia). assert (S0' : 0 <= fm M (x + 1) (x + 1)) by (apply fm_bnd with (b := M); nia).
  assert (SC : fm M x x <= M - 2 * C).
  { apply fm_bnd with (a := 0); [lia|nia|]. nia. }
  assert (SX : M * fm M (x + 1) (x + 1) <= (x + 1) * (x + 1)) by (apply Z.mul_div_le; lia).
  set (s := fm M x x) in *. set (s' := fm M (x + 1) (x + 1)) in *. clearbody s s'.
  assert (SX2 : s' + x <= M).
  { clear - SX XM HM X. assert (256 * ((x + 1) * (x + 1)) <= 81 * M * M) by nia. assert (256 * s' <= 81 * M) by nia. lia. }
  assert (S0'' : s' <= M) by lia.
  assert (T1 := fm_down M (- A) s (- A) s' 1 HM ltac:(nia)). assert (T0 : - A <= fm M (- A) s' <= 0) by (apply fm_bnd; nia).
  assert (T2 : - A <= fm M (- A) s <= 0) by (apply fm_bnd; nia).
  set (t := fm M (- A) s) in *. set (t' := fm M (- A) s') in *. clearbody t t'.
  assert (W1 := fm_down M (t + B) s (t' + B) s' 1 HM ltac:(nia)).
  assert (W0 : 0 <= fm M (t' + B) s' <= C) by (apply fm_bnd; nia).
  set (w := fm M (t + B) s) in *. set (w' := fm M (t' + B) s') in *. clearbody w w'.
  assert (U1 := fm_down M (w - C) s (w' - C) s' 1 HM ltac:(nia)). assert (U0 : - s' <= fm M (w' - C) s' <= 0) by (apply fm_bnd; nia).
  set (u := fm M (w - C) s) in *. set (u' := fm M (w' - C) s') in *. clearbody u u'.
  assert (V1 := fm_down M u x u' (x + 1) 1 HM ltac:(nia)). lia.
Qed.
End ATAN.

Lemma atan32_pos_mono x y : 0 <= x -> x <= y -> y <= 36864 -> atan32 x <= atan32 y.
Proof.
  intros X XY Y. unfold atan32. replace (x <? 0) with false by lia. replace (y <? 0) with false by lia.
  apply (steps (atan_poly_z (2 ^ 16) 3047 10440 21471) 0 36864); try lia. intros z Z. change (2 ^ 16) with 65536. apply atan_step; nia.
Qed.
Lemma atan64_pos_mono x y : 0 <= x -> x <= y -> y <= 2415919104 -> atan64 x <= atan64 y.
Proof.
  intros X XY Y. unfold atan64. replace (x <? 0) with false by lia. replace (y <? 0) with false by lia.
  apply (steps (atan_poly_z (2 ^ 32) 199700839 684249364 1407129056) 0 2415919104); try lia. intros z Z. change (2 ^ 32) with 4294967296. apply atan_step; nia.
Qed.
Lemma odd_mono (f : Z -> Z) b : (forall x, 0 <= x <= b -> 0 <= f x /\ f (- x) = - f x) -> (forall x y, 0 <= x -> x <= y -> y <= b -> f x <= f y) ->
  forall x y, - b <= x -> x <= y -> y <= b -> f x <= f y.
Proof.
  intros O P x y X XY Y. destruct (Z_le_gt_dec 0 x); [apply P; auto|].
  assert (EX : f x = - f (- x)) by (destruct (O (- x) ltac:(lia)) as (_ & E); rewrite Z.opp_involutive in E; exact E).
  destruct (Z_le_gt_dec 0 y).
  - destruct (O y ltac:(lia)). destruct (O (- x) ltac:(lia)). lia.
  - assert (EY : f y = - f (- y)) by (destruct (O (- y) ltac:(lia)) as (_ & E); rewrite Z.opp_involutive in E; exact E).
    rewrite EX, EY. pose proof (P (- y) (- x) ltac:(lia) ltac:(lia) ltac:(lia)). lia.
Qed.
Lemma atan32_0 : atan32 0 = 0. Proof. reflexivity. Qed.
Lemma atan64_0 : atan64 0 = 0. Proof. reflexivity. Qed.
Lemma atan32_opp x : 0 <= x -> atan32 (- x) = - atan32 x.
Proof.
  intros X. destruct (Z.eq_dec x 0) as [-> |N]; [reflexivity|]. unfold atan32. replace (- x <? 0) with true by lia. replace (x <? 0) with false by lia.
  rewrite Z.opp_involutive. reflexivity.
Qed.
Lemma atan64_opp x : 0 <= x -> atan64 (- x) = - atan64 x.
Proof.
  intros X. destruct (Z.eq_dec x 0) as [-> |N]; [reflexivity|]. unfold atan64. replace (- x <? 0) with true by lia. replace (x <? 0) with false by lia.
  rewrite Z.opp_involutive. reflexivity.
Qed.
Lemma atan32_mono x y : - 36864 <= x -> x <= y -> y <= 36864 -> atan32 x <= atan32 y.
Proof.
  apply (odd_mono atan32 36864); [|apply atan32_pos_mono]. intros z Z. split; [rewrite <- atan32_0; apply atan32_pos_mono; lia|apply atan32_opp; lia].
Qed.
Lemma atan64_mono x y : - 2415919104 <= x -> x <= y -> y <= 2415919104 -> atan64 x <= atan64 y.
Proof.
  apply (odd_mono atan64 2415919104); [|apply atan64_pos_mono]. intros z Z. split; [rewrite <- atan64_0; apply atan64_pos_mono; lia|apply atan64_opp; lia].
Qed.

(** ** sin *)
Lemma prod_step M u v u' v' b : 0 <= u -> 2 * u <= M -> u <= u' <= u + 1 -> 0 <= v' <= M -> 0 <= b -> v - 2 <= v' <= v + b ->
  u * v - 1 * M <= u' * v' <= u * v + M + u * b.
Proof.
  intros U U2 D V B S. replace (u' * v') with (u * v + ((u' - u) * v' + u * (v' - v))) by ring.
  assert (0 <= (u' - u) * v' <= M) by (split; [apply Z.mul_nonneg_nonneg; lia|]; assert (u' - u = 0 \/ u' - u = 1) as [-> | ->] by lia; lia).
  assert (u * - 2 <= u * (v' - v) <= u * b) by (split; apply Z.mul_le_mono_nonneg_l; lia). lia.
Qed.
Section SIN.
Variable M : Z.
Hypothesis HM : 1000 <= M.
Lemma sq_step x : 0 <= x -> 7 * (x + 1) <= 3 * M ->
  fm M x x <= fm M (x + 1) (x + 1) <= fm M x x + 2 /\ 0 <= fm M x x /\ 49 * fm M (x + 1) (x + 1) <= 9 * M.
Proof using HM.
  intros X XM. assert (M0 : 0 < M) by lia.
  assert (S1 := fm_down M x x (x + 1) (x + 1) 0 M0 ltac:(lia)). assert (S2 := fm_up M x x (x + 1) (x + 1) 2 M0 ltac:(lia)).
  assert (S0 : 0 <= fm M x x) by (apply Z.div_pos; nia).
  assert (SX : M * fm M (x + 1) (x + 1) <= (x + 1) * (x + 1)) by (apply Z.mul_div_le; lia).
  split; [lia|]. split; [exact S0|]. assert (49 * ((x + 1) * (x + 1)) <= 9 * M * M) by nia. nia.
Qed.
Lemma coef_step k s s' : 0 <= k -> 2 * k <= M -> 0 <= s -> s <= s' <= s + 2 -> 49 * s' <= 9 * M ->
  fm M k s <= fm M k s' <= fm M k s + 1 /\ 0 <= fm M k s /\ 2 * fm M k s <= M /\ 98 * fm M k s' <= 9 * M.
Proof using HM.
  intros K0 K1 S0 S1 SB. assert (M0 : 0 < M) by lia.
  assert (Q1 := fm_down M k s k s' 0 M0 ltac:(nia)). assert (Q2 := fm_up M k s k s' 1 M0 ltac:(nia)).
  assert (Q3 : 0 <= fm M k s <= k) by (apply fm_bnd; nia).
  assert (Q5 : M * fm M k s' <= k * s') by (apply Z.mul_div_le; lia).
  repeat split; try lia. clear - Q5 SB K0 K1 M0 S0 S1. assert (98 * (k * s') <= 9 * M * M) by nia. nia.
Qed.
Lemma nest_step u u' e e' b : 0 <= b <= 1 -> 0 <= u -> 2 * u <= M -> u <= u' <= u + 1 -> 98 * u' <= 9 * M -> 0 <= e -> 0 <= e' <= M -> e - b <= e' <= e + 2 ->
  e <= M -> fm M u (M - e) - 1 <= fm M u' (M - e') <= fm M u (M - e) + 1 + b /\ 0 <= fm M u (M - e) /\ 0 <= fm M u' (M - e') /\ 98 * fm M u (M - e) <= 9 * M /\ 98 * fm M u' (M - e') <= 9 * M.
Proof using HM.
  intros B U U2 S U9 E E' SE EM. assert (M0 : 0 < M) by lia.
  destruct (prod_step M u (M - e) u' (M - e') b) as (L1 & L2); try lia.
  assert (Q1 := fm_down M u (M - e) u' (M - e') 1 M0 ltac:(lia)).
  assert (Q2 := fm_up M u (M - e) u' (M - e') (1 + b) M0 ltac:(assert (b = 0 \/ b = 1) as [-> | ->] by lia; lia)).
  assert (Q3 : 0 <= fm M u (M - e) <= u) by (apply fm_bnd; [lia|apply Z.mul_nonneg_nonneg; lia|apply Z.mul_le_mono_nonneg_l; lia]).
  assert (Q4 : 0 <= fm M u' (M - e') <= u') by (apply fm_bnd; [lia|apply Z.mul_nonneg_nonneg; lia|apply Z.mul_le_mono_nonneg_l; lia]).
  clear - Q1 Q2 Q3 Q4 U9 S B. split; [lia|]. split; [lia|]. split; [lia|]. split; lia.
Qed.
Variables P A B C D : Z.
Hypothesis RP : 3 * M <= P. Hypothesis RP2 : 7 * P <= 22 * M.
Hypothesis RA : 0 <= A. Hypothesis RA2 : 2 * A <= M. Hypothesis RB : 0 <= B. Hypothesis RB2 : 2 * B <= M.
Hypothesis RC : 0 <= C. Hypothesis RC2 : 2 * C <= M. Hypothesis RD : 0 <= D. Hypothesis RD2 : 2 * D <= M.
Lemma sin_step x : 0 <= x -> 7 * (x + 1) <= 3 * M -> sin_poly_z M P A B C D x <= sin_poly_z M P A B C D (x + 1).
Proof using HM RP RP2 RA RA2 RB RB2 RC RC2 RD RD2.
  intros X XM. unfold sin_poly_z. cbv zeta. assert (M0 : 0 < M) by lia.
  destruct (sq_step x X XM) as (S1 & S0 & S9). set (s := fm M x x) in *. set (s' := fm M (x + 1) (x + 1)) in *. clearbody s s'.
  destruct (coef_step D s s' RD RD2 S0 S1 S9) as (d1 & d0 & d3 & d5). destruct (coef_step C s s' RC RC2 S0 S1 S9) as (c1 & c0 & c3 & c5).
  destruct (coef_step B s s' RB RB2 S0 S1 S9) as (b1 & b0 & b3 & b5). destruct (coef_step A s s' RA RA2 S0 S1 S9) as (a1 & a0 & a3 & a5).
  set (dd := fm M D s) in *. set (dd' := fm M D s') in *. set (cc := fm M C s) in *. set (cc' := fm M C s') in *.
  set (bb := fm M B s) in *. set (bb' := fm M B s') in *. set (aa := fm M A s) in *. set (aa' := fm M A s') in *.
  clearbody dd dd' cc cc' bb bb' aa aa'. clear s s' S1 S0 S9 RA RA2 RB RB2 RC RC2 RD RD2.
  destruct (nest_step cc cc' dd dd' 0) as (E1 & E2 & E3 & E4 & E5); try lia.
  set (e := fm M cc (M - dd)) in *. set (e' := fm M cc' (M - dd')) in *. clearbody e e'.
  destruct (nest_step bb bb' e e' 1) as (F1 & F2 & F3 & F4 & F5); try lia.
  set (f := fm M bb (M - e)) in *. set (f' := fm M bb' (M - e')) in *. clearbody f f'.
  destruct (nest_step aa aa' f f' 1) as (G1 & G2 & G3 & G4 & G5); try lia.
  set (g := fm M aa (M - f)) in *. set (g' := fm M aa' (M - f')) in *. clearbody g g'.
  assert (R1 : fm M P x + 3 <= fm M P (x + 1)). { pose proof (fm_down M P x P (x + 1) (-3) M0 ltac:(lia)). lia. }
  assert (R0 : 0 <= fm M P x). { apply Z.div_pos; [apply Z.mul_nonneg_nonneg; lia|lia]. }
  assert (R2 : 7 * fm M P x <= 22 * x).
  { assert (Q : M * fm M P x <= P * x) by (apply Z.mul_div_le; lia). clear - Q RP2 X M0. assert (7 * (P * x) <= 22 * M * x) by nia. nia. }
  set (r := fm M P x) in *. set (r' := fm M P (x + 1)) in *. clearbody r r'.
  apply Z.div_le_mono; [lia|]. rewrite <- (Z.sub_0_r (fm M r (M - g))). apply fm_down; [lia|]. rewrite Z.sub_0_r.
  apply Z.le_trans with ((r + 3) * (M - g')); [|apply Z.mul_le_mono_nonneg_r; lia].
  assert (r * (g' - g) <= r * 2) by (apply Z.mul_le_mono_nonneg_l; lia). lia.
Qed.
End SIN.
Lemma quot_mono M H x y : 0 < M -> 0 < H -> 0 <= x -> x <= y -> Z.quot (x * M) H <= Z.quot (y * M) H.
Proof. intros. apply Z.quot_le_mono; nia. Qed.
Section SINZ.
Variables M P H T TH A B C D : Z.
Hypothesis HM : 1000 <= M.
Hypothesis RP : 3 * M <= P. Hypothesis RP2 : 7 * P <= 22 * M.
Hypothesis RA : 0 <= A. Hypothesis RA2 : 2 * A <= M. Hypothesis RB : 0 <= B. Hypothesis RB2 : 2 * B <= M.
Hypothesis RC : 0 <= C. Hypothesis RC2 : 2 * C <= M. Hypothesis RD : 0 <= D. Hypothesis RD2 : 2 * D <= M.
Hypothesis RH : 14 * M <= 9 * H. Hypothesis RT : M <= T. Hypothesis RTH : 0 <= TH.
(** below 2/3 no reduction takes place *)
Lemma sin_z_low x : TH <= x -> 3 * x <= 2 * M -> sin_z M P H T TH A B C D x = sin_poly_z M P A B C D (Z.quot (x * M) H) /\ 0 <= Z.quot (x * M) H /\ 7 * Z.quot (x * M) H <= 3 * M.
Proof using HM RP RP2 RH RT RTH.
  intros X XM. assert (Q0 : 0 <= Z.quot (x * M) H) by (apply Z.quot_pos; nia).
  assert (Q1 : 7 * Z.quot (x * M) H <= 3 * M).
  { pose proof (Z.mul_quot_le (x * M) H ltac:(nia) ltac:(lia)) as Q. set (q := Z.quot (x * M) H) in *. clearbody q. nia. }
  split; [|auto]. unfold sin_z. assert (Z.rem x T = x) by (apply Z.rem_small; lia).
  assert (SQ : sin_quad M H T x = Z.quot (x * M) H) by (unfold sin_quad; rewrite H0; replace (Z.quot (x * M) H <? 0) with false by lia; reflexivity).
  assert (SN : sin_neg_z M H T x = false) by (unfold sin_neg_z; rewrite SQ; lia).
  assert (SR : sin_red M H T x = Z.quot (x * M) H) by (unfold sin_red; rewrite SN, SQ; replace (M <? Z.quot (x * M) H) with false by lia; reflexivity).
  rewrite SN, SR. replace (Z.abs x <? TH) with false by lia. reflexivity.
Qed.
Lemma sin_z_mono x y : TH <= x -> x <= y -> 3 * y <= 2 * M -> sin_z M P H T TH A B C D x <= sin_z M P H T TH A B C D y.
Proof using HM RP RP2 RA RA2 RB RB2 RC RC2 RD RD2 RH RT RTH.
  intros X XY Y. destruct (sin_z_low x X ltac:(lia)) as (-> & Q0 & _). destruct (sin_z_low y ltac:(lia) Y) as (-> & _ & Q1).
  apply (steps (sin_poly_z M P A B C D) 0 (Z.quot (y * M) H)); try lia.
  - intros z Z. apply sin_step; auto; lia.
  - apply quot_mono; lia.
Qed.
End SINZ.
Lemma sin32_mono x y : 9 <= x -> x <= y -> y <= 43690 -> sin32 x <= sin32 y.
Proof. intros. unfold sin32. change (2 ^ 16) with 65536. apply sin_z_mono; lia. Qed.
Lemma sin64_mono x y : 644245 <= x -> x <= y -> y <= 2863311530 -> sin64 x <= sin64 y.
Proof. intros. unfold sin64. change (2 ^ 32) with 4294967296. apply sin_z_mono; lia. Qed.

(** ** the statements *)
Lemma atan_mono_thm c x y : std c -> (Qabs (qval (cf c) x) <= 9 # 16)%Q -> (Qabs (qval (cf c) y) <= 9 # 16)%Q -> (qval (cf c) x <= qval (cf c) y)%Q ->
  exists p q, fx_atan c x = Ok p /\ fx_atan c y = Ok q /\ (qval (cf c) p <= qval (cf c) q)%Q.
Proof.
  intros HS X Y XY. apply qval_le in XY.
  destruct HS as [-> | ->]; cbn [cf F32 F64] in *; unfold qval, Qabs, Qle in X, Y; cbn [Qnum Qden] in X, Y.
  - change (Z.pos (pow2p 16)) with 65536 in *. exists (atan32 x), (atan32 y). rewrite !atan32_eq by lia. repeat split.
    apply qval_le. apply atan32_mono; lia.
  - change (Z.pos (pow2p 32)) with 4294967296 in *. exists (atan64 x), (atan64 y). rewrite !atan64_eq by lia. repeat split.
    apply qval_le. apply atan64_mono; lia.
Qed.
Lemma sin_mono_thm c x y : std c -> (15 # 100000 <= qval (cf c) x)%Q -> (qval (cf c) x <= qval (cf c) y)%Q -> (qval (cf c) y <= 2 # 3)%Q ->
  exists p q, fx_sin c x = Ok p /\ fx_sin c y = Ok q /\ (qval (cf c) p <= qval (cf c) q)%Q.
Proof.
  intros HS X XY Y. apply qval_le in XY.
  destruct HS as [-> | ->]; cbn [cf F32 F64] in *; unfold qval, Qle in X, Y; cbn [Qnum Qden] in X, Y.
  - change (Z.pos (pow2p 16)) with 65536 in *. exists (sin32 x), (sin32 y).
    rewrite !sin32_eq by (try lia; apply (std_valid F32 s32); cbn [cf F32]; change (2 ^ 16) with 65536; lia). repeat split.
    apply qval_le. apply sin32_mono; lia.
  - change (Z.pos (pow2p 32)) with 4294967296 in *. exists (sin64 x), (sin64 y).
    rewrite !sin64_eq by (try lia; apply (std_valid F64 s64); cbn [cf F64]; change (2 ^ 32) with 4294967296; lia). repeat split.
    apply qval_le. apply sin64_mono; lia.
Qed.
(** neighbours in the wrong order *)
Lemma sin32_down : fx_sin F32 8 = Ok 8 /\ fx_sin F32 9 = Ok 7 /\ fx_sin F32 72051 = Ok 58390 /\ fx_sin F32 72052 = Ok 58389.
Proof. vm_compute. auto. Qed.
Lemma sin64_down : fx_sin F64 4294791732 = Ok 3613995607 /\ fx_sin F64 4294791733 = Ok 3613995606.
Proof. vm_compute. auto. Qed.
Lemma atan_down : fx_atan F32 50005 = Ok 42708 /\ fx_atan F32 50006 = Ok 42707 /\ fx_atan F64 3221225501 = Ok 2763311657 /\ fx_atan F64 3221225502 = Ok 2763311656.
Proof. vm_compute. auto. Qed.
Lemma cos_down : fx_cos F32 3 = Ok 65536 /\ fx_cos F32 4 = Ok 65537.
Proof. vm_compute. auto. Qed.

(** ** the order up to the accuracy *)
Open Scope R_scope.
Lemma atan_real_slope a b c X Y : 0 <= a <= 0.05 -> 0.159 <= b <= 0.16 -> 0 <= c <= 0.328 -> -1 <= X <= 1 -> -1 <= Y <= 1 -> X <= Y ->
  atan_real a b c X <= atan_real a b c Y.
Proof.
  intros Ha Hb Hc HX HY L. unfold atan_real.
  assert (E : ((- a * (Y * Y) + b) * (Y * Y) - c) * (Y * Y) * Y + Y - (((- a * (X * X) + b) * (X * X) - c) * (X * X) * X + X) =
    (Y - X) * (1 - c * (X * X + X * Y + Y * Y) + b * (X ^ 4 + X ^ 3 * Y + X ^ 2 * Y ^ 2 + X * Y ^ 3 + Y ^ 4)
      - a * (X ^ 6 + X ^ 5 * Y + X ^ 4 * Y ^ 2 + X ^ 3 * Y ^ 3 + X ^ 2 * Y ^ 4 + X * Y ^ 5 + Y ^ 6))) by ring.
  assert (0 <= 1 - c * (X * X + X * Y + Y * Y) + b * (X ^ 4 + X ^ 3 * Y + X ^ 2 * Y ^ 2 + X * Y ^ 3 + Y ^ 4)
      - a * (X ^ 6 + X ^ 5 * Y + X ^ 4 * Y ^ 2 + X ^ 3 * Y ^ 3 + X ^ 2 * Y ^ 4 + X * Y ^ 5 + Y ^ 6)).
  { interval with (i_bisect X, i_bisect Y, i_depth 14). }
  nra.
Qed.
Lemma atan_real_opp a b c X : atan_real a b c (- X) = - atan_real a b c X.
Proof. unfold atan_real. ring. Qed.
Lemma rval_le f a b : (a <= b)%Z -> rval f a <= rval f b.
Proof.
  intros L. unfold rval, Rdiv. apply Rmult_le_compat_r; [|apply IZR_le; exact L].
  destruct (Z.le_gt_cases 0 f) as [F|F]; [left; apply Rinv_0_lt_compat, IZR_lt, Z.pow_pos_nonneg; lia|].
  rewrite Z.pow_neg_r by lia. rewrite Rinv_0. lra.
Qed.
Lemma atan32_poly m : (Z.abs m <= 65536)%Z ->
  Rabs (rval 16 (atan32 m) - atan_real (rval 16 3047) (rval 16 10440) (rval 16 21471) (rval 16 m)) <= 8 * ulp 16.
Proof.
  assert (P : forall k, (0 <= k <= 65536)%Z ->
    Rabs (rval 16 (atan_poly_z (2 ^ 16) 3047 10440 21471 k) - atan_real (rval 16 3047) (rval 16 10440) (rval 16 21471) (rval 16 k)) <= 8 * ulp 16)
    by (intros k Hk; exact (atan_poly_err F32 s32 3047 10440 21471 ltac:(lia) ltac:(lia) ltac:(lia) ltac:(reflexivity) k Hk)).
  intros Hm. unfold atan32. destruct (Z.ltb_spec m 0) as [L|L]; [|apply P; lia].
  specialize (P (- m)%Z ltac:(lia)). rewrite rval_opp, atan_real_opp in P. rewrite rval_opp. rewrite <- Rabs_Ropp.
  match goal with |- Rabs ?t <= _ => match type of P with Rabs ?u <= _ => replace t with u by ring end end. exact P.
Qed.
Lemma atan64_poly m : (Z.abs m <= 4294967296)%Z ->
  Rabs (rval 32 (atan64 m) - atan_real (rval 32 199700839) (rval 32 684249364) (rval 32 1407129056) (rval 32 m)) <= 8 * ulp 32.
Proof.
  assert (P : forall k, (0 <= k <= 4294967296)%Z ->
    Rabs (rval 32 (atan_poly_z (2 ^ 32) 199700839 684249364 1407129056 k) - atan_real (rval 32 199700839) (rval 32 684249364) (rval 32 1407129056) (rval 32 k)) <= 8 * ulp 32)
    by (intros k Hk; exact (atan_poly_err F64 s64 199700839 684249364 1407129056 ltac:(lia) ltac:(lia) ltac:(lia) ltac:(reflexivity) k Hk)).
  intros Hm. unfold atan64. destruct (Z.ltb_spec m 0) as [L|L]; [|apply P; lia].
  specialize (P (- m)%Z ltac:(lia)). rewrite rval_opp, atan_real_opp in P. rewrite rval_opp. rewrite <- Rabs_Ropp.
  match goal with |- Rabs ?t <= _ => match type of P with Rabs ?u <= _ => replace t with u by ring end end. exact P.
Qed.
Lemma unit_int32 m : Rabs (rval 16 m) <= 1 -> (Z.abs m <= 65536)%Z.
Proof. intros R. rewrite rval_abs in R. unfold rval in R. change (IZR (2 ^ 16)) with 65536 in R. apply le_IZR. lra. Qed.
Lemma unit_int64 m : Rabs (rval 32 m) <= 1 -> (Z.abs m <= 4294967296)%Z.
Proof. intros R. rewrite rval_abs in R. unfold rval in R. change (IZR (2 ^ 32)) with 4294967296 in R. apply le_IZR. lra. Qed.
Lemma atan_near_thm c x y : std c -> Rabs (rval (cf c) x) <= 1 -> Rabs (rval (cf c) y) <= 1 -> rval (cf c) x <= rval (cf c) y ->
  exists p q, fx_atan c x = Ok p /\ fx_atan c y = Ok q /\ rval (cf c) p <= rval (cf c) q + 16 * ulp (cf c).
Proof.
  intros HS X Y XY. destruct HS as [-> | ->]; cbn [cf F32 F64] in *.
  - exists (atan32 x), (atan32 y). rewrite !atan32_eq by (apply unit_int32; auto). split; [reflexivity|]. split; [reflexivity|].
    pose proof (atan32_poly x (unit_int32 x X)) as P. pose proof (atan32_poly y (unit_int32 y Y)) as Q.
    apply Rabs_inv_le in X. apply Rabs_inv_le in Y. apply Rabs_inv_le in P. apply Rabs_inv_le in Q.
    assert (rval 16 3047 = 3047 / 65536) by reflexivity. assert (rval 16 10440 = 10440 / 65536) by reflexivity. assert (rval 16 21471 = 21471 / 65536) by reflexivity.
    pose proof (atan_real_slope (rval 16 3047) (rval 16 10440) (rval 16 21471) (rval 16 x) (rval 16 y) ltac:(lra) ltac:(lra) ltac:(lra) ltac:(lra) ltac:(lra) XY). lra.
  - exists (atan64 x), (atan64 y). rewrite !atan64_eq by (apply unit_int64; auto). split; [reflexivity|]. split; [reflexivity|].
    pose proof (atan64_poly x (unit_int64 x X)) as P. pose proof (atan64_poly y (unit_int64 y Y)) as Q.
    apply Rabs_inv_le in X. apply Rabs_inv_le in Y. apply Rabs_inv_le in P. apply Rabs_inv_le in Q.
    assert (rval 32 199700839 = 199700839 / 4294967296) by reflexivity. assert (rval 32 684249364 = 684249364 / 4294967296) by reflexivity.
    assert (rval 32 1407129056 = 1407129056 / 4294967296) by reflexivity.
    pose proof (atan_real_slope (rval 32 199700839) (rval 32 684249364) (rval 32 1407129056) (rval 32 x) (rval 32 y) ltac:(lra) ltac:(lra) ltac:(lra) ltac:(lra) ltac:(lra) XY). lra.
Qed.

Lemma range_int f m : (0 <= f)%Z -> 0 <= rval f m -> rval f m <= PI -> (0 <= m <= 4 * 2 ^ f)%Z.
Proof.
  intros F L H. assert (P : 0 < IZR (2 ^ f)) by (apply IZR_lt, Z.pow_pos_nonneg; lia). unfold rval in *.
  assert (HP : PI <= 4) by (pose proof PI_4; lra). split; apply le_IZR.
  - apply Rmult_le_reg_r with (/ IZR (2 ^ f)); [apply Rinv_0_lt_compat; exact P|]. rewrite Rmult_0_l. exact L.
  - rewrite mult_IZR. apply Rmult_le_reg_r with (/ IZR (2 ^ f)); [apply Rinv_0_lt_compat; exact P|].
    replace (4 * IZR (2 ^ f) * / IZR (2 ^ f)) with 4 by (field; lra). unfold Rdiv in H. lra.
Qed.
Lemma sin_near32 x y : 0 <= rval 16 x -> rval 16 x <= rval 16 y -> rval 16 y <= PI / 2 ->
  exists p q, fx_sin F32 x = Ok p /\ fx_sin F32 y = Ok q /\ rval 16 p <= rval 16 q + 33 * ulp 16.
Proof.
  intros X XY Y. pose proof PI_RGT_0 as P0. destruct (range_int 16 x ltac:(lia) ltac:(lra) ltac:(lra)) as (X0 & X1).
  destruct (range_int 16 y ltac:(lia) ltac:(lra) ltac:(lra)) as (Y0 & Y1). change (4 * 2 ^ 16)%Z with 262144%Z in *.
  assert (V : forall m, (0 <= m <= 262144)%Z -> valid F32 m = true) by (intros; apply (std_valid F32 s32); cbn [cf F32]; change (2 ^ 16)%Z with 65536%Z; lia).
  destruct (sin32_thm x (V x ltac:(lia)) ltac:(unfold MIN32; lia)) as (p & EP & _ & AP).
  destruct (sin32_thm y (V y ltac:(lia)) ltac:(unfold MIN32; lia)) as (q & EQ & _ & AQ).
  exists p, q. split; [exact EP|]. split; [exact EQ|].
  assert (S : sin (rval 16 x) <= sin (rval 16 y)) by (apply sin_incr_1; lra).
  assert (HP : PI <= 3.15) by interval. rewrite (Rabs_pos_eq (rval 16 x)) in AP by lra. rewrite (Rabs_pos_eq (rval 16 y)) in AQ by lra.
  apply Rabs_inv_le in AP. apply Rabs_inv_le in AQ. assert (U : ulp 16 = / 65536) by reflexivity. rewrite U in *. lra.
Qed.
Lemma sin_near64 x y : 0 <= rval 32 x -> rval 32 x <= rval 32 y -> rval 32 y <= PI / 2 ->
  exists p q, fx_sin F64 x = Ok p /\ fx_sin F64 y = Ok q /\ rval 32 p <= rval 32 q + 7.43e-6.
Proof.
  intros X XY Y. pose proof PI_RGT_0 as P0. destruct (range_int 32 x ltac:(lia) ltac:(lra) ltac:(lra)) as (X0 & X1).
  destruct (range_int 32 y ltac:(lia) ltac:(lra) ltac:(lra)) as (Y0 & Y1). change (4 * 2 ^ 32)%Z with 17179869184%Z in *.
  assert (V : forall m, (0 <= m <= 17179869184)%Z -> valid F64 m = true) by (intros; apply (std_valid F64 s64); cbn [cf F64]; change (2 ^ 32)%Z with 4294967296%Z; lia).
  destruct (sin64_thm x (V x ltac:(lia)) ltac:(unfold MIN64; lia)) as (p & EP & _ & _ & AP).
  destruct (sin64_thm y (V y ltac:(lia)) ltac:(unfold MIN64; lia)) as (q & EQ & _ & _ & AQ).
  specialize (AP ltac:(left; exact X0)). specialize (AQ ltac:(left; exact Y0)).
  exists p, q. split; [exact EP|]. split; [exact EQ|].
  assert (S : sin (rval 32 x) <= sin (rval 32 y)) by (apply sin_incr_1; lra).
  assert (HP : PI <= 3.15) by interval. rewrite (Rabs_pos_eq (rval 32 x)) in AP by lra. rewrite (Rabs_pos_eq (rval 32 y)) in AQ by lra.
  apply Rabs_inv_le in AP. apply Rabs_inv_le in AQ. assert (U : ulp 32 = / 4294967296) by reflexivity. rewrite U in *. lra.
Qed.
Lemma cos_near32 x y : 0 <= rval 16 x -> rval 16 x <= rval 16 y -> rval 16 y <= PI ->
  exists p q, fx_cos F32 x = Ok p /\ fx_cos F32 y = Ok q /\ rval 16 q <= rval 16 p + 37 * ulp 16.
Proof.
  intros X XY Y. pose proof PI_RGT_0 as P0. destruct (range_int 16 x ltac:(lia) ltac:(lra) ltac:(lra)) as (X0 & X1).
  destruct (range_int 16 y ltac:(lia) ltac:(lra) ltac:(lra)) as (Y0 & Y1). change (4 * 2 ^ 16)%Z with 262144%Z in *.
  assert (V : forall m, (0 <= m <= 262144)%Z -> valid F32 m = true) by (intros; apply (std_valid F32 s32); cbn [cf F32]; change (2 ^ 16)%Z with 65536%Z; lia).
  destruct (cos32_thm x (V x ltac:(lia))) as (p & EP & _ & AP). destruct (cos32_thm y (V y ltac:(lia))) as (q & EQ & _ & AQ).
  exists p, q. split; [exact EP|]. split; [exact EQ|].
  assert (S : cos (rval 16 y) <= cos (rval 16 x)) by (apply cos_decr_1; lra).
  assert (HP : PI <= 3.15) by interval. rewrite (Rabs_pos_eq (rval 16 x)) in AP by lra. rewrite (Rabs_pos_eq (rval 16 y)) in AQ by lra.
  apply Rabs_inv_le in AP. apply Rabs_inv_le in AQ. assert (U : ulp 16 = / 65536) by reflexivity. rewrite U in *. lra.
Qed.
(** between 0 and PI the argument of sin is never tiny *)
Lemma cos64_acc_pi m : (0 <= m <= 13493037705)%Z ->
  Rabs (rval 32 (sin64 (cos_arg 6746518852 20239556556 m)) - cos (rval 32 m)) <= 3.72e-6 + 0.0074 * Rabs (rval 32 m) * ulp 32.
Proof.
  intros H. assert (U : ulp 32 = / 4294967296) by reflexivity.
  assert (B : Rabs (sin (rval 32 (cos_arg 6746518852 20239556556 m)) - cos (rval 32 m)) <= 0.8 * ulp 32).
  { apply cos_sin_arg; [lia| |]; unfold rval, ulp; change (2 ^ 32)%Z with 4294967296%Z; interval with (i_prec 100). }
  pose proof (cos_arg_abs 32 6746518852 20239556556 m ltac:(lia)) as D.
  assert (Rabs (rval 32 6746518852) <= 1.6) by (unfold rval; change (2 ^ 32)%Z with 4294967296%Z; interval with (i_prec 60)).
  assert (Rabs (rval 32 20239556556) <= 4.8) by (unfold rval; change (2 ^ 32)%Z with 4294967296%Z; interval with (i_prec 60)).
  assert (G : (644245 <= Z.abs (cos_arg 6746518852 20239556556 m))%Z) by (unfold cos_arg; destruct (0 <? m)%Z; lia).
  set (k := cos_arg 6746518852 20239556556 m) in *. pose proof (sin64_acc k G) as A.
  set (s := rval 32 (sin64 k)) in *. set (x := rval 32 k) in *.
  replace (s - cos (rval 32 m)) with ((s - sin x) + (sin x - cos (rval 32 m))) by ring.
  eapply Rle_trans; [apply Rabs_triang|]. rewrite U in *. lra.
Qed.
Lemma cos_near64 x y : 0 <= rval 32 x -> rval 32 x <= rval 32 y -> rval 32 y <= PI ->
  exists p q, fx_cos F64 x = Ok p /\ fx_cos F64 y = Ok q /\ rval 32 q <= rval 32 p + 7.45e-6.
Proof.
  intros X XY Y. pose proof PI_RGT_0 as P0. destruct (range_int 32 x ltac:(lia) ltac:(lra) ltac:(lra)) as (X0 & X1).
  destruct (range_int 32 y ltac:(lia) ltac:(lra) ltac:(lra)) as (Y0 & Y1). change (4 * 2 ^ 32)%Z with 17179869184%Z in *.
  assert (V : forall m, (0 <= m <= 17179869184)%Z -> valid F64 m = true) by (intros; apply (std_valid F64 s64); cbn [cf F64]; change (2 ^ 32)%Z with 4294967296%Z; lia).
  assert (HP : PI < 13493037706 / 4294967296) by (interval with (i_prec 80)).
  assert (YP : (y <= 13493037705)%Z).
  { apply Z.lt_succ_r. apply lt_IZR. unfold rval in Y. change (IZR (2 ^ 32)) with 4294967296 in Y. change (Z.succ 13493037705) with 13493037706%Z. lra. }
  assert (XP : (x <= y)%Z). { apply le_IZR. unfold rval in XY. change (IZR (2 ^ 32)) with 4294967296 in XY. lra. }
  pose proof (cos64_acc_pi x ltac:(lia)) as AP. pose proof (cos64_acc_pi y ltac:(lia)) as AQ.
  eexists _, _. split; [apply cos64_eq, V; lia|]. split; [apply cos64_eq, V; lia|].
  assert (S : cos (rval 32 y) <= cos (rval 32 x)) by (apply cos_decr_1; lra).
  rewrite (Rabs_pos_eq (rval 32 x)) in AP by lra. rewrite (Rabs_pos_eq (rval 32 y)) in AQ by lra.
  apply Rabs_inv_le in AP. apply Rabs_inv_le in AQ. assert (U : ulp 32 = / 4294967296) by reflexivity. rewrite U in *. lra.
Qed.
