(** asin and acos of fixed32 keep the order of arguments below 0.49. *)
From Coq Require Import ZArith QArith Qabs Lia Bool.
From Verif Require Import Base Fixed Math Spec BaseLemmas FixedLemmas CLemmas StdProofs SinThms AsinProofs RootLaws AtanProofs OrderProofs.
Open Scope Z_scope.

Definition asin_arg (m s : Z) : Z := Z.quot (m * 65536) s.
Lemma asin32_form m : Z.abs m <= 32112 -> exists s, fx_asin F32 m = Ok (atan32 (asin_arg m s)) /\ Z.abs (asin_arg m s) <= 36864 /\
  0 < s /\ s * s <= (65536 - m * m / 65536) * 65536 < (s + 1) * (s + 1).
Proof.
  intros L. assert (PM : 0 <= m * m <= 32112 * 32112) by nia.
  assert (P : 0 <= m * m / 65536 <= 15734) by (split; [apply Z.div_pos; lia|apply Z.lt_succ_r, Z.div_lt_upper_bound; lia]).
  destruct (sqrt32_raw (65536 - m * m / 65536)) as (s & E & V & S0 & S1 & S2); [apply v32; lia|lia|].
  assert (S : 57129 <= s <= 65536) by nia. exists s. unfold asin_arg.
  assert (Q : Z.abs (Z.quot (m * 65536) s) <= 36864).
  { rewrite <- Z.quot_abs by lia. rewrite (Z.abs_eq s) by lia. apply Z.lt_succ_r, Z.quot_lt_upper_bound; lia. }
  split; [|split; [exact Q|lia]]. rewrite (asin_in F32 s32) by (try apply v32; change (2 ^ cf F32) with 65536; lia). change (2 ^ cf F32) with 65536.
  rewrite (s_mul F32 s32) by (apply v32; change (2 ^ cf F32) with 65536; lia). change (2 ^ cf F32) with 65536. cbn [bind].
  rewrite (s_sub F32 s32) by (apply v32; lia). cbn [bind]. rewrite E. cbn [bind].
  rewrite (s_div F32 s32) by (try apply v32; change (2 ^ cf F32) with 65536; lia). change (2 ^ cf F32) with 65536. cbn [bind].
  apply atan32_eq. lia.
Qed.
Lemma asin_arg_mono x y s t : Z.abs x <= 32112 -> Z.abs y <= 32112 -> x <= y -> 0 < s -> 0 < t ->
  s * s <= (65536 - x * x / 65536) * 65536 < (s + 1) * (s + 1) -> t * t <= (65536 - y * y / 65536) * 65536 < (t + 1) * (t + 1) ->
  asin_arg x s <= asin_arg y t.
Proof.
  assert (POS : forall x y s t, 0 <= x -> x <= y -> 0 < s -> 0 < t -> s * s <= (65536 - x * x / 65536) * 65536 < (s + 1) * (s + 1) ->
    t * t <= (65536 - y * y / 65536) * 65536 < (t + 1) * (t + 1) -> asin_arg x s <= asin_arg y t).
  { clear. intros x y s t X XY S T HS HT. assert (x * x / 65536 <= y * y / 65536) by (apply Z.div_le_mono; nia).
    assert (t <= s) by nia. unfold asin_arg. rewrite !Z.quot_div_nonneg by lia.
    apply Z.le_trans with (y * 65536 / s); [apply Z.div_le_mono; lia|]. apply Z.div_le_compat_l; lia. }
  assert (OPP : forall x s, 0 < s -> asin_arg (- x) s = - asin_arg x s).
  { clear. intros x s S. unfold asin_arg. rewrite Z.mul_opp_l, Z.quot_opp_l by lia. reflexivity. }
  assert (NN : forall x s, 0 <= x -> 0 < s -> 0 <= asin_arg x s) by (clear; intros; apply Z.quot_pos; lia).
  intros X Y XY S T HS HT. destruct (Z_le_gt_dec 0 x) as [C|C]; [apply POS; auto|].
  assert (EX : asin_arg x s = - asin_arg (- x) s) by (rewrite OPP by lia; lia). destruct (Z_le_gt_dec 0 y) as [C'|C'].
  - pose proof (NN (- x) s ltac:(lia) S). pose proof (NN y t C' T). lia.
  - assert (EY : asin_arg y t = - asin_arg (- y) t) by (rewrite OPP by lia; lia). rewrite EX, EY.
    assert (asin_arg (- y) t <= asin_arg (- x) s); [|lia]. apply POS; try lia; rewrite Z.mul_opp_opp; assumption.
Qed.
Lemma acos32_form m a : Z.abs m <= 32112 -> fx_asin F32 m = Ok a -> fx_acos F32 m = Ok (102943 - a).
Proof.
  intros L E. destruct (asin32_form m L) as (s & E' & Q & S & _). rewrite E in E'. injection E' as ->.
  destruct (Z.eq_dec m 0) as [-> |N].
  - unfold asin_arg. rewrite Z.mul_0_l, Z.quot_0_l by lia. vm_compute. reflexivity.
  - rewrite (acos_in F32 s32 m (atan32 (asin_arg m s))) by (auto; try apply v32; change (2 ^ cf F32) with 65536; lia).
    change (pi_v F32) with (@Ok Z 205887). cbn [bind]. change (fx_div_int F32 int32 205887 2) with (@Ok Z 102943). cbn [bind].
    assert (B : Z.abs (atan32 (asin_arg m s)) <= 36864).
    { assert (Q1 : - 36864 <= asin_arg m s <= 36864) by lia. pose proof (atan32_mono (- 36864) (asin_arg m s) ltac:(lia) ltac:(lia) ltac:(lia)) as B1.
      pose proof (atan32_mono (asin_arg m s) 36864 ltac:(lia) ltac:(lia) ltac:(lia)) as B2.
      change (atan32 (- 36864)) with (-33575) in B1. change (atan32 36864) with 33575 in B2. lia. }
    apply (s_sub F32 s32); apply v32; lia.
Qed.
Lemma asin_mono_thm x y : (Qabs (qval 16 x) <= 49 # 100)%Q -> (Qabs (qval 16 y) <= 49 # 100)%Q -> (qval 16 x <= qval 16 y)%Q ->
  exists p q p' q', fx_asin F32 x = Ok p /\ fx_asin F32 y = Ok q /\ (qval 16 p <= qval 16 q)%Q /\
    fx_acos F32 x = Ok p' /\ fx_acos F32 y = Ok q' /\ (qval 16 q' <= qval 16 p')%Q.
Proof.
  intros X Y XY. apply BaseLemmas.qval_le in XY. unfold qval, Qabs, Qle in X, Y. cbn [Qnum Qden] in X, Y. change (Z.pos (pow2p 16)) with 65536 in *.
  destruct (asin32_form x ltac:(lia)) as (s & EX & QX & S & HS). destruct (asin32_form y ltac:(lia)) as (t & EY & QY & T & HT).
  pose proof (asin_arg_mono x y s t ltac:(lia) ltac:(lia) XY S T HS HT) as A.
  pose proof (atan32_mono (asin_arg x s) (asin_arg y t) ltac:(lia) A ltac:(lia)) as R.
  exists (atan32 (asin_arg x s)), (atan32 (asin_arg y t)), (102943 - atan32 (asin_arg x s)), (102943 - atan32 (asin_arg y t)).
  split; [exact EX|]. split; [exact EY|]. split; [apply BaseLemmas.qval_le; exact R|].
  split; [apply acos32_form; [lia|exact EX]|]. split; [apply acos32_form; [lia|exact EY]|]. apply BaseLemmas.qval_le. lia.
Qed.
