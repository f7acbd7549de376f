(** hypot of fixed64: accuracy, order, and where it is undefined. *)
From Coq Require Import ZArith QArith Qabs Lia Lqa Bool.
From Verif Require Import Base Fixed Math Spec BaseLemmas SpecLemmas FixedLemmas NewtonProofs RootOrder.
Open Scope Z_scope.

Definition sqr (x : Z) : Z := x * x / 2 ^ 32.
Lemma sqr_pos x : 0 <= sqr x. Proof. unfold sqr. apply Z.div_pos; nia. Qed.
Lemma sqr_mono x y : Z.abs x <= Z.abs y -> sqr x <= sqr y.
Proof. intros. unfold sqr. apply Z.div_le_mono; [lia|]. nia. Qed.
Lemma v64 m : - 2 ^ 63 <= m < 2 ^ 63 -> valid F64 m = true.
Proof. intros. unfold valid, in_range, minv, maxv. cbn. lia. Qed.
Lemma sq_ok x : valid F64 x = true -> sqr x < 2 ^ 63 -> fx_mul F64 x x = Ok (sqr x) /\ valid F64 (sqr x) = true.
Proof.
  intros V B. pose proof (sqr_pos x). assert (S : valid F64 (sqr x) = true) by (apply v64; lia).
  split; auto. rewrite fx_mul_eq by auto. change (2 ^ cf F64) with (2 ^ 32). fold (sqr x). rewrite valid_wrap by auto. reflexivity.
Qed.
Lemma add_ok x y : valid F64 x = true -> valid F64 y = true -> valid F64 (x + y) = true -> fx_add F64 x y = Ok (x + y).
Proof. intros. rewrite fx_add_eq by auto. apply ovf_valid; auto. Qed.

Lemma hypot_eq x y : valid F64 x = true -> valid F64 y = true -> sqr x + sqr y < 2 ^ 63 ->
  fx_hypot F64 x y = fx_sqrt F64 (sqr x + sqr y).
Proof.
  intros X Y B. pose proof (sqr_pos x). pose proof (sqr_pos y).
  destruct (sq_ok x X ltac:(lia)) as [E1 V1]. destruct (sq_ok y Y ltac:(lia)) as [E2 V2].
  unfold fx_hypot. rewrite E1, E2. cbn [bind]. rewrite add_ok by (auto; apply v64; lia). reflexivity.
Qed.
Lemma hypot3_eq x y z : valid F64 x = true -> valid F64 y = true -> valid F64 z = true -> sqr x + sqr y + sqr z < 2 ^ 63 ->
  fx_hypot3 F64 x y z = fx_sqrt F64 (sqr x + sqr y + sqr z).
Proof.
  intros X Y U B. pose proof (sqr_pos x). pose proof (sqr_pos y). pose proof (sqr_pos z).
  destruct (sq_ok x X ltac:(lia)) as [E1 V1]. destruct (sq_ok y Y ltac:(lia)) as [E2 V2]. destruct (sq_ok z U ltac:(lia)) as [E3 V3].
  assert (V4 : valid F64 (sqr x + sqr y) = true) by (apply v64; lia).
  unfold fx_hypot3. rewrite E1, E2. cbn [bind]. rewrite add_ok by auto. cbn [bind]. rewrite E3. cbn [bind].
  rewrite add_ok by (auto; apply v64; lia). reflexivity.
Qed.

(** the root of a non-negative number of ulps, with its square in rationals *)
Lemma sqr_q x : (qval 32 (sqr x) <= qval 32 x * qval 32 x)%Q /\ (qval 32 x * qval 32 x < qval 32 (sqr x) + (1 # 4294967296))%Q.
Proof.
  unfold sqr. change (2 ^ 32) with 4294967296.
  pose proof (Z.div_mod (x * x) 4294967296 ltac:(lia)). pose proof (Z.mod_pos_bound (x * x) 4294967296 ltac:(lia)).
  set (d := x * x / 4294967296) in *. set (xx := x * x) in *.
  assert (E : (qval 32 x * qval 32 x == xx # (4294967296 * 4294967296))%Q) by (unfold qval, xx; reflexivity).
  rewrite E. change (qval 32 d) with (d # 4294967296).
  split; unfold Qle, Qlt, Qplus; cbn [Qnum Qden]; rewrite ?Pos2Z.inj_mul; [lia|].
  apply Z.mul_lt_mono_pos_r; lia.
Qed.
Lemma sqrt_any m : 0 <= m < sqrt64_limit -> exists r, fx_sqrt F64 m = Ok r /\ (0 <= qval 32 r)%Q /\
  (Qabs (qval 32 r * qval 32 r - qval 32 m) < 5 # 65536)%Q /\ (qval 32 m < qval 32 (r + 1) * qval 32 (r + 1))%Q.
Proof.
  intros M. destruct (Z.eq_dec m 0) as [-> |N].
  - exists 0. rewrite sqrt64_zero. repeat split; vm_compute; congruence.
  - destruct (sqrt64_thm m ltac:(lia)) as (r & E & P & A & U & _). exists r. repeat split; auto. lra.
Qed.
Lemma q_add x y : (qval 32 (x + y) == qval 32 x + qval 32 y)%Q.
Proof. unfold qval, Qeq, Qplus. cbn [Qnum Qden]. rewrite Pos2Z.inj_mul. ring. Qed.
Lemma q_lim s : (qval 32 s < qval 32 sqrt64_limit)%Q -> s < sqrt64_limit.
Proof. unfold qval, Qlt. cbn [Qnum Qden]. nia. Qed.

Theorem hypot64_thm x y : valid F64 x = true -> valid F64 y = true ->
  (qval 32 x * qval 32 x + qval 32 y * qval 32 y < qval 32 sqrt64_limit)%Q ->
  exists r, fx_hypot F64 x y = Ok r /\ (0 <= qval 32 r)%Q /\
    (Qabs (qval 32 r * qval 32 r - (qval 32 x * qval 32 x + qval 32 y * qval 32 y)) < (5 # 65536) + (2 # 4294967296))%Q /\
    (qval 32 x * qval 32 x + qval 32 y * qval 32 y < qval 32 (r + 1) * qval 32 (r + 1) + (2 # 4294967296))%Q.
Proof.
  intros X Y B. destruct (sqr_q x) as [X1 X2]. destruct (sqr_q y) as [Y1 Y2]. pose proof (q_add (sqr x) (sqr y)) as QA.
  pose proof (sqr_pos x). pose proof (sqr_pos y).
  assert (L : sqr x + sqr y < sqrt64_limit) by (apply q_lim; lra).
  rewrite hypot_eq by (auto; unfold sqrt64_limit in L; lia).
  destruct (sqrt_any (sqr x + sqr y) ltac:(lia)) as (r & E & P & A & U). exists r. split; auto. split; auto.
  apply Qabs_Qlt_condition in A. split; [apply Qabs_Qlt_condition|]; lra.
Qed.
Theorem hypot3_64_thm x y z : valid F64 x = true -> valid F64 y = true -> valid F64 z = true ->
  (qval 32 x * qval 32 x + qval 32 y * qval 32 y + qval 32 z * qval 32 z < qval 32 sqrt64_limit)%Q ->
  exists r, fx_hypot3 F64 x y z = Ok r /\ (0 <= qval 32 r)%Q /\
    (Qabs (qval 32 r * qval 32 r - (qval 32 x * qval 32 x + qval 32 y * qval 32 y + qval 32 z * qval 32 z)) < (5 # 65536) + (3 # 4294967296))%Q /\
    (qval 32 x * qval 32 x + qval 32 y * qval 32 y + qval 32 z * qval 32 z < qval 32 (r + 1) * qval 32 (r + 1) + (3 # 4294967296))%Q.
Proof.
  intros X Y Z B. destruct (sqr_q x) as [X1 X2]. destruct (sqr_q y) as [Y1 Y2]. destruct (sqr_q z) as [Z1 Z2].
  pose proof (q_add (sqr x) (sqr y)) as QA. pose proof (q_add (sqr x + sqr y) (sqr z)) as QB.
  pose proof (sqr_pos x). pose proof (sqr_pos y). pose proof (sqr_pos z).
  assert (L : sqr x + sqr y + sqr z < sqrt64_limit) by (apply q_lim; lra).
  rewrite hypot3_eq by (auto; unfold sqrt64_limit in L; lia).
  destruct (sqrt_any (sqr x + sqr y + sqr z) ltac:(lia)) as (r & E & P & A & U). exists r. split; auto. split; auto.
  apply Qabs_Qlt_condition in A. split; [apply Qabs_Qlt_condition|]; lra.
Qed.

(** between the limit and the top of the range the root inside is undefined *)
Theorem hypot64_undefined x y : valid F64 x = true -> valid F64 y = true ->
  (qval 32 sqrt64_limit + (2 # 4294967296) <= qval 32 x * qval 32 x + qval 32 y * qval 32 y)%Q ->
  (qval 32 x * qval 32 x + qval 32 y * qval 32 y < 2147483648)%Q -> fx_hypot F64 x y = UB.
Proof.
  intros X Y L B. destruct (sqr_q x) as [X1 X2]. destruct (sqr_q y) as [Y1 Y2]. pose proof (q_add (sqr x) (sqr y)) as QA.
  assert (T : sqr x + sqr y < 2 ^ 63).
  { assert (Q : (qval 32 (sqr x + sqr y) < 2147483648)%Q) by lra. unfold qval, Qlt in Q. cbn [Qnum Qden] in Q.
    change (Z.pos (pow2p 32)) with 4294967296 in Q. lia. }
  assert (U : sqrt64_limit <= sqr x + sqr y).
  { apply q32_le. lra. }
  rewrite hypot_eq by auto. apply sqrt64_overflow. lia.
Qed.

(** longer legs never shorten the result by more than 0.0088; legs whose squares differ by 5/65536 and two ulps keep the order *)
Theorem hypot64_order x y x' y' : valid F64 x = true -> valid F64 y = true -> valid F64 x' = true -> valid F64 y' = true ->
  (Qabs (qval 32 x) <= Qabs (qval 32 x'))%Q -> (Qabs (qval 32 y) <= Qabs (qval 32 y'))%Q ->
  (qval 32 x' * qval 32 x' + qval 32 y' * qval 32 y' < qval 32 sqrt64_limit)%Q ->
  exists r r', fx_hypot F64 x y = Ok r /\ fx_hypot F64 x' y' = Ok r' /\ (qval 32 r <= qval 32 r' + qval 32 37515000)%Q /\
    ((qval 32 x * qval 32 x + qval 32 y * qval 32 y + ((5 # 65536) + (2 # 4294967296)) <= qval 32 x' * qval 32 x' + qval 32 y' * qval 32 y')%Q ->
     (qval 32 r <= qval 32 r')%Q).
Proof.
  intros X Y X' Y' Lx Ly B. destruct (sqr_q x) as [X1 X2]. destruct (sqr_q y) as [Y1 Y2].
  destruct (sqr_q x') as [X1' X2']. destruct (sqr_q y') as [Y1' Y2'].
  pose proof (q_add (sqr x) (sqr y)) as QA. pose proof (q_add (sqr x') (sqr y')) as QA'.
  assert (Ax : sqr x <= sqr x') by (apply sqr_mono; unfold qval, Qabs, Qle in Lx; cbn [Qnum Qden] in Lx; nia).
  assert (Ay : sqr y <= sqr y') by (apply sqr_mono; unfold qval, Qabs, Qle in Ly; cbn [Qnum Qden] in Ly; nia).
  pose proof (sqr_pos x). pose proof (sqr_pos y).
  assert (L : sqr x' + sqr y' < sqrt64_limit) by (apply q_lim; lra).
  rewrite !hypot_eq by (auto; unfold sqrt64_limit in L; lia).
  destruct (sqrt64_fall (sqr x + sqr y) (sqr x' + sqr y') ltac:(lia) L) as (r & r' & E & E' & D).
  exists r, r'. repeat split; auto.
  - rewrite <- q_add. apply q32_le. lia.
  - intros A. destruct (sqrt64_apart (sqr x + sqr y) (sqr x' + sqr y') ltac:(lia) L) as (s & s' & F & F' & G).
    + change (5 # 65536)%Q with (5 # 65536) in A. assert (Q : (qval 32 (sqr x + sqr y) + qval 32 327680 < qval 32 (sqr x' + sqr y' + 1))%Q).
      { rewrite q_add with (y := 1). change (qval 32 327680) with (327680 # 4294967296). change (qval 32 1) with (1 # 4294967296).
        setoid_replace (327680 # 4294967296)%Q with (5 # 65536)%Q by reflexivity. lra. }
      rewrite <- q_add in Q. unfold qval, Qlt in Q. cbn [Qnum Qden] in Q. nia.
    + rewrite E in F. rewrite E' in F'. injection F as <-. injection F' as <-. apply q32_le. exact G.
Qed.
