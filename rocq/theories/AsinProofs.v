(** asin and acos: domain, constants, and (fixed32) definedness on [-1, 1] by evaluating every argument. *)
From Coq Require Import ZArith Lia Bool.
From Verif Require Import Base Fixed Math Spec BaseLemmas FixedLemmas CLemmas InspectProofs MathProofs SqrtProofs PowProofs StdProofs.
Open Scope Z_scope.

Section DOM.
Variable c : cfg.
Hypothesis HS : std c.
Let M := 2 ^ cf c.
Lemma as_sv k : - (8 * M) <= k <= 8 * M -> valid c k = true.
Proof. intros Hk. apply std_valid; auto. pose proof (std_M c HS) as HM. fold M in HM |- *. nia. Qed.
Lemma as_int k : -8 <= k <= 8 -> fx_of_int c k = Ok (k * M).
Proof. intros. pose proof (std_M c HS) as HM. fold M in HM. apply s_int; auto. apply as_sv. fold M. nia. Qed.
Lemma pi_ok : exists P, pi_v c = Ok P /\ 0 <= P <= 4 * M.
Proof. unfold M. destruct HS as [-> | ->]; [exists 205887|exists 13493037704]; split; try reflexivity; cbn [cf F32 F64]; lia. Qed.

Lemma asin_domain m : valid c m = true -> valid c (- m) = true -> M < Z.abs m ->
  fx_asin c m = Throw domain_error /\ fx_acos c m = Throw domain_error.
Proof.
  intros V V' L. pose proof (std_M c HS) as HM. fold M in HM. destruct pi_ok as (P & EP & RP).
  assert (VA : valid c (Z.abs m) = true) by (destruct (Z.abs_spec m) as [[_ ->]|[_ ->]]; auto).
  unfold fx_asin, fx_acos. rewrite EP. cbn [bind]. rewrite s_abs by auto. cbn [bind]. rewrite !as_int by lia. cbn [bind].
  rewrite s_gt by (auto; apply as_sv; lia). replace (1 * M <? Z.abs m) with true by (clear - L; lia). auto.
Qed.
Lemma asin_in m : valid c m = true -> Z.abs m < M ->
  fx_asin c m =
  (let* p := fx_mul c m m in let* d := fx_sub c M p in let* s := fx_sqrt c d in let* q := fx_div c m s in fx_atan c q).
Proof.
  intros V L. pose proof (std_M c HS) as HM. fold M in HM. destruct pi_ok as (P & EP & RP).
  unfold fx_asin. rewrite EP. cbn [bind]. rewrite s_abs by (auto; apply as_sv; lia). cbn [bind]. rewrite !as_int by lia. cbn [bind].
  rewrite s_gt by (auto; apply as_sv; lia). rewrite !s_eq by (auto; apply as_sv; lia).
  replace (1 * M <? Z.abs m) with false by (clear - L; lia).
  replace (m =? 1 * M) with false by (clear - L; lia). replace (m =? -1 * M) with false by (clear - L; lia).
  rewrite Z.mul_1_l. reflexivity.
Qed.
Lemma acos_in m a : valid c m = true -> Z.abs m < M -> m <> 0 -> fx_asin c m = Ok a ->
  fx_acos c m = (let* pi := pi_v c in let* h := fx_div_int c int32 pi 2 in fx_sub c h a).
Proof.
  intros V L N E. pose proof (std_M c HS) as HM. fold M in HM. destruct pi_ok as (P & EP & RP).
  unfold fx_acos. rewrite EP. cbn [bind]. rewrite s_abs by (auto; apply as_sv; lia). cbn [bind]. rewrite !as_int by lia. cbn [bind].
  rewrite s_gt by (auto; apply as_sv; lia). rewrite !s_eq by (auto; apply as_sv; lia).
  replace (1 * M <? Z.abs m) with false by (clear - L; lia).
  replace (m =? 1 * M) with false by (clear - L; lia). replace (m =? -1 * M) with false by (clear - L; lia).
  replace (m =? 0 * M) with false by (clear - N; lia). rewrite E. reflexivity.
Qed.
End DOM.

(** ** fixed32: every argument of (-1, 1) *)
Definition asin32_fast (m : Z) : res Z :=
  fx_atan F32 (Z.quot (m * 65536) (Z.sqrt ((65536 - m * m / 65536) * 65536))).
Lemma f32 : std F32. Proof. left; reflexivity. Qed.
Lemma asin32_fast_eq m : Z.abs m < 65536 -> fx_asin F32 m = asin32_fast m.
Proof.
  intros L.
  assert (SV : forall k, - 2147483648 <= k < 2147483648 -> valid F32 k = true).
  { intros k Hk. apply (std_valid F32 f32). cbn [cf F32]. change (2 ^ 16) with 65536. lia. }
  rewrite (asin_in F32 f32) by (try (apply SV; lia); exact L).
  assert (P : 0 <= m * m / 65536 <= 65535).
  { split; [apply Z.div_pos; nia|]. apply Z.lt_succ_r. apply Z.div_lt_upper_bound; nia. }
  change (2 ^ cf F32) with 65536.
  rewrite (s_mul F32 f32) by (apply SV; change (2 ^ cf F32) with 65536; lia). change (2 ^ cf F32) with 65536. cbn [bind].
  set (p := m * m / 65536) in *.
  rewrite (s_sub F32 f32) by (apply SV; lia). cbn [bind].
  destruct (sqrt32_eq F32 (65536 - p)) as (r & E & B & Lo & Up); [split; reflexivity|apply SV; lia|lia|].
  change (2 ^ 16) with 65536 in *.
  assert (Rr : r = Z.sqrt ((65536 - p) * 65536)).
  { symmetry. apply Z.sqrt_unique. unfold Z.succ. nia. }
  assert (R0 : 0 < r) by nia. assert (R1 : r <= 65536) by nia.
  rewrite E. cbn [bind]. assert (R2 : 256 <= r) by nia.
  assert (QB : Z.abs (Z.quot (m * 65536) r) <= 65536 * 65536 / 256).
  { rewrite <- Z.quot_abs by lia. rewrite (Z.abs_eq r) by lia. apply Z.quot_le_upper_bound; [lia|].
    change (65536 * 65536 / 256) with 16777216. nia. }
  change (65536 * 65536 / 256) with 16777216 in QB.
  rewrite (s_div F32 f32) by (try (apply SV; change (2 ^ cf F32) with 65536; lia); lia).
  cbn [bind]. unfold asin32_fast. fold p. rewrite Rr. reflexivity.
Qed.
(** a quick evaluator of the atan polynomial, shown equal to the model's *)
Definition w32 (x : Z) : Z := (x + 2147483648) mod 4294967296 - 2147483648.
Definition mulw (u v : Z) : Z := w32 (Z.shiftr (u * v) 16).
Definition inr (s : Z) : bool := (-2147483648 <=? s) && (s <=? 2147483647).
Definition atan_fast (x : Z) : option Z :=
  let x2 := mulw x x in
  let r1 := mulw (-3047) x2 + 10440 in
  if inr r1 then
    let r2 := mulw r1 x2 - 21471 in
    if inr r2 then
      let r3 := mulw (mulw r2 x2) x + x in
      if inr r3 then Some r3 else None
    else None
  else None.
Lemma w32_wrap x : w32 x = wrap int32 x.
Proof.
  assert (B : -2147483648 <= w32 x < 2147483648).
  { unfold w32. pose proof (Z.mod_pos_bound (x + 2147483648) 4294967296 ltac:(lia)). lia. }
  symmetry. apply (wrap_unique int32 x (w32 x) (- ((x + 2147483648) / 4294967296))); [reflexivity| |].
  - apply in_range_iff. change (minv int32) with (-2147483648). change (maxv int32) with 2147483647. lia.
  - unfold w32. change (2 ^ bits int32) with 4294967296.
    pose proof (Z.div_mod (x + 2147483648) 4294967296 ltac:(lia)). lia.
Qed.
Lemma inr_valid s : inr s = true <-> valid F32 s = true.
Proof.
  rewrite (std_valid F32 f32). cbn [cf F32]. change (2 ^ 16) with 65536. unfold inr. rewrite andb_true_iff, !Z.leb_le. lia.
Qed.
Lemma mulw_valid u v : valid F32 (mulw u v) = true.
Proof. unfold mulw. rewrite w32_wrap. apply wrap_range. reflexivity. Qed.
Lemma mulw_eq u v : valid F32 u = true -> valid F32 v = true -> fx_mul F32 u v = Ok (mulw u v).
Proof.
  intros. rewrite fx_mul_eq by (first [assumption|reflexivity]). unfold mulw. rewrite w32_wrap. rewrite Z.shiftr_div_pow2 by lia. reflexivity.
Qed.
Lemma some_inj (a b : Z) : Some a = Some b -> a = b.
Proof. congruence. Qed.
Lemma atan_fast_eq x r : valid F32 x = true -> atan_fast x = Some r -> atan_poly F32 x = Ok r.
Proof.
  intros V. unfold atan_fast, atan_poly. cbv zeta.
  change (atan_a F32) with (@Ok Z (-3047)). change (atan_b F32) with (@Ok Z 10440). change (atan_c F32) with (@Ok Z 21471). cbn [bind].
  rewrite mulw_eq by (first [assumption|apply mulw_valid|reflexivity]). cbn [bind]. set (x2 := mulw x x). assert (V2 : valid F32 x2 = true) by apply mulw_valid.
  rewrite mulw_eq by (first [assumption|apply mulw_valid|reflexivity]). cbn [bind]. pose proof (mulw_valid (-3047) x2) as V3. set (r1 := mulw (-3047) x2) in *.
  destruct (inr (r1 + 10440)) eqn:I1; [|discriminate]. apply inr_valid in I1.
  rewrite (s_add F32 f32) by (first [assumption|reflexivity]). cbn [bind]. rewrite mulw_eq by (first [assumption|apply mulw_valid|reflexivity]). cbn [bind].
  pose proof (mulw_valid (r1 + 10440) x2) as V4. set (r2 := mulw (r1 + 10440) x2) in *.
  destruct (inr (r2 - 21471)) eqn:I2; [|discriminate]. apply inr_valid in I2.
  rewrite (s_sub F32 f32) by (first [assumption|reflexivity]). cbn [bind]. rewrite mulw_eq by (first [assumption|apply mulw_valid|reflexivity]). cbn [bind].
  pose proof (mulw_valid (r2 - 21471) x2) as V5. rewrite mulw_eq by (first [assumption|apply mulw_valid|reflexivity]). cbn [bind].
  pose proof (mulw_valid (mulw (r2 - 21471) x2) x) as V6.
  destruct (inr (mulw (mulw (r2 - 21471) x2) x + x)) eqn:I3; [|discriminate]. apply inr_valid in I3.
  intros E. apply some_inj in E. rewrite <- E. apply (s_add F32 f32); assumption.
Qed.
(** no undefined step, and pi/2 can be added to or subtracted from the result, for 0 <= m < 1 *)
Definition asin_q (m : Z) : Z := Z.quot (m * 65536) (Z.sqrt ((65536 - m * m / 65536) * 65536)).
Definition asin_ok (m : Z) : bool :=
  match atan_fast (asin_q m) with Some r => (-2147380000 <=? r) && (r <=? 2147380000) | _ => false end.
Fixpoint all_from (f : Z -> bool) (n : nat) (m : Z) : bool :=
  match n with O => true | S k => f m && all_from f k (m + 1) end.
Lemma all_from_ok f n m : all_from f n m = true -> forall k, m <= k < m + Z.of_nat n -> f k = true.
Proof.
  revert m. induction n as [|n IH]; intros m H k Hk; [lia|].
  cbn [all_from] in H. apply andb_true_iff in H. destruct H as [H1 H2].
  destruct (Z.eq_dec k m) as [->|]; auto. apply (IH (m + 1)); auto. lia.
Qed.
Definition asin_m0 : Z := 64856.
Lemma asin_rest : all_from asin_ok (Z.to_nat (65536 - asin_m0)) asin_m0 = true.
Proof. vm_cast_no_check (eq_refl true). Qed.
Lemma div_bnd a b k : 0 < k -> - (b * k) <= a <= b * k -> - b <= a / k <= b.
Proof. intros Hk H. split; [apply Z.div_le_lower_bound|apply Z.div_le_upper_bound]; lia. Qed.
(** below [asin_m0] the quotient is small enough for no product to wrap *)
Lemma asin_small m : 0 <= m < asin_m0 -> asin_q m <= 452000.
Proof.
  unfold asin_m0. intros L. unfold asin_q.
  assert (P : 0 <= m * m / 65536 <= 64182).
  { split; [apply Z.div_pos; nia|]. apply Z.lt_succ_r. apply Z.div_lt_upper_bound; nia. }
  set (p := m * m / 65536) in *.
  assert (S : 9419 <= Z.sqrt ((65536 - p) * 65536)).
  { change 9419 with (Z.sqrt ((65536 - 64182) * 65536)). apply Z.sqrt_le_mono. lia. }
  apply Z.quot_le_upper_bound; nia.
Qed.
Lemma mulw_small u v b : - (b * 65536) <= u * v <= b * 65536 -> b <= 2147483647 -> - b <= mulw u v <= b /\ mulw u v = u * v / 65536.
Proof.
  intros H B. unfold mulw. rewrite w32_wrap. rewrite Z.shiftr_div_pow2 by lia. change (2 ^ 16) with 65536.
  pose proof (div_bnd (u * v) b 65536 ltac:(lia) H) as D. rewrite wrap_id; auto.
  apply in_range_iff. change (minv int32) with (-2147483648). change (maxv int32) with 2147483647. lia.
Qed.
Lemma atan_small x : 0 <= x <= 452000 -> exists r, atan_fast x = Some r /\ -2147380000 <= r <= 2147380000.
Proof.
  intros Hx. unfold atan_fast. cbv zeta.
  destruct (mulw_small x x 3117432) as [B2 E2]; [nia|lia|].
  assert (P2 : 0 <= mulw x x) by (rewrite E2; apply Z.div_pos; nia).
  set (x2 := mulw x x) in *.
  destruct (mulw_small (-3047) x2 144942) as [B3 E3]; [nia|lia|]. 
  assert (N3 : mulw (-3047) x2 <= 0) by (rewrite E3; apply Z.div_le_upper_bound; nia).
  set (r1 := mulw (-3047) x2) in *.
  assert (I1 : inr (r1 + 10440) = true) by (unfold inr; lia). rewrite I1.
  destruct (mulw_small (r1 + 10440) x2 6398100) as [B4 _]; [nia|lia|]. set (r2 := mulw (r1 + 10440) x2) in *.
  assert (I2 : inr (r2 - 21471) = true) by (unfold inr; lia). rewrite I2.
  destruct (mulw_small (r2 - 21471) x2 305368000) as [B5 _]; [nia|lia|]. set (r3 := mulw (r2 - 21471) x2) in *.
  destruct (mulw_small r3 x 2106120000) as [B6 _]; [nia|lia|]. set (r4 := mulw r3 x) in *.
  assert (I3 : inr (r4 + x) = true) by (unfold inr; lia). rewrite I3.
  exists (r4 + x). split; auto. lia.
Qed.
Lemma asin_q_opp m : asin_q (- m) = - asin_q m.
Proof.
  unfold asin_q. rewrite Z.mul_opp_opp. rewrite Z.mul_opp_l.
  destruct (Z.eq_dec (Z.sqrt ((65536 - m * m / 65536) * 65536)) 0) as [E|N].
  - rewrite E. destruct (m * 65536); reflexivity.
  - apply Z.quot_opp_l; auto.
Qed.
Lemma asin_q_bnd m : 0 <= m < 65536 -> 0 <= asin_q m <= 16777216.
Proof.
  intros L. unfold asin_q.
  assert (P : 0 <= m * m / 65536 <= 65535).
  { split; [apply Z.div_pos; nia|]. apply Z.lt_succ_r. apply Z.div_lt_upper_bound; nia. }
  set (p := m * m / 65536) in *.
  assert (S : 256 <= Z.sqrt ((65536 - p) * 65536)).
  { change 256 with (Z.sqrt 65536). apply Z.sqrt_le_mono. lia. }
  split; [apply Z.quot_pos; lia|]. apply Z.quot_le_upper_bound; nia.
Qed.
(** asin never meets undefined behaviour on (-1, 1) *)
Lemma asin32_total m : Z.abs m < 65536 -> exists r, fx_asin F32 m = Ok r /\ -2147380000 <= r <= 2147380000.
Proof.
  assert (SV : forall k, - 2147483648 <= k < 2147483648 -> valid F32 k = true).
  { intros k Hk. apply (std_valid F32 f32). cbn [cf F32]. change (2 ^ 16) with 65536. lia. }
  assert (P : forall k, 0 <= k < 65536 -> exists r, atan_poly F32 (asin_q k) = Ok r /\ -2147380000 <= r <= 2147380000).
  { intros k Hk. destruct (Z.lt_ge_cases k asin_m0) as [S|S].
    { pose proof (asin_q_bnd k Hk). pose proof (asin_small k ltac:(lia)).
      destruct (atan_small (asin_q k) ltac:(lia)) as (r & E & B). exists r. split; auto. apply atan_fast_eq; auto. apply SV; lia. }
    pose proof (all_from_ok asin_ok (Z.to_nat (65536 - asin_m0)) asin_m0 asin_rest k
      ltac:(rewrite Z2Nat.id by (unfold asin_m0; lia); unfold asin_m0 in *; lia)) as E. unfold asin_ok in E.
    destruct (atan_fast (asin_q k)) as [r|] eqn:EF; [|discriminate]. exists r.
    pose proof (asin_q_bnd k Hk). split; [apply atan_fast_eq; auto; apply SV; lia|].
    apply andb_true_iff in E. rewrite !Z.leb_le in E. exact E. }
  intros L. rewrite asin32_fast_eq by auto. unfold asin32_fast. fold (asin_q m).
  assert (EA : exists r, atan_poly F32 (Z.abs (asin_q m)) = Ok r /\ -2147380000 <= r <= 2147380000 /\ Z.abs (asin_q m) <= 16777216).
  { destruct (Z.le_gt_cases 0 m).
    - pose proof (asin_q_bnd m ltac:(lia)). rewrite Z.abs_eq by lia. destruct (P m ltac:(lia)) as (r & E & B). exists r. auto with zarith.
    - pose proof (asin_q_bnd (- m) ltac:(lia)) as Q. rewrite asin_q_opp in Q. rewrite Z.abs_neq by lia.
      rewrite <- asin_q_opp. destruct (P (- m) ltac:(lia)) as (r & E & B). exists r. rewrite asin_q_opp. rewrite asin_q_opp in E. auto with zarith. }
  destruct EA as (r & E & B & QB). unfold fx_atan. rewrite (s_abs F32 f32) by (apply SV; lia). cbn [bind]. rewrite E. cbn [bind].
  change (signbit_mask F32) with (@Ok Z (-2147483648)). cbn [bind].
  destruct (negb _).
  - exists (- r). rewrite (s_neg F32 f32) by (apply SV; lia). split; [auto|lia].
  - exists r. split; [auto|lia].
Qed.
Lemma asin32_def m : Z.abs m <= 65536 -> exists r, fx_asin F32 m = Ok r /\ valid F32 r = true.
Proof.
  intros L. destruct (Z.eq_dec (Z.abs m) 65536) as [E|N].
  - assert (D : m = 65536 \/ m = -65536) by lia. destruct D as [-> | ->]; [exists 102943|exists (-102943)]; split; reflexivity.
  - destruct (asin32_total m ltac:(lia)) as (r & A & B). exists r; split; auto.
    apply (std_valid F32 f32). cbn [cf F32]. change (2 ^ 16) with 65536. lia.
Qed.
Lemma acos32_def m : Z.abs m <= 65536 -> exists r, fx_acos F32 m = Ok r /\ valid F32 r = true.
Proof.
  intros L.
  assert (SV : forall k, - 2147483648 <= k < 2147483648 -> valid F32 k = true).
  { intros k Hk. apply (std_valid F32 f32). cbn [cf F32]. change (2 ^ 16) with 65536. lia. }
  destruct (Z.eq_dec (Z.abs m) 65536) as [E|N].
  - assert (D : m = 65536 \/ m = -65536) by lia. destruct D as [-> | ->]; [exists 0|exists 205887]; split; reflexivity.
  - destruct (Z.eq_dec m 0) as [->|NZ]; [exists 102943; split; reflexivity|].
    destruct (asin32_total m ltac:(lia)) as (a & A & B).
    rewrite (acos_in F32 f32 m a) by (auto; try (apply SV; lia); change (2 ^ cf F32) with 65536; lia).
    change (pi_v F32) with (@Ok Z 205887). cbn [bind]. change (fx_div_int F32 int32 205887 2) with (@Ok Z 102943). cbn [bind].
    exists (102943 - a). split; [apply (s_sub F32 f32)|]; apply SV; lia.
Qed.
