(** The cube root iteration (math.hpp:364-380) on non-negative values. *)
From Coq Require Import ZArith Bool List Lia ZifyBool.
From Verif Require Import Base Fixed Math BaseLemmas FixedLemmas CLemmas MathProofs PowProofs StdProofs ArithProofs.
Open Scope Z_scope.

Lemma cube_mono a b : 0 <= a <= b -> a * a * a <= b * b * b.
Proof.
  intros H. assert (a * a <= b * b) by (apply Z.mul_le_mono_nonneg; lia).
  apply Z.mul_le_mono_nonneg; try lia; apply Z.mul_nonneg_nonneg; lia.
Qed.
Lemma cube_root_ex N : 0 < N -> exists C, 1 <= C /\ (C - 1) * (C - 1) * (C - 1) < N <= C * C * C.
Proof.
  intros H. replace N with (Z.succ (N - 1)) by lia. assert (G : 0 <= N - 1) by lia. revert G. generalize (N - 1). clear.
  apply natlike_ind.
  - exists 1. lia.
  - intros x H (C & H1 & H2). destruct (Z.leb_spec (Z.succ (Z.succ x)) (C * C * C)).
    + exists C. lia.
    + exists (C + 1). replace (C + 1 - 1) with C by lia. split; [lia|]. split; [lia|]. nia.
Qed.

(** one step and the cube, on integers *)
Definition cbq (M m x : Z) := m * M / (x * x / M).
Definition cbn1 (M m x : Z) := (cbq M m x + 2 * x) / 3.
Definition cbc (M x : Z) := x * x / M * x / M.

Section STEP.
Variables M m C x : Z.
Hypothesis HM : 0 < M.
Hypothesis Hm : 0 < m.
Hypothesis HC1 : (C - 1) * (C - 1) * (C - 1) < m * M * M.
Hypothesis HC2 : m * M * M <= C * C * C.
Hypothesis HCM : 100 * M <= C * C.
Hypothesis HC200 : 200 <= C.
Hypothesis HMC : M <= 50 * C.
Hypothesis Hx : C - 1 <= x.
Let p := x * x / M.
Let q := cbq M m x.
Let k := M / C + 2.

Lemma p_lo : x * x - M + 1 <= p * M.
Proof using All. unfold p. pose proof (Z.div_mod (x * x) M ltac:(lia)). pose proof (Z.mod_pos_bound (x * x) M HM). nia. Qed.
Lemma p_hi : p * M <= x * x.
Proof using All. unfold p. pose proof (Z.div_mod (x * x) M ltac:(lia)). pose proof (Z.mod_pos_bound (x * x) M HM). nia. Qed.
Lemma sq_lo : (C - 1) * (C - 1) <= x * x.
Proof using All. apply Z.mul_le_mono_nonneg; lia. Qed.
Lemma p_pos : 1 <= p.
Proof using All.
  pose proof p_lo. pose proof sq_lo. assert (M <= x * x) by nia.
  unfold p. apply Z.div_le_lower_bound; lia.
Qed.
Lemma q_nn : 0 <= q.
Proof using All. pose proof p_pos. unfold q, cbq. fold p. apply Z.div_pos; nia. Qed.
Lemma q_hi : q * p <= m * M.
Proof using All. pose proof p_pos. unfold q, cbq. fold p. rewrite Z.mul_comm. apply Z.mul_div_le. lia. Qed.
Lemma q_lo : m * M < (q + 1) * p.
Proof using All.
  pose proof p_pos. unfold q, cbq. fold p. pose proof (Z.mul_succ_div_gt (m * M) p ltac:(lia)).
  unfold Z.succ in *. rewrite (Z.mul_comm _ p). exact H0.
Qed.
Lemma q_bound : q * (x * x - M + 1) <= C * C * C.
Proof using All.
  pose proof p_lo. pose proof q_hi. pose proof q_nn. apply Z.le_trans with (m * M * M); [|exact HC2].
  apply Z.le_trans with (q * (p * M)); [apply Z.mul_le_mono_nonneg_l; lia|].
  rewrite Z.mul_assoc. apply Z.mul_le_mono_nonneg_r; lia.
Qed.
(** never more than one below the root *)
Lemma step_lo : C - 1 <= cbn1 M m x.
Proof using All.
  unfold cbn1. fold q. apply Z.div_le_lower_bound; [lia|].
  destruct (Z.le_gt_cases (3 * (C - 1)) (q + 2 * x)) as [A|A]; [exact A|exfalso].
  pose proof q_lo as L. pose proof p_hi as P. pose proof q_nn as Q. pose proof p_pos.
  set (D := C - 1) in *.
  assert (E1 : m * M * M < (q + 1) * (x * x)).
  { apply Z.lt_le_trans with ((q + 1) * p * M). apply Z.mul_lt_mono_pos_r; lia.
    rewrite <- Z.mul_assoc. apply Z.mul_le_mono_nonneg_l; lia. }
  assert (E2 : (q + 1) * (x * x) <= (3 * D - 2 * x) * (x * x)).
  { apply Z.mul_le_mono_nonneg_r; [apply Z.square_nonneg|lia]. }
  assert (E3 : 0 <= (x - D) * (x - D) * (2 * x + D)).
  { apply Z.mul_nonneg_nonneg; [apply Z.square_nonneg|unfold D in *; lia]. }
  clear - HC1 E1 E2 E3. nia.
Qed.
Lemma kc : M + C <= k * C <= M + 2 * C.
Proof using All.
  unfold k. pose proof (Z.div_mod M C ltac:(lia)). pose proof (Z.mod_pos_bound M C ltac:(lia)). nia.
Qed.
Lemma k_pos : 2 <= k <= 52.
Proof using All.
  unfold k. pose proof (Z.div_pos M C ltac:(lia) ltac:(lia)). split; [lia|].
  assert (M / C <= 50) by (apply Z.div_le_upper_bound; lia). lia.
Qed.
Lemma q_above : C <= x -> q <= C + k.
Proof using All.
  intros A. destruct (Z.le_gt_cases q (C + k)) as [B|B]; [exact B|exfalso].
  pose proof q_bound as Q. pose proof kc as K. pose proof k_pos as KP.
  assert (E0 : C * C <= x * x) by (apply Z.mul_le_mono_nonneg; lia).
  assert (E1 : (C + k + 1) * (C * C - M) <= C * C * C).
  { apply Z.le_trans with (q * (x * x - M + 1)); [|exact Q]. apply Z.mul_le_mono_nonneg; lia. }
  assert (E2 : 100 * (k + 1) * M <= (k + 1) * (C * C)) by (clear - HCM KP; nia).
  assert (E3 : (M + 2 * C) * C <= (k + 1) * (C * C)) by (clear - K HC200; nia).
  assert (E4 : M * C <= 50 * (C * C)) by (clear - HMC HC200; nia).
  clear - E1 E2 E3 E4 HC200. nia.
Qed.
Lemma q_below : x = C - 1 -> q <= C + k + 2.
Proof using All.
  intros E. destruct (Z.le_gt_cases q (C + k + 2)) as [B|B]; [exact B|exfalso].
  pose proof q_bound as Q. rewrite E in Q. pose proof kc as K. pose proof k_pos as KP.
  set (j := k + 3) in *.
  assert (E1 : (C + j) * ((C - 1) * (C - 1) - M + 1) <= C * C * C).
  { apply Z.le_trans with (q * ((C - 1) * (C - 1) - M + 1)); [|exact Q]. apply Z.mul_le_mono_nonneg_r; [nia|unfold j; lia]. }
  assert (E2 : 100 * j * M <= j * (C * C)) by (unfold j; clear - HCM KP; nia).
  assert (E3 : (M + 4 * C) * C <= j * (C * C)) by (unfold j; clear - K HC200; nia).
  assert (E5 : 100 * j * (2 * C) <= j * (C * C)) by (unfold j; clear - HC200 KP; nia).
  assert (E4 : M * C <= 50 * (C * C)) by (clear - HMC HC200; nia).
  assert (E6 : 0 < j) by (unfold j; lia).
  clear - E1 E2 E3 E4 E5 E6 HC200. nia.
Qed.
Lemma q_le : q <= C + k + 2.
Proof using All.
  destruct (Z.eq_dec x (C - 1)); [apply q_below; assumption|]. pose proof (q_above ltac:(lia)). lia.
Qed.
(** the distance to [C + k] shrinks by a third in each step *)
Lemma step_contr : 3 * (cbn1 M m x - C - k) <= Z.max 0 (2 * (x - C - k)).
Proof using All.
  unfold cbn1. fold q. pose proof (Z.mul_div_le (q + 2 * x) 3 ltac:(lia)). pose proof k_pos.
  destruct (Z.eq_dec x (C - 1)) as [E|E].
  - pose proof (q_below E). lia.
  - pose proof (q_above ltac:(lia)). lia.
Qed.
Lemma step_below : M < C -> x = C - 1 -> cbn1 M m x <= C.
Proof using All.
  intros A E. pose proof (q_below E) as B. unfold k in B. rewrite Z.div_small in B by lia.
  unfold cbn1. fold q. rewrite E. apply Z.lt_succ_r. apply Z.div_lt_upper_bound; lia.
Qed.
(** when the computed cube exceeds the value the iterate decreases *)
Lemma step_dec : m < cbc M x -> cbn1 M m x < x.
Proof using All.
  intros A. unfold cbn1. fold q. apply Z.div_lt_upper_bound; [lia|].
  assert (B : (m + 1) * M <= p * x).
  { unfold cbc in A. fold p in A. pose proof (Z.mul_div_le (p * x) M HM). nia. }
  pose proof q_hi. pose proof p_pos. assert (q < x) by nia. lia.
Qed.
Lemma cube_lo : x * x * x - x * M - M * M < cbc M x * (M * M).
Proof using All.
  pose proof p_lo as P. unfold cbc. fold p. pose proof (Z.mul_succ_div_gt (p * x) M HM) as D. unfold Z.succ in D.
  set (d := p * x / M) in *. assert (0 <= x) by lia.
  assert (x * (x * x - M + 1) <= x * (p * M)) by (apply Z.mul_le_mono_nonneg_l; lia).
  assert (p * x * M < M * (d + 1) * M) by (apply Z.mul_lt_mono_pos_r; lia). nia.
Qed.
Lemma cube_hi : cbc M x * (M * M) <= x * x * x.
Proof using All.
  pose proof p_hi as P. unfold cbc. fold p. pose proof (Z.mul_div_le (p * x) M HM) as D.
  set (d := p * x / M) in *. assert (0 <= x) by lia.
  assert (x * (p * M) <= x * (x * x)) by (apply Z.mul_le_mono_nonneg_l; lia).
  assert (M * d * M <= p * x * M) by (apply Z.mul_le_mono_nonneg_r; lia). nia.
Qed.
Lemma cube_nn : 0 <= cbc M x.
Proof using All. unfold cbc. fold p. pose proof p_pos. apply Z.div_pos; nia. Qed.
Lemma cube_above j : C <= x -> x <= j * M -> m - j <= cbc M x.
Proof using All.
  intros A B. pose proof cube_lo as L. assert (C * C * C <= x * x * x) by (apply cube_mono; lia).
  assert (x * M <= j * M * M) by (apply Z.mul_le_mono_nonneg_r; lia).
  assert ((m - j - 1) * (M * M) < cbc M x * (M * M)) by nia.
  apply Z.mul_lt_mono_pos_r in H1; nia.
Qed.
(** one of the two integers next to the root *)
Lemma cube_near j : x <= C -> 1 <= j -> C <= j * M -> Z.abs (m - cbc M x) <= 3 * j * j + j + 1.
Proof using All.
  intros A J B. pose proof cube_lo as L. pose proof cube_hi as U.
  assert (E1 : (C - 1) * (C - 1) * (C - 1) <= x * x * x) by (apply cube_mono; lia).
  assert (E2 : x * x * x <= C * C * C) by (apply cube_mono; lia).
  assert (E3 : C * C <= j * M * (j * M)) by (apply Z.mul_le_mono_nonneg; lia).
  assert (E4 : x * M <= j * M * M) by (apply Z.mul_le_mono_nonneg_r; lia).
  assert (E5 : C * C * C <= (C - 1) * (C - 1) * (C - 1) + 3 * (C * C)) by nia.
  assert (E6 : (m - 3 * j * j - j - 1) * (M * M) < cbc M x * (M * M)).
  { replace ((m - 3 * j * j - j - 1) * (M * M)) with (m * M * M - 3 * (j * M * (j * M)) - j * M * M - M * M) by ring. lia. }
  assert (E7 : cbc M x * (M * M) < (m + 3 * j * j) * (M * M)).
  { replace ((m + 3 * j * j) * (M * M)) with (m * M * M + 3 * (j * M * (j * M))) by ring. lia. }
  apply Z.mul_lt_mono_pos_r in E6; [|nia]. apply Z.mul_lt_mono_pos_r in E7; [|nia]. lia.
Qed.
End STEP.

(** ** The loop on the model *)
Lemma bind_Ok {A B} (v : A) (k : A -> res B) : bind (Ok v) k = k v. Proof. reflexivity. Qed.
Section LOOP.
Variable c : cfg.
Hypothesis HS : std c.
Let M := 2 ^ cf c.
Lemma sc_mul_int x n : valid c x = true -> in_range int32 n = true -> valid c (x * n) = true -> fx_mul_int c int32 x n = Ok (x * n).
Proof.
  intros V N R. unfold fx_mul_int, fx_mul_assign_int.
  assert (N' : in_range (ct c) n = true).
  { apply in_range_iff in N. change (minv int32) with (-2147483648) in N. change (maxv int32) with 2147483647 in N. apply in_range_iff.
    destruct HS as [-> | ->]; cbn [ct F32 F64].
    - change (minv int32) with (-2147483648). change (maxv int32) with 2147483647. lia.
    - change (minv int64) with (-9223372036854775808). change (maxv int64) with 9223372036854775807. lia. }
  assert (U : uac (ct c) int32 = ct c) by (destruct HS as [-> | ->]; reflexivity).
  rewrite (g_mul (ct c) int32 (ct c) x n (std_t_ok c HS) U V N' R). rewrite bind_Ok. f_equal. apply wrap_id; auto. apply std_t_ok, HS.
Qed.
Lemma sc_div_int x n : 0 <= x -> valid c x = true -> 0 < n <= 2147483647 -> fx_div_int c int32 x n = Ok (x / n).
Proof.
  intros X V N. unfold fx_div_int, fx_div_assign_int.
  assert (N' : in_range (ct c) n = true).
  { apply in_range_iff. destruct HS as [-> | ->]; cbn [ct F32 F64].
    - change (minv int32) with (-2147483648). change (maxv int32) with 2147483647. lia.
    - change (minv int64) with (-9223372036854775808). change (maxv int64) with 9223372036854775807. lia. }
  assert (U : uac (ct c) int32 = ct c) by (destruct HS as [-> | ->]; reflexivity).
  assert (R : in_range (ct c) (Z.quot x n) = true).
  { rewrite Z.quot_div_nonneg by lia. pose proof (Z.div_pos x n ltac:(lia) ltac:(lia)).
    pose proof (Z.div_le_upper_bound x n x ltac:(lia) ltac:(nia)).
    apply (std_range c HS). apply (std_range c HS) in V. fold M in V |- *. pose proof (std_M c HS). fold M in H1. nia. }
  rewrite (g_div (ct c) int32 (ct c) x n (std_t_ok c HS) U V N' ltac:(lia) R). rewrite bind_Ok, Z.quot_div_nonneg by lia. f_equal.
  rewrite Z.quot_div_nonneg in R by lia. apply wrap_id; auto. apply std_t_ok, HS.
Qed.

Variables m C P X : Z.
Hypothesis Hm : 0 < m.
Hypothesis Vm : valid c m = true.
Hypothesis HC1 : (C - 1) * (C - 1) * (C - 1) < m * M * M.
Hypothesis HC2 : m * M * M <= C * C * C.
Hypothesis HCM : 100 * M <= C * C.
Hypothesis HC200 : 200 <= C.
Hypothesis HMC : M <= 50 * C.
Hypothesis HP : 10 <= P.
Hypothesis VP : valid c P = true.
Hypothesis HX : C + 60 <= X.
Hypothesis HX1 : 8 * X <= M * M.
Hypothesis HX2 : 2 * (X * X) < M * M * M.
Hypothesis HX3 : 2 * (X * X * X) < M * M * (M * M).
Hypothesis HCP : C + 60 <= (P - 1) * M.
Let k := M / C + 2.

Lemma M_pos : 0 < M. Proof. pose proof (std_M c HS). fold M in H. lia. Qed.
Lemma v_nn a : 0 <= a -> 2 * a < M * M -> valid c a = true.
Proof. intros. apply std_valid; auto. fold M. pose proof M_pos. nia. Qed.

Section BODY.
Variable x : Z.
Hypothesis Hx : C - 1 <= x <= X.
Lemma bx_sq : x * x <= X * X. Proof. apply Z.mul_le_mono_nonneg; lia. Qed.
Lemma bx_cu : x * x * x <= X * X * X. Proof. apply cube_mono; lia. Qed.
Lemma bvx : valid c x = true. Proof. apply v_nn; lia. Qed.
Lemma bvp : valid c (x * x / M) = true.
Proof.
  apply v_nn.
  - apply Z.div_pos; [apply Z.square_nonneg|apply M_pos].
  - pose proof (p_hi M m C x M_pos Hm HC1 HC2 HCM HC200 HMC ltac:(lia)) as H. pose proof bx_sq. pose proof M_pos.
    apply Z.mul_lt_mono_pos_r with M; lia.
Qed.
Lemma bvc : 0 <= cbc M x /\ 2 * cbc M x < M * M.
Proof.
  split. apply (cube_nn M m C x); auto using M_pos; lia.
  pose proof (cube_hi M m C x M_pos Hm HC1 HC2 HCM HC200 HMC ltac:(lia)) as H. pose proof bx_cu. pose proof M_pos.
  destruct (Z.lt_ge_cases (2 * cbc M x) (M * M)) as [A|A]; [exact A|exfalso].
  assert (M * M * (M * M) <= 2 * cbc M x * (M * M)) by (apply Z.mul_le_mono_nonneg_r; nia). lia.
Qed.
Lemma body_test : (let* p := fx_mul c x x in let* p := fx_mul c p x in let* d := fx_sub c m p in fx_abs c d) = Ok (Z.abs (m - cbc M x)).
Proof.
  pose proof bvc as (B1 & B2). pose proof Vm as V. apply std_valid in V; auto. fold M in V.
  rewrite s_mul; auto using bvx, bvp. rewrite bind_Ok. fold M.
  rewrite s_mul; auto using bvx, bvp; [|fold M; apply v_nn; assumption]. rewrite bind_Ok. fold M. fold (cbc M x).
  rewrite s_sub; auto; [|apply v_nn; assumption|apply std_valid; auto; fold M; lia]. rewrite bind_Ok.
  apply s_abs; auto; [apply std_valid; auto; fold M; lia|apply v_nn; lia].
Qed.
Lemma body_step : (let* xx := fx_mul c x x in let* q := fx_div c m xx in let* x2 := fx_mul_int c int32 x 2 in let* s := fx_add c q x2 in
  fx_div_int c int32 s 3) = Ok (cbn1 M m x).
Proof.
  pose proof (q_nn M m C x M_pos Hm HC1 HC2 HCM HC200 HMC ltac:(lia)) as Q1.
  pose proof (q_le M m C x M_pos Hm HC1 HC2 HCM HC200 HMC ltac:(lia)) as Q2.
  pose proof (p_pos M m C x M_pos Hm HC1 HC2 HCM HC200 HMC ltac:(lia)) as Q3.
  pose proof (k_pos M m C C M_pos Hm HC1 HC2 HCM HC200 HMC ltac:(lia)) as K. cbv zeta in Q1, Q2, Q3, K.
  rewrite s_mul; auto using bvx, bvp. rewrite bind_Ok. fold M.
  assert (EQ : Z.quot (m * M) (x * x / M) = cbq M m x) by (unfold cbq; apply Z.quot_div_nonneg; [pose proof M_pos; apply Z.mul_nonneg_nonneg; lia|lia]).
  rewrite s_div; auto using bvp; [|lia|fold M; rewrite EQ; apply v_nn; lia]. rewrite bind_Ok. fold M. rewrite EQ.
  rewrite sc_mul_int; auto using bvx; [|apply v_nn; lia]. rewrite bind_Ok.
  rewrite s_add; auto; [|apply v_nn; lia|apply v_nn; lia|apply v_nn; lia]. rewrite bind_Ok.
  rewrite sc_div_int; [|lia|apply v_nn; lia|lia]. unfold cbn1. do 3 f_equal. lia.
Qed.
End BODY.

Lemma cbrt_loop_ok : forall fuel n x, 0 <= n <= 201 -> Z.of_nat fuel = 202 - n -> C - 1 <= x <= X ->
  3 ^ n * (x - C - k) <= 2 ^ n * 2 ^ 58 -> (100 <= n -> x <= C + Z.max 0 (k + 100 - n)) ->
  exists r, cbrt_loop fuel c m P 200 n x = Ok r /\ C - 1 <= r <= X /\ (Z.abs (m - cbc M r) < P \/ r <= C).
Proof.
  pose proof M_pos as HM. pose proof (k_pos M m C C HM Hm HC1 HC2 HCM HC200 HMC ltac:(lia)) as K. cbv zeta in K. fold k in K.
  assert (TR : forall x, C - 1 <= x <= X -> valid c (Z.abs (m - cbc M x)) = true).
  { intros x B. pose proof (bvc x B) as (B1 & B2). pose proof Vm as V. apply std_valid in V; auto. fold M in V. apply v_nn; lia. }
  induction fuel as [|fuel IH]; intros n x N F B I1 I2; [lia|].
  cbn [cbrt_loop].
  pose proof (body_test x B) as T. pose proof (TR x B) as V.
  destruct (fx_mul c x x) as [p1| | |] eqn:E1; try discriminate T. rewrite bind_Ok in T |- *.
  destruct (fx_mul c p1 x) as [p2| | |] eqn:E2; try discriminate T. rewrite bind_Ok in T |- *.
  destruct (fx_sub c m p2) as [d| | |] eqn:E3; try discriminate T. rewrite bind_Ok in T |- *. rewrite T, bind_Ok.
  rewrite s_ge by auto.
  destruct (Z.leb_spec P (Z.abs (m - cbc M x))) as [G|G]; [|exists x; split; [reflexivity|lia]].
  cbn [andb]. destruct (Z.leb_spec n 200) as [G2|G2].
  - pose proof (body_step x B) as S. rewrite E1, bind_Ok in S. rewrite bind_Ok.
    destruct (fx_div c m p1) as [q| | |] eqn:E4; try discriminate S. rewrite bind_Ok in S |- *.
    destruct (fx_mul_int c int32 x 2) as [x2| | |] eqn:E5; try discriminate S. rewrite bind_Ok in S |- *.
    destruct (fx_add c q x2) as [s| | |] eqn:E6; try discriminate S. rewrite bind_Ok in S |- *. rewrite S, bind_Ok.
    pose proof (step_lo M m C x HM Hm HC1 HC2 HCM HC200 HMC ltac:(lia)) as L.
    pose proof (step_contr M m C x HM Hm HC1 HC2 HCM HC200 HMC ltac:(lia)) as CT. cbv zeta in CT. fold k in CT.
    apply IH; [lia|lia| |  | ].
    + lia.
    + replace (n + 1) with (Z.succ n) by lia. rewrite !Z.pow_succ_r by lia.
      pose proof (Z.pow_pos_nonneg 3 n ltac:(lia) ltac:(lia)) as P3. pose proof (Z.pow_pos_nonneg 2 n ltac:(lia) ltac:(lia)) as P2.
      clear - I1 CT P3 P2. revert I1 CT P3 P2. generalize (2 ^ n). generalize (3 ^ n). generalize (cbn1 M m x - C - k). generalize (x - C - k).
      assert (H : 0 < 2 ^ 58) by reflexivity. revert H. generalize (2 ^ 58). intros. nia.
    + intros N1.
      assert (D : 100 <= n -> cbn1 M m x <= C + Z.max 0 (k + 100 - (n + 1))).
      { intros N2. specialize (I2 N2). destruct (Z.eq_dec x (C - 1)) as [EX|EX].
        - destruct (Z.le_gt_cases C M) as [CM|CM].
          + exfalso. pose proof (cube_near M m C x HM Hm HC1 HC2 HCM HC200 HMC ltac:(lia) 1 ltac:(lia) ltac:(lia) ltac:(lia)). lia.
          + pose proof (step_below M m C x HM Hm HC1 HC2 HCM HC200 HMC ltac:(lia) CM EX). lia.
        - pose proof (cube_above M m C x HM Hm HC1 HC2 HCM HC200 HMC ltac:(lia) (P - 1) ltac:(lia) ltac:(lia)).
          pose proof (step_dec M m C x HM Hm HC1 HC2 HCM HC200 HMC ltac:(lia) ltac:(lia)). lia. }
      destruct (Z.eq_dec n 99) as [->|]; [|apply D; lia].
      assert (cbn1 M m x - C - k <= 0); [|lia].
      change (2 ^ 99) with 633825300114114700748351602688 in I1. change (2 ^ 58) with 288230376151711744 in I1.
      change (3 ^ 99) with 171792506910670443678820376588540424234035840667 in I1. lia.
  - cbn [andb]. exists x. specialize (I2 ltac:(lia)). split; [reflexivity|lia].
Qed.
End LOOP.

Lemma start_lo M m C : 0 < M -> 1 <= C -> (C - 1) * (C - 1) * (C - 1) < m * M * M -> C - 1 <= (m + 2 * M) / 3.
Proof.
  intros HM HC H. apply Z.div_le_lower_bound; [lia|]. destruct (Z.le_gt_cases (3 * (C - 1)) (m + 2 * M)) as [A|A]; [exact A|exfalso].
  set (D := C - 1) in *.
  assert (E1 : m * (M * M) <= (3 * D - 2 * M) * (M * M)) by (apply Z.mul_le_mono_nonneg_r; [apply Z.square_nonneg|lia]).
  assert (E2 : 0 <= (D - M) * (D - M) * (D + 2 * M)) by (apply Z.mul_nonneg_nonneg; [apply Z.square_nonneg|unfold D; lia]).
  clear - H E1 E2. nia.
Qed.

Definition near_cbrt (M m r : Z) : Prop := (r - 1) * (r - 1) * (r - 1) <= m * M * M <= (r + 1) * (r + 1) * (r + 1).

Lemma cbrt_start c m : std c -> 0 <= m -> valid c (m + 2 * 2 ^ cf c) = true ->
  (let* s := fx_add_int c int32 m 2 in fx_div_int c int32 s 3) = Ok ((m + 2 * 2 ^ cf c) / 3).
Proof.
  intros HS Hm V. pose proof (std_M c HS) as HM. pose proof V as V'. apply (std_valid c HS) in V'.
  destruct (mixed_thm c int32 m 2 (std_wf c HS)) as (E & _).
  { left. destruct HS as [-> | ->]; cbn; lia. }
  rewrite E. rewrite s_int; auto; [|apply std_valid; auto; lia]. rewrite bind_Ok.
  rewrite s_add; auto; try (apply std_valid; auto; lia). rewrite bind_Ok.
  apply sc_div_int; auto; lia.
Qed.

Lemma cbrt32_thm m : 0 <= m < 94 * 65536 ->
  exists r, fx_cbrt F32 m = Ok r /\ 0 <= r < 5 * 65536 + 60 /\
    ((m - 15) * (65536 * 65536) < r * r * r < (m + 15) * (65536 * 65536) \/ near_cbrt 65536 m r).
Proof.
  intros H. assert (HS : std F32) by (left; reflexivity).
  unfold fx_cbrt. assert (V : valid F32 m = true) by (apply std_valid; auto; change (2 ^ cf F32) with 65536; lia).
  rewrite s_abs; auto; [|apply std_valid; auto; change (2 ^ cf F32) with 65536; lia]. rewrite bind_Ok.
  change (fx_epsilon F32) with (@Ok Z 5). rewrite bind_Ok. rewrite s_lt; auto; [|apply std_valid; auto; change (2 ^ cf F32) with 65536; lia].
  destruct (Z.ltb_spec (Z.abs m) 5) as [S|S].
  { exists 0. split; [reflexivity|]. split; [lia|]. left. lia. }
  change (nearly_compare_epsilon F32) with (@Ok Z 5). assert (PR : fx_mul_int F32 int32 5 2 = Ok 10) by reflexivity.
  pose proof (cbrt_start F32 m HS ltac:(lia)) as ST. change (2 ^ cf F32) with 65536 in ST.
  specialize (ST ltac:(apply std_valid; auto; change (2 ^ cf F32) with 65536; lia)).
  destruct (fx_add_int F32 int32 m 2) as [s| | |]; try discriminate ST. rewrite bind_Ok in ST |- *. rewrite ST, !bind_Ok, PR, bind_Ok.
  destruct (cube_root_ex (m * 65536 * 65536) ltac:(lia)) as (C & C1 & C2 & C3).
  assert (L : 2779 <= C).
  { destruct (Z.le_gt_cases 2779 C) as [A|A]; [exact A|exfalso]. pose proof (cube_mono C 2778 ltac:(lia)). lia. }
  assert (U : C <= 5 * 65536).
  { destruct (Z.le_gt_cases C (5 * 65536)) as [A|A]; [exact A|exfalso]. pose proof (cube_mono (5 * 65536) (C - 1) ltac:(lia)). lia. }
  assert (X0 : (m + 2 * 65536) / 3 <= 32 * 65536 - 1).
  { assert ((m + 2 * 65536) / 3 < 32 * 65536) by (apply Z.div_lt_upper_bound; lia). lia. }
  pose proof (start_lo 65536 m C ltac:(lia) C1 C2) as S0.
  assert (C2700 : 100 * 65536 <= C * C) by (clear - L; nia).
  destruct (cbrt_loop_ok F32 HS m C 10 (32 * 65536 - 1) ltac:(lia) V) with (fuel := 202%nat) (n := 0) (x := (m + 2 * 65536) / 3)
    as (r & R1 & R2 & R3); try (change (2 ^ cf F32) with 65536; lia); try reflexivity.
  - change (2 ^ cf F32) with 65536. change (3 ^ 0) with 1. change (2 ^ 0 * 2 ^ 58) with 288230376151711744.
    pose proof (Z.div_pos 65536 C ltac:(lia) ltac:(lia)). lia.
  - exists r. split; [exact R1|]. change (2 ^ cf F32) with 65536 in R3.
    pose proof (cube_lo 65536 m C r ltac:(lia) ltac:(lia) C2 C3 C2700 ltac:(lia) ltac:(lia) ltac:(lia)) as K1.
    pose proof (cube_hi 65536 m C r ltac:(lia) ltac:(lia) C2 C3 C2700 ltac:(lia) ltac:(lia) ltac:(lia)) as K2.
    destruct R3 as [R3|R3].
    + assert (r < 5 * 65536).
      { destruct (Z.lt_ge_cases r (5 * 65536)) as [A|A]; [exact A|exfalso].
        assert (5 * 65536 * (5 * 65536) <= r * r) by (apply Z.mul_le_mono_nonneg; lia).
        assert (5 * 65536 * (5 * 65536) * r <= r * r * r) by (apply Z.mul_le_mono_nonneg_r; lia). lia. }
      split; [lia|]. left. lia.
    + split; [lia|]. right. unfold near_cbrt. split.
      * pose proof (cube_mono (r - 1) (C - 1) ltac:(lia)). lia.
      * pose proof (cube_mono C (r + 1) ltac:(lia)). lia.
Qed.

Lemma cbrt64_thm m : 0 <= m <= 3868 * 4294967296 ->
  exists r, fx_cbrt F64 m = Ok r /\ 0 <= r < 16 * 4294967296 /\
    (m - 655360) * (4294967296 * 4294967296) < r * r * r < (m + 655376) * (4294967296 * 4294967296).
Proof.
  intros H. assert (HS : std F64) by (right; reflexivity).
  unfold fx_cbrt. assert (V : valid F64 m = true) by (apply std_valid; auto; change (2 ^ cf F64) with 4294967296; lia).
  rewrite s_abs; auto; [|apply std_valid; auto; change (2 ^ cf F64) with 4294967296; lia]. rewrite bind_Ok.
  change (fx_epsilon F64) with (@Ok Z 327680). rewrite bind_Ok. rewrite s_lt; auto; [|apply std_valid; auto; change (2 ^ cf F64) with 4294967296; lia].
  destruct (Z.ltb_spec (Z.abs m) 327680) as [S|S].
  { exists 0. split; [reflexivity|]. split; [lia|]. lia. }
  change (nearly_compare_epsilon F64) with (@Ok Z 327680). assert (PR : fx_mul_int F64 int32 327680 2 = Ok 655360) by reflexivity.
  pose proof (cbrt_start F64 m HS ltac:(lia)) as ST. change (2 ^ cf F64) with 4294967296 in ST.
  specialize (ST ltac:(apply std_valid; auto; change (2 ^ cf F64) with 4294967296; lia)).
  destruct (fx_add_int F64 int32 m 2) as [s| | |]; try discriminate ST. rewrite bind_Ok in ST |- *. rewrite ST, !bind_Ok, PR, bind_Ok.
  destruct (cube_root_ex (m * 4294967296 * 4294967296) ltac:(lia)) as (C & C1 & C2 & C3).
  assert (L : 182000000 <= C).
  { destruct (Z.le_gt_cases 182000000 C) as [A|A]; [exact A|exfalso]. pose proof (cube_mono C 182000000 ltac:(lia)). lia. }
  assert (U : C < 16 * 4294967296 - 100).
  { destruct (Z.lt_ge_cases C (16 * 4294967296 - 100)) as [A|A]; [exact A|exfalso].
    pose proof (cube_mono (16 * 4294967296 - 101) (C - 1) ltac:(lia)). lia. }
  assert (X0 : (m + 2 * 4294967296) / 3 <= 1290 * 4294967296) by (apply Z.div_le_upper_bound; lia).
  pose proof (start_lo 4294967296 m C ltac:(lia) C1 C2) as S0.
  assert (C2700 : 100 * 4294967296 <= C * C) by (clear - L; nia).
  destruct (cbrt_loop_ok F64 HS m C 655360 (1290 * 4294967296) ltac:(lia) V) with (fuel := 202%nat) (n := 0) (x := (m + 2 * 4294967296) / 3)
    as (r & R1 & R2 & R3); try (change (2 ^ cf F64) with 4294967296; lia); try reflexivity.
  - change (2 ^ cf F64) with 4294967296. change (3 ^ 0) with 1. change (2 ^ 0 * 2 ^ 58) with 288230376151711744.
    pose proof (Z.div_pos 4294967296 C ltac:(lia) ltac:(lia)). lia.
  - exists r. split; [exact R1|]. change (2 ^ cf F64) with 4294967296 in R3.
    pose proof (cube_lo 4294967296 m C r ltac:(lia) ltac:(lia) C2 C3 C2700 ltac:(lia) ltac:(lia) ltac:(lia)) as K1.
    pose proof (cube_hi 4294967296 m C r ltac:(lia) ltac:(lia) C2 C3 C2700 ltac:(lia) ltac:(lia) ltac:(lia)) as K2.
    assert (R4 : Z.abs (m - cbc 4294967296 r) < 655360).
    { destruct R3 as [R3|R3]; [exact R3|].
      pose proof (cube_near 4294967296 m C r ltac:(lia) ltac:(lia) C2 C3 C2700 ltac:(lia) ltac:(lia) ltac:(lia) 16 R3 ltac:(lia) ltac:(lia)). lia. }
    assert (r < 16 * 4294967296).
    { destruct (Z.lt_ge_cases r (16 * 4294967296)) as [A|A]; [exact A|exfalso].
      assert (16 * 4294967296 * (16 * 4294967296) <= r * r) by (apply Z.mul_le_mono_nonneg; lia).
      assert (16 * 4294967296 * (16 * 4294967296) * r <= r * r * r) by (apply Z.mul_le_mono_nonneg_r; lia). lia. }
    split; [lia|]. lia.
Qed.
