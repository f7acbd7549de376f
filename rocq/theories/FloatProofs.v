(** Proofs about the floating-point conversions. *)
From Coq Require Import ZArith Bool Lia QArith Qabs Qround.
From Verif Require Import Base Fixed Float Spec SpecFp BaseLemmas SpecLemmas FixedLemmas ConvProofs RefuteArith.
Open Scope Z_scope.

Lemma p2 n : 0 <= n -> 0 < 2 ^ n. Proof. intros; apply Z.pow_pos_nonneg; lia. Qed.
Lemma pow_div a b : 0 <= a <= b -> exists q, 2 ^ b = q * 2 ^ a /\ 0 < q.
Proof. intros H. exists (2 ^ (b - a)). rewrite <- Z.pow_add_r by lia. split; [f_equal; lia|apply p2; lia]. Qed.

(** ** rne_pos *)
Section R.
Variables p n : Z.
Hypothesis HP : 1 <= p.
Hypothesis HN : 0 < n.
Let L := Z.log2 n.
Let s := L + 1 - p.
Lemma logb : 2 ^ L <= n < 2 ^ (L + 1).
Proof using HN. apply Z.log2_spec. exact HN. Qed.
Lemma L0 : 0 <= L. Proof using. apply Z.log2_nonneg. Qed.
(** the result is a multiple of 2^s at a distance of at most half of 2^s *)
Lemma rne_round : 0 < s -> exists q, rne_pos p n = q * 2 ^ s /\ - 2 ^ s <= 2 * (q * 2 ^ s - n) <= 2 ^ s.
Proof using HP HN.
  intros S. unfold rne_pos. fold L. fold s. replace (s <=? 0) with false by lia. cbv zeta.
  pose proof (p2 s ltac:(lia)) as P. pose proof (Z.div_mod n (2 ^ s) ltac:(lia)) as D. pose proof (Z.mod_pos_bound n (2 ^ s) P) as M.
  eexists. split; [reflexivity|]. set (q := n / 2 ^ s) in *. set (r := n mod 2 ^ s) in *. set (w := 2 ^ s) in *. clearbody q r w.
  destruct (2 * r <? w) eqn:E1; [nia|]. destruct (w <? 2 * r) eqn:E2; [nia|]. destruct (Z.even q); nia.
Qed.
Lemma rne_small : s <= 0 -> rne_pos p n = n.
Proof using. intros S. unfold rne_pos. fold L. fold s. replace (s <=? 0) with true by lia. reflexivity. Qed.
(** multiples of 2^s are kept *)
Lemma rne_keep : 0 < s -> (exists q, n = q * 2 ^ s) -> rne_pos p n = n.
Proof using HP HN.
  intros S (q & E). destruct (rne_round S) as (q1 & -> & B). pose proof (p2 s ltac:(lia)) as P. rewrite E in B.
  assert (q1 = q); [|subst q1; auto]. set (w := 2 ^ s) in *. clearbody w. nia.
Qed.
(** no multiple of 2^s is closer *)
Lemma rne_best z : 0 < s -> Z.abs (rne_pos p n - n) <= Z.abs (z * 2 ^ s - n).
Proof using HP HN.
  intros S. destruct (rne_round S) as (q & -> & B). pose proof (p2 s ltac:(lia)) as P. set (w := 2 ^ s) in *. clearbody w. clear - B P.
  assert (z = q \/ z < q \/ q < z) as [->|[H|H]] by lia; [lia| |].
  - assert (z * w + w <= q * w) by nia. lia.
  - assert (q * w + w <= z * w) by nia. lia.
Qed.
(** numbers with p bits at or above 2^L are multiples of 2^s *)
Lemma grid a t : 0 <= t -> 0 <= a < 2 ^ p -> 2 ^ L <= a * 2 ^ t -> 0 < s -> exists q, a * 2 ^ t = q * 2 ^ s.
Proof using HP HN.
  intros T A G S. assert (s <= t).
  { destruct (Z_le_gt_dec s t) as [|C]; [assumption|exfalso]. destruct (pow_div (t + p) L ltac:(unfold s in C; lia)) as (q & E & Q).
    rewrite E in G. rewrite Z.pow_add_r in G by lia. pose proof (p2 t T). pose proof (p2 p ltac:(lia)).
    assert (2 ^ t * 2 ^ p <= q * (2 ^ t * 2 ^ p)) by nia. nia. }
  destruct (pow_div s t ltac:(lia)) as (q & E & Q). exists (a * q). rewrite E. ring.
Qed.
Lemma pow_mult : 0 < s -> exists q, 2 ^ L = q * 2 ^ s.
Proof using HP HN. intros S. destruct (pow_div s L) as (q & E & _); [unfold s in *; lia|]. eauto. Qed.
End R.


(** ** integers with p significant bits *)
Definition irep (p z : Z) := exists a t, 0 <= t /\ Z.abs a < 2 ^ p /\ z = a * 2 ^ t.
Lemma irep_fp p z k : 0 <= k -> irep p z -> fp_rep p (qval k z).
Proof. intros K (a & t & T & A & ->). exists a, t, k. split; [auto|]. split; [auto|]. split; [auto|]. reflexivity. Qed.
Lemma fp_irep p n k : 0 <= k -> fp_rep p (qval k n) -> irep p n.
Proof.
  intros K (a & t & k' & T & K' & A & E). unfold qval, Qeq in E. cbn [Qnum Qden] in E. rewrite !pow2p_Z in E by auto.
  pose proof (p2 k K) as P1. pose proof (p2 k' K') as P2. pose proof (p2 t T) as P3.
  destruct (Z_le_gt_dec k' (t + k)) as [C|C].
  - exists a, (t + k - k'). split; [lia|]. split; [exact A|].
    assert (E1 : 2 ^ t * 2 ^ k = 2 ^ (t + k - k') * 2 ^ k') by (rewrite <- !Z.pow_add_r by lia; f_equal; lia).
    apply (Z.mul_reg_r _ _ (2 ^ k')); [lia|]. rewrite E. rewrite <- !Z.mul_assoc. rewrite <- E1. ring.
  - exists n, 0. split; [lia|]. split; [|rewrite Z.mul_1_r; reflexivity].
    assert (E1 : 2 ^ k' = 2 ^ (k' - t - k) * (2 ^ t * 2 ^ k)) by (rewrite <- !Z.pow_add_r by lia; f_equal; lia).
    pose proof (p2 (k' - t - k) ltac:(lia)) as P4. rewrite E1 in E.
    assert (E2 : a = n * 2 ^ (k' - t - k)). { apply (Z.mul_reg_r _ _ (2 ^ t * 2 ^ k)); [nia|]. lia. }
    rewrite E2 in A. rewrite Z.abs_mul, (Z.abs_eq (2 ^ _)) in A by lia. nia.
Qed.
Lemma rne_pos_irep p n : 1 <= p -> 0 < n -> 0 <= rne_pos p n /\ irep p (rne_pos p n).
Proof.
  intros P N. pose proof (logb n N) as LB. pose proof (L0 n) as L0. destruct (Z_le_gt_dec (Z.log2 n + 1 - p) 0) as [S|S].
  - rewrite rne_small by lia. split; [lia|]. exists n, 0. split; [lia|]. split; [|rewrite Z.mul_1_r; reflexivity].
    rewrite Z.abs_eq by lia. apply Z.lt_le_trans with (2 ^ (Z.log2 n + 1)); [lia|]. apply Z.pow_le_mono_r; lia.
  - destruct (rne_round p n P N ltac:(lia)) as (q & E & B). set (s := Z.log2 n + 1 - p) in *. pose proof (p2 s ltac:(lia)) as W.
    rewrite E. assert (LE : 2 ^ Z.log2 n = 2 ^ (p - 1) * 2 ^ s) by (rewrite <- Z.pow_add_r by lia; f_equal; lia).
    assert (LE1 : 2 ^ (Z.log2 n + 1) = 2 * 2 ^ (p - 1) * 2 ^ s).
    { replace (Z.log2 n + 1) with (Z.succ (Z.log2 n)) by lia. rewrite Z.pow_succ_r, LE by lia. ring. }
    rewrite LE, LE1 in LB. assert (PP : 2 ^ p = 2 * 2 ^ (p - 1)) by (replace p with (Z.succ (p - 1)) at 1 by lia; rewrite Z.pow_succ_r by lia; reflexivity).
    pose proof (p2 (p - 1) ltac:(lia)) as H1.
    assert (Q : 0 <= q <= 2 * 2 ^ (p - 1)).
    { clear - LB B W H1. set (h := 2 ^ (p - 1)) in *. set (w := 2 ^ s) in *. clearbody h w. nia. }
    split; [nia|]. destruct (Z.eq_dec q (2 * 2 ^ (p - 1))) as [->|NE].
    + exists (2 ^ (p - 1)), (s + 1). split; [lia|]. split; [lia|]. rewrite Z.pow_add_r by lia. change (2 ^ 1) with 2. ring.
    + exists q, s. split; [lia|]. split; [lia|reflexivity].
Qed.
Lemma rne_pos_best p n z : 1 <= p -> 0 < n -> irep p z -> Z.abs (rne_pos p n - n) <= Z.abs (z - n).
Proof.
  intros P N (a & t & T & A & ->). destruct (Z_le_gt_dec (Z.log2 n + 1 - p) 0) as [S|S]; [rewrite rne_small by lia; lia|].
  pose proof (logb n N) as LB. pose proof (p2 t T).
  destruct (Z_le_gt_dec (2 ^ Z.log2 n) (a * 2 ^ t)) as [C|C].
  - pose proof (p2 (Z.log2 n) (L0 n)). destruct (grid p n P N a t T ltac:(nia) C ltac:(lia)) as (q & ->). apply (rne_best p n P N q). lia.
  - destruct (pow_mult p n P N ltac:(lia)) as (q & E). pose proof (rne_best p n P N q ltac:(lia)) as B. rewrite <- E in B. lia.
Qed.
Lemma irep_opp p z : irep p z -> irep p (- z).
Proof. intros (a & t & T & A & ->). exists (- a), t. rewrite Z.abs_opp. repeat split; auto. ring. Qed.
Lemma rne_0 p : rne p 0 = 0.
Proof.
  unfold rne, rne_pos. change (0 <? 0) with false. cbv iota. change (Z.log2 0) with 0. cbv zeta. destruct (0 + 1 - p <=? 0) eqn:E; [reflexivity|].
  pose proof (p2 (0 + 1 - p) ltac:(lia)). rewrite Zmod_0_l, Zdiv_0_l, Z.mul_0_r. replace (0 <? 2 ^ (0 + 1 - p)) with true by lia. reflexivity.
Qed.
Lemma rne_irep p n : 1 <= p -> irep p (rne p n).
Proof.
  intros P. destruct (Z.eq_dec n 0) as [->|N].
  - rewrite rne_0. exists 0, 0. pose proof (p2 p ltac:(lia)). split; [lia|]. split; [rewrite Z.abs_0; lia|reflexivity].
  - unfold rne. destruct (n <? 0) eqn:E; [apply irep_opp|]; apply rne_pos_irep; lia.
Qed.
Lemma rne_best_all p n z : 1 <= p -> irep p z -> Z.abs (rne p n - n) <= Z.abs (z - n).
Proof.
  intros P I. destruct (Z.eq_dec n 0) as [->|N]; [rewrite rne_0; lia|]. unfold rne. destruct (n <? 0) eqn:E.
  - pose proof (rne_pos_best p (- n) (- z) P ltac:(lia) (irep_opp _ _ I)). lia.
  - apply rne_pos_best; auto; lia.
Qed.
Lemma rne_exact p n : 1 <= p -> irep p n -> rne p n = n.
Proof. intros P I. pose proof (rne_best_all p n n P I). lia. Qed.
(** scaling *)
Lemma rne_pos_scale p n k : 1 <= p -> 0 < n -> 0 <= k -> rne_pos p (n * 2 ^ k) = rne_pos p n * 2 ^ k.
Proof.
  intros P N K. pose proof (p2 k K) as W. assert (LS : Z.log2 (n * 2 ^ k) = Z.log2 n + k) by (rewrite Z.log2_mul_pow2 by lia; lia).
  destruct (Z_le_gt_dec (Z.log2 n + 1 - p) 0) as [S|S].
  - rewrite (rne_small p n) by lia. destruct (Z_le_gt_dec (Z.log2 n + k + 1 - p) 0) as [S'|S'].
    + apply rne_small. rewrite LS. lia.
    + apply rne_keep; try lia. rewrite LS. destruct (pow_div (Z.log2 n + k + 1 - p) k ltac:(lia)) as (q & E & _). exists (n * q). rewrite E. ring.
  - unfold rne_pos. rewrite LS. replace (Z.log2 n + k + 1 - p <=? 0) with false by lia. replace (Z.log2 n + 1 - p <=? 0) with false by lia. cbv zeta.
    set (s := Z.log2 n + 1 - p) in *. replace (Z.log2 n + k + 1 - p) with (s + k) by (unfold s; lia). rewrite Z.pow_add_r by lia.
    pose proof (p2 s ltac:(lia)) as WS. rewrite Z.div_mul_cancel_r by lia. rewrite Z.mul_mod_distr_r by lia.
    set (r := n mod 2 ^ s). set (q := n / 2 ^ s). set (w := 2 ^ s) in *. set (u := 2 ^ k) in *. clearbody r q w u.
    replace (2 * (r * u) <? w * u) with (2 * r <? w) by (destruct (2 * r <? w) eqn:E; symmetry; [apply Z.ltb_lt|apply Z.ltb_ge]; nia).
    replace (w * u <? 2 * (r * u)) with (w <? 2 * r) by (destruct (w <? 2 * r) eqn:E; symmetry; [apply Z.ltb_lt|apply Z.ltb_ge]; nia).
    ring.
Qed.
Lemma rne_scale p n k : 1 <= p -> 0 <= k -> rne p (n * 2 ^ k) = rne p n * 2 ^ k.
Proof.
  intros P K. pose proof (p2 k K) as W. destruct (Z.eq_dec n 0) as [->|N]; [rewrite Z.mul_0_l, !rne_0; reflexivity|]. unfold rne.
  replace (n * 2 ^ k <? 0) with (n <? 0) by (destruct (n <? 0) eqn:E; symmetry; [apply Z.ltb_lt|apply Z.ltb_ge]; nia).
  destruct (n <? 0) eqn:E; [|apply rne_pos_scale; lia]. replace (- (n * 2 ^ k)) with (- n * 2 ^ k) by ring. rewrite rne_pos_scale by lia. ring.
Qed.
(** the model's rounding is rounding to a nearest number, for every fraction n / 2^k *)
Lemma qval_sub_abs k a b : (Qabs (qval k a - qval k b) == qval k (Z.abs (a - b)))%Q.
Proof. rewrite qval_minus. unfold qval, Qabs. reflexivity. Qed.
Lemma rne_nearest p n k : 1 <= p -> 0 <= k -> fp_nearest p (qval k n) (qval k (rne p n)).
Proof.
  intros P K. split; [apply irep_fp; auto; apply rne_irep; auto|]. intros r' (a & t & k' & T & K' & A & E).
  rewrite E. rewrite qval_sub_abs.
  rewrite <- (qval_shift k k' n) by auto. rewrite <- (qval_shift k' k (a * 2 ^ t)) by auto. rewrite (Z.add_comm k' k). rewrite qval_sub_abs.
  rewrite <- (qval_shift k k' (Z.abs _)) by auto. apply qval_le.
  pose proof (p2 k' K') as W. rewrite <- (Z.abs_eq (2 ^ k')) at 1 by lia. rewrite <- Z.abs_mul. rewrite Z.mul_sub_distr_r. rewrite <- rne_scale by auto.
  apply rne_best_all; auto. exists a, (t + k). split; [lia|]. split; [exact A|]. rewrite Z.pow_add_r by lia. ring.
Qed.

(** ** the constructor *)
Lemma fval_trunc p c n k m : wf c = true -> cr c = false -> 0 <= k -> is_trunc (cf c) (qval k n) m ->
  fx_of_fval p c (Fin n k) = if in_range (ct c) m then Ok m else UB.
Proof. intros H R K T. rewrite <- (float_ctor_trunc c n k m H R K T). unfold fx_of_fval, fx_of_float. rewrite R. reflexivity. Qed.
Lemma fval_exact p c n k m : wf c = true -> cr c = false -> 0 <= k -> valid c m = true ->
  (qval (cf c) m == qval k n)%Q -> fx_of_fval p c (Fin n k) = Ok m.
Proof. intros H R K V E. rewrite <- (float_ctor_exact c n k m H R K V E). unfold fx_of_fval, fx_of_float. rewrite R. reflexivity. Qed.
(** the whole number part survives the rounding of [y + 1/2] *)
Lemma half_sum p Y k : 2 <= p -> 0 <= k -> 0 < Y -> irep p Y -> Y + 2 ^ k < 2 ^ (p + k) -> (p <= k -> Y <> 2 ^ k - 2 ^ (k - p)) ->
  rne_pos p (Y + 2 ^ k) / 2 ^ (k + 1) = (Y + 2 ^ k) / 2 ^ (k + 1).
Proof.
  intros P K HY (a & t & T & HA & EY) HB NE. set (A := Y + 2 ^ k) in *. pose proof (p2 k K) as WK. assert (A0 : 0 < A) by (unfold A; lia).
  destruct (Z_le_gt_dec (Z.log2 A + 1 - p) 0) as [S|S]; [rewrite rne_small by lia; reflexivity|].
  pose proof (logb A A0) as LB. pose proof (L0 A) as L0. set (L := Z.log2 A) in *.
  assert (SK : L + 1 - p <= k).
  { destruct (Z_le_gt_dec (L + 1 - p) k) as [|C]; [assumption|exfalso]. pose proof (Z.pow_le_mono_r 2 (p + k) L ltac:(lia) ltac:(lia)). lia. }
  assert (LK : k <= L).
  { destruct (Z_le_gt_dec k L) as [|C]; [assumption|exfalso]. pose proof (Z.pow_le_mono_r 2 (L + 1) k ltac:(lia) ltac:(lia)). unfold A in LB. lia. }
  set (s := L + 1 - p) in *. pose proof (p2 s ltac:(lia)) as WS.
  assert (AP : 0 <= a < 2 ^ p). { pose proof (p2 t T). nia. }
  destruct (Z_le_gt_dec (2 ^ L) Y) as [C|C].
  { (* Y is on the grid of A *)
    rewrite EY in C. destruct (grid p A ltac:(lia) A0 a t T AP C ltac:(fold L; fold s; lia)) as (q & E). fold L in E. fold s in E.
    rewrite rne_keep; try lia. fold L. fold s. destruct (pow_div s k ltac:(lia)) as (q2 & E2 & _).
    exists (q + q2). unfold A. rewrite EY, E, E2. ring. }
  destruct (rne_round p A ltac:(lia) A0 ltac:(fold L; fold s; lia)) as (q & E & B). fold L in E, B. fold s in E, B.
  set (D := 2 ^ (k + 1)) in *. assert (ED : D = 2 * 2 ^ k) by (unfold D; rewrite Z.pow_add_r by lia; ring).
  set (R := rne_pos p A) in *. rewrite <- E in B. pose proof (Z.pow_le_mono_r 2 s k ltac:(lia) ltac:(lia)) as SW.
  destruct (Z.eq_dec L k) as [EL|NL].
  - (* A is between 1/2 and 1 *)
    rewrite EL in LB. fold D in LB. rewrite (Z.div_small A) by lia. apply Z.div_small. split; [nia|].
    destruct (Z_lt_ge_dec R D) as [|C2]; [assumption|exfalso].
    assert (PK : p <= k) by (unfold s in S; lia). specialize (NE PK).
    assert (ES : 2 ^ s = 2 * 2 ^ (k - p)) by (unfold s; rewrite EL; replace (k + 1 - p) with (Z.succ (k - p)) by lia; rewrite Z.pow_succ_r by lia; reflexivity).
    assert (Y1 : 2 ^ k - 2 ^ (k - p) <= Y) by (unfold A in *; lia).
    assert (EK : 2 ^ k = 2 ^ p * 2 ^ (k - p)) by (rewrite <- Z.pow_add_r by lia; f_equal; lia).
    pose proof (p2 (k - p) ltac:(lia)) as W3.
    assert (TK : k - p <= t).
    { destruct (Z_le_gt_dec (k - p) t) as [|C3]; [assumption|exfalso]. destruct (pow_div (t + 1) (k - p) ltac:(lia)) as (q3 & E3 & Q3).
      rewrite Z.pow_add_r in E3 by lia. change (2 ^ 1) with 2 in E3. rewrite EY in Y1. rewrite EK, E3 in Y1. pose proof (p2 t T). pose proof (Z.pow_le_mono_r 2 2 p ltac:(lia) ltac:(lia)). change (2 ^ 2) with 4 in *.
      set (u := 2 ^ t) in *. set (h := 2 ^ p) in *. clearbody u h. clear - Y1 AP H H0 Q3.
      assert (h * (q3 * (u * 2)) - q3 * (u * 2) = (h - 1) * 2 * q3 * u) as EE by ring. rewrite EE in Y1.
      assert ((h - 1) * 2 * q3 >= (h - 1) * 2) by nia. nia. }
    destruct (pow_div (k - p) t ltac:(lia)) as (q4 & E4 & Q4). rewrite E4 in EY.
    unfold A in LB. rewrite EL in C. apply NE. rewrite EK. rewrite EK in Y1, C.
    assert (EY' : Y = (a * q4) * 2 ^ (k - p)) by (rewrite EY; ring). set (m := a * q4) in *. set (u := 2 ^ (k - p)) in *. set (h := 2 ^ p) in *. clearbody m u h.
    clear - Y1 C EY' W3. subst Y. assert (h - 1 <= m) by nia. assert (m < h) by nia. assert (m = h - 1) by lia. subst m. ring.
  - (* A is just above 2^L *)
    assert (GL : exists w, 2 ^ L = w * D) by (destruct (pow_div (k + 1) L ltac:(lia)) as (w & EW & _); eauto). destruct GL as (w & EW).
    assert (F : A / D = w). { symmetry. apply (Z.div_unique_pos _ _ _ (A - w * D)); unfold A in *; lia. }
    rewrite F. assert (RL : 2 ^ L <= R).
    { destruct (pow_mult p A ltac:(lia) A0 ltac:(fold L; fold s; lia)) as (g & EG). fold L in EG. fold s in EG. rewrite E. rewrite EG in *. 
      destruct (Z_le_gt_dec g q) as [G|G]; [nia|exfalso]. rewrite E in B. assert (q * 2 ^ s + 2 ^ s <= g * 2 ^ s) by nia. lia. }
    symmetry. apply (Z.div_unique_pos _ _ _ (R - w * D)); [|ring]. unfold A in *. lia.
Qed.
Lemma rounding_negative p c n k m : wf c = true -> cr c = true -> 2 <= p -> 0 <= k -> n < 0 -> fp_rep p (qval k n) ->
  (- qval k (n * 2 ^ cf c) + (1 # 2) < inject_Z (2 ^ (p - 1)))%Q ->
  ~ (qval k (n * 2 ^ cf c) == - ((1 # 2) - qval (p + 1) 1))%Q ->
  is_nearest_away (cf c) (qval k n) m ->
  fx_of_fval p c (Fin n k) = if in_range (ct c) m then Ok m else UB.
Proof.
  intros H R P K N I B NE T. rewrite <- (float_ctor_round_neg c n k m H R K N T). unfold fx_of_fval, fx_of_float. rewrite R. replace (0 <=? n) with false by lia.
  pose proof (cf_pos c H) as WF. pose proof (cf_nonneg c H) as F0. pose proof (p2 k K) as WK. set (F := 2 ^ cf c) in *.
  apply fp_irep in I; [|exact K].
  set (Y := 2 * (- n * F)).
  assert (IY : irep p Y). { destruct I as (a & t & T1 & A & ->). exists (- a), (t + cf c + 1). split; [lia|]. rewrite Z.abs_opp. split; [exact A|]. unfold Y, F. rewrite !Z.pow_add_r by lia. change (2 ^ 1) with 2. ring. }
  assert (Y0 : 0 < Y) by (unfold Y; nia).
  assert (YB : Y + 2 ^ k < 2 ^ (p + k)).
  { rewrite qval_opp in B. unfold qval, inject_Z, Qlt, Qplus in B. cbn [Qnum Qden] in B. rewrite ?Pos2Z.inj_mul, ?pow2p_Z in B by auto.
    replace (p + k) with (Z.succ (p - 1) + k) by lia. rewrite Z.pow_add_r, Z.pow_succ_r by lia. unfold Y. lia. }
  assert (YN : p <= k -> Y <> 2 ^ k - 2 ^ (k - p)).
  { intros PK EY. apply NE. unfold qval, Qeq, Qminus, Qopp, Qplus. cbn [Qnum Qden]. rewrite ?Pos2Z.inj_mul, ?pow2p_Z by lia.
    assert (EK : 2 ^ k = 2 ^ p * 2 ^ (k - p)) by (rewrite <- Z.pow_add_r by lia; f_equal; lia).
    assert (EP : 2 ^ (p + 1) = 2 * 2 ^ p) by (rewrite Z.pow_add_r by lia; ring). rewrite EP, EK. rewrite EK in EY. unfold Y in EY.
    set (h := 2 ^ p) in *. set (u := 2 ^ (k - p)) in *. clearbody h u.
    assert (EN : n * F * 2 = - (h * u - u)) by lia. clear - EN. transitivity (n * F * 2 * (2 * h)); [ring|]. rewrite EN. ring. }
  pose proof (half_sum p Y k P K Y0 IY YB YN) as HS.
  unfold float_to_int. replace (Z.quot (rne p (2 * (n * F) - 2 ^ k)) (2 ^ k * 2)) with (Z.quot (2 * (n * F) - 2 ^ k) (2 ^ k * 2)); [reflexivity|].
  replace (2 * (n * F) - 2 ^ k) with (- (Y + 2 ^ k)) by (unfold Y; ring). replace (2 ^ k * 2) with (2 ^ (k + 1)) by (rewrite Z.pow_add_r by lia; ring).
  unfold rne. replace (- (Y + 2 ^ k) <? 0) with true by lia. rewrite Z.opp_involutive.
  pose proof (p2 (k + 1) ltac:(lia)). rewrite !Z.quot_opp_l by lia.
  pose proof (proj1 (rne_pos_irep p (Y + 2 ^ k) ltac:(lia) ltac:(lia))). rewrite !Z.quot_div_nonneg by lia. rewrite HS. reflexivity.
Qed.
