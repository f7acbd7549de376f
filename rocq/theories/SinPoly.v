(** The Taylor polynomial of sin: integer form and rounding-error analysis. *)
From Coq Require Import ZArith Reals Lia Lra Psatz Bool.
From Interval Require Import Tactic.
From Verif Require Import Base Fixed Math Spec SpecReal BaseLemmas FixedLemmas CLemmas MathProofs PowProofs RealLemmas StdProofs.
Open Scope R_scope.

Lemma std_div_int c x n : std c -> valid c x = true -> (0 < n < 1000)%Z ->
  fx_div_int c int32 x n = Ok (Z.quot x n).
Proof.
  intros HS V Hn. unfold fx_div_int, fx_div_assign_int.
  assert (QL : (Z.abs (Z.quot x n) <= Z.abs x)%Z).
  { rewrite <- Z.quot_abs by lia. rewrite (Z.abs_eq n) by lia. apply Z.quot_le_upper_bound; nia. }
  assert (QS : (0 <= x -> 0 <= Z.quot x n)%Z) by (intros; apply Z.quot_pos; lia).
  assert (QN : (x <= 0 -> Z.quot x n <= 0)%Z).
  { intros. pose proof (Z.quot_pos (- x) n ltac:(lia) ltac:(lia)). rewrite Z.quot_opp_l in * by lia. lia. }
  assert (Q : valid c (Z.quot x n) = true).
  { pose proof (std_valid c HS x) as I. apply I in V. apply (std_valid c HS). clear - QL QS QN V. lia. }
  assert (R : valid c n = true).
  { apply (std_valid c HS). pose proof (std_M c HS). nia. }
  assert (U : uac (ct c) int32 = ct c) by (destruct HS as [-> | ->]; reflexivity).
  pose proof (std_t_ok c HS) as T.
  unfold c_div. rewrite U, !wrap_id by auto. replace (n =? 0)%Z with false by (clear - Hn; lia).
  rewrite arith_ok by auto. cbn [bind]. rewrite wrap_id by auto. reflexivity.
Qed.

(** ** Integer form *)
Section INT.
Variable c : cfg.
Hypothesis HS : std c.
Variables P A B C D : Z.
Let M := (2 ^ cf c)%Z.
Hypothesis HP : pi_v c = Ok P.
Hypothesis HP' : fx_pi c = Ok P.
Hypothesis HA : (let* p := fx_mul c P P in fx_div_int c int32 p 24) = Ok A.
Hypothesis HB : (let* p := fx_mul c P P in fx_div_int c int32 p 80) = Ok B.
Hypothesis HC : (let* p := fx_mul c P P in fx_div_int c int32 p 168) = Ok C.
Hypothesis HD : (let* p := fx_mul c P P in fx_div_int c int32 p 288) = Ok D.
Hypothesis RA : (0 <= A <= M)%Z.
Hypothesis RB : (0 <= B <= M)%Z.
Hypothesis RC : (0 <= C <= M)%Z.
Hypothesis RD : (0 <= D <= M)%Z.
Hypothesis RP : (0 <= P <= 4 * M)%Z.

Definition fm (M x y : Z) : Z := (x * y / M)%Z.
Definition sin_poly_z (M P A B C D x : Z) : Z :=
  let x2 := fm M x x in
  let d2 := (M - fm M D x2)%Z in
  let c2 := (M - fm M (fm M C x2) d2)%Z in
  let b2 := (M - fm M (fm M B x2) c2)%Z in
  let a2 := (M - fm M (fm M A x2) b2)%Z in
  (fm M (fm M P x) a2 / 2)%Z.

Lemma fm_range u v k : (0 <= u <= k)%Z -> (0 <= v <= M)%Z -> (0 <= fm M u v <= k)%Z.
Proof.
  intros Hu Hv. pose proof (std_M c HS) as HM. fold M in HM. unfold fm. split.
  - apply Z.div_pos; nia.
  - apply Z.div_le_upper_bound; nia.
Qed.
Lemma small_v k : (0 <= k <= 8 * M)%Z -> valid c k = true.
Proof. intros. apply std_valid; auto. pose proof (std_M c HS) as HM. fold M in HM |- *. nia. Qed.
Lemma fm_ok u v k : (0 <= u <= k)%Z -> (k <= 8 * M)%Z -> (0 <= v <= M)%Z -> fx_mul c u v = Ok (fm M u v).
Proof.
  intros Hu Hk Hv. pose proof (fm_range u v k Hu Hv). pose proof (std_M c HS) as HM. fold M in HM. unfold fm in *.
  apply s_mul; auto; apply small_v; try (fold M); lia.
Qed.
Lemma sub_ok u : (0 <= u <= M)%Z -> fx_sub c M u = Ok (M - u)%Z.
Proof. intros H. pose proof (std_M c HS) as HM. fold M in HM. apply s_sub; auto; apply small_v; lia. Qed.

Lemma sin_poly_eq x : (0 <= x <= M)%Z -> sin_poly c x = Ok (sin_poly_z M P A B C D x).
Proof using HS HP HP' HA HB HC HD RA RB RC RD RP.
  intros Hx. pose proof (std_M c HS) as HM. fold M in HM.
  unfold sin_poly. rewrite s_int by (auto; apply small_v; fold M; lia). fold M. cbn [bind].
  replace (1 * M)%Z with M by lia.
  rewrite (fm_ok x x M) by lia. cbn [bind]. rewrite HP. cbn [bind].
  destruct (fx_mul c P P) as [pp| | |] eqn:EP; try discriminate. cbn [bind] in *.
  rewrite HA, HB, HC, HD. cbn [bind].
  unfold sin_poly_z. 
  set (x2 := fm M x x). assert (X2 : (0 <= x2 <= M)%Z) by (apply fm_range; lia).
  rewrite (fm_ok D x2 D) by lia. cbn [bind].
  assert (R1 : (0 <= fm M D x2 <= D)%Z) by (apply fm_range; lia). rewrite sub_ok by lia. cbn [bind].
  set (d2 := (M - fm M D x2)%Z) in *.
  rewrite (fm_ok C x2 C) by lia. cbn [bind].
  assert (R2 : (0 <= fm M C x2 <= C)%Z) by (apply fm_range; lia). rewrite (fm_ok _ d2 C) by lia. cbn [bind].
  assert (R3 : (0 <= fm M (fm M C x2) d2 <= C)%Z) by (apply fm_range; lia). rewrite sub_ok by lia. cbn [bind].
  set (c2 := (M - fm M (fm M C x2) d2)%Z) in *.
  rewrite (fm_ok B x2 B) by lia. cbn [bind].
  assert (R4 : (0 <= fm M B x2 <= B)%Z) by (apply fm_range; lia). rewrite (fm_ok _ c2 B) by lia. cbn [bind].
  assert (R5 : (0 <= fm M (fm M B x2) c2 <= B)%Z) by (apply fm_range; lia). rewrite sub_ok by lia. cbn [bind].
  set (b2 := (M - fm M (fm M B x2) c2)%Z) in *.
  rewrite (fm_ok A x2 A) by lia. cbn [bind].
  assert (R6 : (0 <= fm M A x2 <= A)%Z) by (apply fm_range; lia). rewrite (fm_ok _ b2 A) by lia. cbn [bind].
  assert (R7 : (0 <= fm M (fm M A x2) b2 <= A)%Z) by (apply fm_range; lia). rewrite sub_ok by lia. cbn [bind].
  set (a2 := (M - fm M (fm M A x2) b2)%Z) in *.
  rewrite HP'. cbn [bind]. rewrite (fm_ok P x P) by lia. cbn [bind].
  assert (R8 : (0 <= fm M P x <= P)%Z) by (apply fm_range; lia). rewrite (fm_ok _ a2 P) by lia. cbn [bind].
  assert (R9 : (0 <= fm M (fm M P x) a2 <= P)%Z) by (apply fm_range; lia).
  rewrite std_div_int by (auto; try (apply small_v; fold M); lia). f_equal. apply Z.quot_div_nonneg; lia.
Qed.
End INT.

(** ** Rounding errors.  [e] is one ulp. *)
Section ERR.
Variable M : Z.
Hypothesis HM : (2 <= M)%Z.
Let RM := IZR M.
Let e := / RM.
Let v (z : Z) := IZR z / RM.

Lemma RMpos : 2 <= RM. Proof. apply IZR_le; auto. Qed.
Lemma e_pos : 0 < e. Proof. apply Rinv_0_lt_compat. pose proof RMpos. lra. Qed.
Lemma e_small : e <= / 2. Proof. apply Rinv_le_contravar; [lra|apply RMpos]. Qed.

Lemma fm_real a b : v a * v b - e < v (fm M a b) <= v a * v b.
Proof.
  pose proof (div_real (a * b) M ltac:(lia)) as H. fold (fm M a b) in H. rewrite mult_IZR in H. fold RM in H.
  pose proof RMpos. unfold v, e.
  replace (IZR a / RM * (IZR b / RM)) with (IZR a * IZR b / RM * / RM) by (field; lra).
  assert (0 < / RM) by (apply Rinv_0_lt_compat; lra).
  set (q := IZR a * IZR b / RM) in *. unfold Rdiv. split; nra.
Qed.
(** products of perturbed non-negative factors *)
Lemma prod_err u w U W k al be ga :
  0 <= u -> 0 <= w -> U - al * e <= u <= U -> W - be * e <= w <= W + ga * e ->
  0 <= W <= 1 -> 0 <= U <= k -> 0 <= al -> 0 <= be -> 0 <= ga ->
  U * W - (al + k * be) * e <= u * w <= U * W + k * ga * e.
Proof.
  intros Hu Hw HU HW BW BU Ha Hb Hg. pose proof e_pos as He.
  assert (0 <= ga * e) by nra. assert (0 <= be * e) by nra. assert (0 <= al * e) by nra. split.
  - assert (u * (W - be * e) <= u * w) by (apply Rmult_le_compat_l; lra).
    assert (u * (be * e) <= k * (be * e)) by (apply Rmult_le_compat_r; lra).
    assert ((U - al * e) * W <= u * W) by (apply Rmult_le_compat_r; lra).
    assert (al * e * W <= al * e * 1) by (apply Rmult_le_compat_l; lra). nra.
  - assert (u * w <= U * w) by (apply Rmult_le_compat_r; lra).
    assert (U * w <= U * (W + ga * e)) by (apply Rmult_le_compat_l; lra).
    assert (U * (ga * e) <= k * (ga * e)) by (apply Rmult_le_compat_r; lra). nra.
Qed.
Lemma fm_err a b U W k al be ga :
  (0 <= a)%Z -> (0 <= b)%Z -> U - al * e <= v a <= U -> W - be * e <= v b <= W + ga * e ->
  0 <= W <= 1 -> 0 <= U <= k -> 0 <= al -> 0 <= be -> 0 <= ga ->
  U * W - (al + k * be + 1) * e <= v (fm M a b) <= U * W + k * ga * e.
Proof.
  intros Ha Hb HU HW BW BU Hal Hbe Hga. pose proof (fm_real a b) as F. pose proof RMpos.
  assert (0 <= v a) by (apply Rmult_le_pos; [apply IZR_le; auto|left; apply e_pos]).
  assert (0 <= v b) by (apply Rmult_le_pos; [apply IZR_le; auto|left; apply e_pos]).
  pose proof (prod_err (v a) (v b) U W k al be ga). lra.
Qed.
Lemma v_sub a : v (M - a) = 1 - v a.
Proof. unfold v. rewrite minus_IZR. fold RM. pose proof RMpos. field. lra. Qed.
Lemma fm_nn a b : (0 <= a)%Z -> (0 <= b)%Z -> (0 <= fm M a b)%Z.
Proof. intros. apply Z.div_pos; nia. Qed.
Lemma fm_le a b k : (0 <= a <= k)%Z -> (0 <= b <= M)%Z -> (0 <= fm M a b <= k)%Z.
Proof. intros. unfold fm. split; [apply Z.div_pos; nia|apply Z.div_le_upper_bound; nia]. Qed.

Variables P A B C D : Z.
Hypothesis RA : (0 <= A <= M)%Z.
Hypothesis RB : (0 <= B <= M)%Z.
Hypothesis RC : (0 <= C <= M)%Z.
Hypothesis RD : (0 <= D <= M)%Z.
Hypothesis RP : (0 <= P)%Z.
Let a := PI * PI / 24. Let b := PI * PI / 80. Let c := PI * PI / 168. Let d := PI * PI / 288.
Hypothesis EA : a - 2 * e <= v A <= a.
Hypothesis EB : b - 2 * e <= v B <= b.
Hypothesis EC : c - 2 * e <= v C <= c.
Hypothesis ED : d - 2 * e <= v D <= d.
Hypothesis EP : PI - e <= v P <= PI.

(** the Taylor polynomial of sin (PI X / 2) *)
Definition T9 (X : R) : R :=
  PI * X * (1 - PI * PI / 24 * (X * X) * (1 - PI * PI / 80 * (X * X) * (1 - PI * PI / 168 * (X * X) *
    (1 - PI * PI / 288 * (X * X))))) / 2.

Lemma sin_poly_err x : (0 <= x <= M)%Z ->
  T9 (v x) - 5.3 * e <= v (sin_poly_z M P A B C D x) <= T9 (v x) + 7.3 * e.
Proof using HM RA RB RC RD RP EA EB EC ED EP.
  intros Hx. pose proof RMpos as HR. pose proof e_pos as He. pose proof e_small as He'.
  set (X := v x).
  assert (X0 : 0 <= X <= 1).
  { unfold X, v. split; [apply Rmult_le_pos; [apply IZR_le; lia|left; auto]|].
    apply Rmult_le_reg_r with RM; [lra|]. unfold Rdiv. rewrite Rmult_assoc, Rinv_l, Rmult_1_r, Rmult_1_l by lra.
    apply IZR_le. lia. }
  set (s := X * X). assert (S0 : 0 <= s <= 1) by (unfold s; nra).
  assert (ba : 0 <= a <= 0.4113) by (unfold a; split; interval with (i_prec 60)).
  assert (bb : 0 <= b <= 0.1234) by (unfold b; split; interval with (i_prec 60)).
  assert (bc : 0 <= c <= 0.0588) by (unfold c; split; interval with (i_prec 60)).
  assert (bd : 0 <= d <= 0.0343) by (unfold d; split; interval with (i_prec 60)).
  assert (bp : 3 <= PI <= 3.15) by (split; interval with (i_prec 60)).
  set (x2 := fm M x x).
  assert (Z2 : (0 <= x2 <= M)%Z) by (apply fm_le; lia).
  assert (F2 : s - 1 * e <= v x2 <= s + 0 * e) by (pose proof (fm_real x x); fold X x2 s in H; lra).
  (* d *)
  assert (Fd := fm_err D x2 d s 0.0343 2 1 0 ltac:(lia) ltac:(lia) ED F2 S0 bd ltac:(lra) ltac:(lra) ltac:(lra)).
  assert (Zd := fm_le D x2 D ltac:(lia) Z2).
  set (d1 := fm M D x2) in *. set (d2 := (M - d1)%Z).
  assert (Gd : 1 - d * s - 0 * e <= v d2 <= 1 - d * s + 3.04 * e) by (unfold d2; rewrite v_sub; lra).
  assert (Wd : 0 <= 1 - d * s <= 1) by nra.
  (* c *)
  assert (Fc := fm_err C x2 c s 0.0588 2 1 0 ltac:(lia) ltac:(lia) EC F2 S0 bc ltac:(lra) ltac:(lra) ltac:(lra)).
  assert (Zc := fm_le C x2 C ltac:(lia) Z2). set (c0 := fm M C x2) in *.
  assert (Hc0 : c * s - 3.06 * e <= v c0 <= c * s) by lra.
  assert (Bc : 0 <= c * s <= 0.0588) by (clear - S0 bc; nra).
  assert (Fc1 := fm_err c0 d2 (c * s) (1 - d * s) 0.0588 3.06 0 3.04 ltac:(lia) ltac:(lia) Hc0 Gd Wd Bc ltac:(lra) ltac:(lra) ltac:(lra)).
  assert (Zc1 := fm_le c0 d2 C ltac:(lia) ltac:(lia)). set (c1 := fm M c0 d2) in *.
  set (c2 := (M - c1)%Z).
  assert (Gc : 1 - c * s * (1 - d * s) - 0.18 * e <= v c2 <= 1 - c * s * (1 - d * s) + 4.06 * e) by (unfold c2; rewrite v_sub; lra).
  assert (Wc : 0 <= 1 - c * s * (1 - d * s) <= 1) by (clear - Bc Wd; nra).
  set (vc := 1 - c * s * (1 - d * s)) in *.
  (* b *)
  assert (Fb := fm_err B x2 b s 0.1234 2 1 0 ltac:(lia) ltac:(lia) EB F2 S0 bb ltac:(lra) ltac:(lra) ltac:(lra)).
  assert (Zb := fm_le B x2 B ltac:(lia) Z2). set (b0 := fm M B x2) in *.
  assert (Hb0 : b * s - 3.13 * e <= v b0 <= b * s) by lra.
  assert (Bb : 0 <= b * s <= 0.1234) by (clear - S0 bb; nra).
  assert (Fb1 := fm_err b0 c2 (b * s) vc 0.1234 3.13 0.18 4.06 ltac:(lia) ltac:(lia) Hb0 Gc Wc Bb ltac:(lra) ltac:(lra) ltac:(lra)).
  assert (Zb1 := fm_le b0 c2 B ltac:(lia) ltac:(lia)). set (b1 := fm M b0 c2) in *.
  set (b2 := (M - b1)%Z).
  assert (Gb : 1 - b * s * vc - 0.51 * e <= v b2 <= 1 - b * s * vc + 4.16 * e) by (unfold b2; rewrite v_sub; lra).
  assert (Wb : 0 <= 1 - b * s * vc <= 1) by (clear - Bb Wc; nra).
  set (vb := 1 - b * s * vc) in *.
  (* a *)
  assert (Fa := fm_err A x2 a s 0.4113 2 1 0 ltac:(lia) ltac:(lia) EA F2 S0 ba ltac:(lra) ltac:(lra) ltac:(lra)).
  assert (Za := fm_le A x2 A ltac:(lia) Z2). set (a0 := fm M A x2) in *.
  assert (Ha0 : a * s - 3.42 * e <= v a0 <= a * s) by lra.
  assert (Ba : 0 <= a * s <= 0.4113) by (clear - S0 ba; nra).
  assert (Fa1 := fm_err a0 b2 (a * s) vb 0.4113 3.42 0.51 4.16 ltac:(lia) ltac:(lia) Ha0 Gb Wb Ba ltac:(lra) ltac:(lra) ltac:(lra)).
  assert (Za1 := fm_le a0 b2 A ltac:(lia) ltac:(lia)). set (a1 := fm M a0 b2) in *.
  set (a2 := (M - a1)%Z).
  assert (Ga : 1 - a * s * vb - 1.72 * e <= v a2 <= 1 - a * s * vb + 4.63 * e) by (unfold a2; rewrite v_sub; lra).
  assert (Wa : 0 <= 1 - a * s * vb <= 1) by (clear - Ba Wb; nra).
  set (va := 1 - a * s * vb) in *.
  (* pi x *)
  assert (Fp := fm_err P x PI X 3.15 1 0 0 ltac:(lia) ltac:(lia) ltac:(lra) ltac:(unfold X; lra) X0 ltac:(lra) ltac:(lra) ltac:(lra) ltac:(lra)).
  assert (Zp := fm_nn P x ltac:(lia) ltac:(lia)). set (p0 := fm M P x) in *.
  assert (Hp0 : PI * X - 2 * e <= v p0 <= PI * X) by lra.
  assert (Bp : 0 <= PI * X <= 3.15) by (clear - X0 bp; nra).
  assert (Fr := fm_err p0 a2 (PI * X) va 3.15 2 1.72 4.63 ltac:(lia) ltac:(lia) Hp0 Ga Wa Bp ltac:(lra) ltac:(lra) ltac:(lra)).
  set (r1 := fm M p0 a2) in *.
  assert (ER : sin_poly_z M P A B C D x = (r1 / 2)%Z) by reflexivity. rewrite ER.
  assert (ET : T9 X = PI * X * va / 2) by reflexivity. rewrite ET.
  pose proof (div_real r1 2 ltac:(lia)) as Q.
  assert (V1 : v r1 / 2 - e <= v (r1 / 2) <= v r1 / 2).
  { unfold v, e. split; unfold Rdiv in *.
    - replace (IZR r1 * / RM * / 2 - / RM) with ((IZR r1 * / 2 - 1) * / RM) by ring. apply Rmult_le_compat_r; [|lra]. left; auto.
    - replace (IZR r1 * / RM * / 2) with ((IZR r1 * / 2) * / RM) by ring. apply Rmult_le_compat_r; [|lra]. left; auto. }
  lra.
Qed.
Lemma T9_sin X : 0 <= X <= 1 -> sin (PI * X / 2) - 1e-9 <= T9 X <= sin (PI * X / 2) + 3.7e-6.
Proof.
  intros HX. unfold T9. split.
  - apply Rminus_le. interval with (i_bisect X, i_taylor X, i_prec 60).
  - apply Rminus_le. interval with (i_bisect X, i_taylor X, i_prec 60).
Qed.
End ERR.
