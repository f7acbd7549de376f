(** Real-number statements about detail/util.hpp (C91, C112, C113). *)
From Coq Require Import ZArith Bool List Reals Lra Lia.
From Interval Require Import Tactic.
From Verif Require Import Base Fixed Math Spec SpecReal RealLemmas Util UtilProofs LutProofs.
Import ListNotations.
Open Scope R_scope.

Lemma bbp_not_pi N v : (1 <= N)%Z -> bbp_calc_pi 61 N = Ok v -> 0.008 < Rabs (rval 61 v - PI).
Proof.
  intros H E. assert (D : v = bbp_limit \/ v = 7224974762202907717%Z \/ v = 7224979315980003464%Z \/ v = 7224979316002670436%Z).
  { destruct (Z_lt_le_dec N 4) as [L|L].
    - destruct bbp_small as (B1 & B2 & B3). right.
      assert (N = 1 \/ N = 2 \/ N = 3)%Z as [->|[->| ->]] by lia; [left; rewrite B1 in E|right; left; rewrite B2 in E|right; right; rewrite B3 in E]; injection E as E; symmetry; exact E.
    - rewrite bbp_value in E by exact L. left. clear L. revert E. generalize bbp_limit. intros lim. case (N <=? 2 ^ 28)%Z; intros E; [injection E as E; symmetry; exact E|discriminate E]. }
  unfold rval. replace (IZR (2 ^ 61)) with 2305843009213693952 by (f_equal; reflexivity).
  destruct D as [->|[->|[->| ->]]]; unfold bbp_limit; interval with (i_prec 60).
Qed.

Lemma pi_raw : 13493037704 / 4294967296 <= PI < 13493037705 / 4294967296.
Proof. split; interval with (i_prec 60). Qed.
Lemma angels_ok N : (1 <= N < 2 ^ 31)%Z -> exists l, angels_lut N = Ok l /\ Z.of_nat (length l) = N /\
  forall i, (0 <= i < N)%Z -> rval 32 (nth (Z.to_nat i) l 0%Z) <= IZR i * PI / IZR N < rval 32 (nth (Z.to_nat i) l 0%Z) + IZR (i + 1) * ulp 32.
Proof.
  intros H. destruct (angels_eq N) as (l & E & L & NT); [change (2 ^ 31)%Z with 2147483648%Z in H; lia|]. exists l. split; [exact E|]. split; [exact L|].
  intros i I. rewrite NT by auto. unfold rval, ulp. replace (IZR (2 ^ 32)) with 4294967296 by (f_equal; reflexivity).
  pose proof (div_real 13493037704 N ltac:(lia)) as D. pose proof pi_raw as P. rewrite mult_IZR, plus_IZR.
  assert (N1 : 1 <= IZR N) by (apply IZR_le; lia). assert (I0 : 0 <= IZR i) by (apply IZR_le; lia). assert (IN : IZR i <= IZR N - 1) by (rewrite <- minus_IZR; apply IZR_le; lia).
  set (d := IZR (13493037704 / N)) in *. set (n := IZR N) in *. set (k := IZR i) in *.
  assert (U : 0 < / n) by (apply Rinv_0_lt_compat; lra). assert (NU : n * / n = 1) by (field; lra).
  assert (D1 : d * n <= 13493037704 < (d + 1) * n).
  { unfold Rdiv in D. destruct D as [D1 D2]. split.
    - apply (Rmult_le_compat_r n) in D1; [|lra]. rewrite Rmult_assoc, (Rmult_comm (/ n)), NU in D1. lra.
    - apply (Rmult_lt_compat_r n) in D2; [|lra]. rewrite Rmult_assoc, (Rmult_comm (/ n)), NU in D2. lra. }
  replace (d * k / 4294967296) with ((d * n * k / 4294967296) * / n) by (field; lra).
  replace (k * PI / n) with (k * PI * / n) by reflexivity.
  split.
  - apply Rmult_le_compat_r; [lra|]. nra.
  - replace (d * n * k / 4294967296 * / n + (k + 1) * / 4294967296) with ((d * n * k / 4294967296 + (k + 1) * n / 4294967296) * / n) by (field; lra).
    apply Rmult_lt_compat_r; [exact U|].
    assert (k * PI <= k * (13493037705 / 4294967296)) by (apply Rmult_le_compat_l; lra).
    assert (k * 13493037705 <= k * ((d + 1) * n + 1)) by (apply Rmult_le_compat_l; lra). nra.
Qed.

Lemma lut_zero_real sin_d N x : sin_like sin_d -> (4 <= N < 2 ^ 31)%Z -> (0 <= x)%Z -> rval 32 x + PI / IZR N < 1 -> lut_calc_sin sin_d N x = Ok 0%Z.
Proof.
  intros S H X B. apply lut_zero; auto. pose proof pi_raw as P. unfold rval in B. replace (IZR (2 ^ 32)) with 4294967296 in B by (f_equal; reflexivity).
  apply lt_IZR. rewrite plus_IZR. pose proof (div_real 13493037704 N ltac:(lia)) as D.
  assert (N1 : 1 <= IZR N) by (apply IZR_le; lia).
  assert (IZR 13493037704 / IZR N <= 4294967296 * (PI / IZR N)).
  { unfold Rdiv. rewrite <- Rmult_assoc. apply Rmult_le_compat_r; [left; apply Rinv_0_lt_compat; lra|]. lra. }
  lra.
Qed.
Lemma lut_refuted sin_d : sin_like sin_d -> exists x, rval 32 x = 1 / 2 /\ lut_calc_sin sin_d 512 x = Ok 0%Z /\ 0.47 < Rabs (rval 32 0 - sin (rval 32 x)).
Proof.
  intros S. exists 2147483648%Z. assert (E : rval 32 2147483648 = 1 / 2).
  { unfold rval. replace (IZR (2 ^ 32)) with 4294967296 by (f_equal; reflexivity). lra. }
  rewrite E. split; [lra|]. split.
  - apply lut_zero_real; auto; [lia|lia|]. rewrite E. interval with (i_prec 60).
  - replace (rval 32 0) with 0 by (unfold rval; lra). interval with (i_prec 60).
Qed.
(** the exact sine rounded to 52 bits below the point satisfies the premise: any such function does *)
Definition sin_zero (i : Z) : (Z * Z) := match i with 0%Z => (0, 0) | 1 => (7579296827247855, 53) | 2 => (8190223105242182, 53) | 3 => (1271122451105143, 53) | _ => (0, 0) end%Z.
Lemma sin_zero_like : sin_like sin_zero.
Proof.
  split; [reflexivity|]. intros i. unfold sin_zero. destruct i as [|p|p]; try (cbn; lia).
  destruct p as [p|p|]; try destruct p as [p|p|]; cbn; lia.
Qed.
Lemma sin_zero_case : lut_calc_sin sin_zero 8 2147483648 = Ok 0%Z /\ lut_calc_sin sin_zero 8 6442450944 = Ok 3614090359%Z.
Proof. split; vm_compute; reflexivity. Qed.
Lemma bbp_all : (bbp_calc_pi 61 1 = Ok 7224974762202907717 /\ bbp_calc_pi 61 2 = Ok 7224979315980003464 /\ bbp_calc_pi 61 3 = Ok 7224979316002670436 /\
  (forall N, 4 <= N <= 2 ^ 28 -> bbp_calc_pi 61 N = Ok 7224979316002670606) /\ (forall N, 2 ^ 28 < N -> bbp_calc_pi 61 N = UB))%Z.
Proof.
  destruct bbp_small as (B1 & B2 & B3). split; [exact B1|]. split; [exact B2|]. split; [exact B3|]. split; intros N H.
  - rewrite bbp_value by apply H. destruct (Z.leb_spec N (2 ^ 28)) as [L|L]; [reflexivity|]. exfalso. apply (Z.lt_irrefl N). eapply Z.le_lt_trans; [apply H|exact L].
  - rewrite bbp_value by (change (2 ^ 28)%Z with 268435456%Z in H; lia). destruct (Z.leb_spec N (2 ^ 28)) as [L|L]; [|reflexivity].
    exfalso. apply (Z.lt_irrefl N). eapply Z.le_lt_trans; [exact L|exact H].
Qed.
Lemma case92 : is_floor 4 (qval 5 105) 52 /\ fits 64 true 52 /\ eval_value int64 105 5 4 = Ok 52%Z.
Proof. split; [|split]; [split; vm_compute; congruence|split; vm_compute; congruence|vm_compute; reflexivity]. Qed.
Lemma case110 : is_trunc 0 (qval 5 (-105)) (-3) /\ eval_value int64 (-105) 5 4 = Ok (-48)%Z.
Proof. split; [|vm_compute; reflexivity]. split; intros H; [|split]; vm_compute in *; congruence. Qed.
Lemma case93 : measure_esp 9 F32 0 (2 * 65536) 65536 (fun x => Ok 0%Z) (fun x => Ok (x / 2)%Z) (fun n => n * 65536)%Z =
  Ok {| max_esp := 65536; min_esp := 0; max_esp_input := 131072; min_esp_input := 0 |}.
Proof. vm_compute. reflexivity. Qed.
Lemma case111 : measure_esp 9 F32 (2 ^ 31 - 1) (2 ^ 31 - 1) 1 (fun _ => Ok 0%Z) (fun _ => Ok 0%Z) (fun n => n * 65536)%Z = UB /\
  measure_esp 9 F32 0 65536 0 (fun _ => Ok 0%Z) (fun _ => Ok 0%Z) (fun n => n * 65536)%Z = OutOfFuel.
Proof. split; vm_compute; reflexivity. Qed.
Lemma case112 : angels_lut 4 = Ok [0; 3373259426; 6746518852; 10119778278]%Z.
Proof. vm_compute. reflexivity. Qed.
