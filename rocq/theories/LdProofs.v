(** Proofs about the reading of a long double literal (Print.v ld_of). *)
From Coq Require Import ZArith QArith Qabs Bool Lia.
From Verif Require Import Base Fixed Float Print Spec SpecFp BaseLemmas SpecLemmas FixedLemmas RefuteArith FloatProofs.
Open Scope Z_scope.

(** a rounding of [n] is nearest to every point x / d within half a unit of it that is not below the binade of [n] *)
Lemma any_best p n k a t x d : let L := Z.log2 n in let s := L + 1 - p in
  1 <= p -> 0 < n -> 0 < s -> 0 < d -> 0 <= k -> 0 <= t -> Z.abs a < 2 ^ p -> 2 ^ L * d <= x ->
  Z.abs (2 * (rne_pos p n * d - x)) <= 2 ^ s * d ->
  Z.abs (rne_pos p n * 2 ^ k * d - x * 2 ^ k) <= Z.abs (a * 2 ^ t * d - x * 2 ^ k).
Proof.
  intros L s P N S D K T A X B. destruct (rne_round p n P N S) as (q & E & _). fold L in E. fold s in E. rewrite E in *.
  pose proof (p2 k K) as W. pose proof (p2 s ltac:(lia)) as WS. pose proof (p2 t T) as WT.
  assert (MB : forall z, Z.abs (q * 2 ^ s * 2 ^ k * d - x * 2 ^ k) <= Z.abs (z * 2 ^ s * 2 ^ k * d - x * 2 ^ k)).
  { intros z. replace (q * 2 ^ s * 2 ^ k * d - x * 2 ^ k) with ((q * 2 ^ s * d - x) * 2 ^ k) by ring.
    replace (z * 2 ^ s * 2 ^ k * d - x * 2 ^ k) with ((z * 2 ^ s * d - x) * 2 ^ k) by ring.
    rewrite !Z.abs_mul. apply Z.mul_le_mono_nonneg_r; [lia|]. set (w := 2 ^ s) in *. clearbody w. clear - B WS D.
    assert (z = q \/ z < q \/ q < z) as [-> |[H|H]] by lia; [lia| |].
    - assert (z * w * d + w * d <= q * w * d) by nia. lia.
    - assert (q * w * d + w * d <= z * w * d) by nia. lia. }
  destruct (Z_le_gt_dec (2 ^ (L + k)) (a * 2 ^ t)) as [C|C].
  - assert (LS : Z.log2 (n * 2 ^ k) = L + k) by (rewrite Z.log2_mul_pow2 by lia; unfold L; lia).
    destruct (grid p (n * 2 ^ k) P ltac:(nia) a t T) as (z & ->).
    + pose proof (p2 (L + k) ltac:(pose proof (L0 n); unfold L; lia)). nia.
    + rewrite LS. exact C.
    + rewrite LS. lia.
    + rewrite LS. replace (L + k + 1 - p) with (s + k) by (unfold s; lia). rewrite Z.pow_add_r by lia.
      rewrite Z.mul_assoc. apply MB.
  - destruct (pow_mult p n P N S) as (z & EZ). fold L in EZ. fold s in EZ. specialize (MB z). rewrite <- EZ in MB.
    rewrite Z.pow_add_r in C by (try apply L0; lia).
    etransitivity; [exact MB|]. set (y := a * 2 ^ t) in *. set (l := 2 ^ L) in *. set (u := 2 ^ k) in *. clearbody y l u. clear - C X D W.
    assert (l * u * d <= x * u) by nia. assert (y * d <= l * u * d) by nia. lia.
Qed.

Lemma ld_nearest p a : 1 <= p <= 113 -> 10 ^ 35 <= a ->
  fp_nearest p (Qmake a (Z.to_pos (10 ^ 36))) (qval 201 (ld_of p a)).
Proof.
  intros P HA. split; [apply irep_fp; [lia|]; apply rne_irep; lia|].
  intros r' (b & t & k & T & K & B & E). rewrite E. clear r' E.
  set (d := 10 ^ 36). assert (D : 0 < d) by reflexivity.
  unfold ld_of. fold d. pose proof (Z.div_mod (a * 2 ^ 200) d ltac:(lia)) as DM. pose proof (Z.mod_pos_bound (a * 2 ^ 200) d D) as MB.
  set (q := a * 2 ^ 200 / d) in *. set (r := a * 2 ^ 200 mod d) in *.
  assert (Q : 2 ^ 195 <= q).
  { apply Z.div_le_lower_bound; [exact D|]. apply Z.le_trans with (10 ^ 35 * 2 ^ 200); [vm_compute; discriminate|].
    apply Z.mul_le_mono_nonneg_r; [lia|exact HA]. }
  set (N := 2 * q + (if r =? 0 then 0 else 1)).
  assert (NP : 2 ^ 196 <= N) by (unfold N; replace (2 ^ 196) with (2 * 2 ^ 195) by reflexivity; destruct (r =? 0); lia).
  assert (N0 : 0 < N) by (eapply Z.lt_le_trans; [|exact NP]; reflexivity).
  assert (L : 196 <= Z.log2 N) by (apply Z.log2_le_pow2; assumption).
  unfold rne. replace (N <? 0) with false by lia.
  assert (S : 2 <= Z.log2 N + 1 - p) by lia.
  assert (M : Z.abs (rne_pos p N * 2 ^ k * d - 2 * (a * 2 ^ 200) * 2 ^ k) <= Z.abs (b * 2 ^ (t + 201) * d - 2 * (a * 2 ^ 200) * 2 ^ k)).
  { rewrite DM. pose proof (logb N N0) as LB.
    destruct (rne_round p N ltac:(lia) N0 ltac:(lia)) as (g & EG & BG).
    assert (EV : exists l, 2 ^ Z.log2 N = 2 * l).
    { exists (2 ^ (Z.log2 N - 1)). rewrite <- Z.pow_succ_r by lia. f_equal. lia. }
    assert (ES : exists w, 2 ^ (Z.log2 N + 1 - p) = 4 * w).
    { exists (2 ^ (Z.log2 N + 1 - p - 2)). change 4 with (2 ^ 2). rewrite <- Z.pow_add_r by lia. f_equal. lia. }
    apply any_best; try lia.
    - destruct EV as (l & EV). rewrite EV in *. clear - LB MB D DM. unfold N in LB. clearbody q r d.
      assert (l <= q) by (destruct (r =? 0); lia). nia.
    - destruct ES as (w & ES). rewrite EG. rewrite ES in *. clear - BG MB D. clearbody d.
      assert (-(4 * w) <= 2 * (g * (4 * w)) - 4 * q - (if r =? 0 then 0 else 4) /\ 2 * (g * (4 * w)) - 4 * q <= 4 * w \/ False) as [(B1 & B2)|[]].
      { left. unfold N in BG. destruct (r =? 0) eqn:ER; [lia|]. set (y := g * (4 * w)) in *.
        assert (exists v, y = 4 * v) as (v & EY) by (exists (g * w); unfold y; ring). rewrite EY in *. lia. }
      destruct (Z.eqb_spec r 0) as [-> |NR]; set (y := g * (4 * w)) in *; clearbody y; nia. }
  replace (b * 2 ^ (t + 201)) with (b * 2 ^ t * 2 ^ 201) in M by (rewrite Z.pow_add_r by lia; ring).
  assert (EQ : 2 * (a * 2 ^ 200) = a * 2 ^ 201) by (change (2 ^ 201) with (2 * 2 ^ 200); ring). rewrite EQ in M.
  unfold qval, Qabs, Qminus, Qplus, Qopp, Qle. cbn [Qnum Qden]. rewrite !Pos2Z.inj_mul, !pow2p_Z by lia. fold d.
  change (Z.pos (Z.to_pos d)) with d.
  set (u := 2 ^ 201) in *. assert (U : 0 < u) by reflexivity. pose proof (p2 k K) as W. set (w := 2 ^ k) in *.
  set (h := rne_pos p N) in *. set (c := b * 2 ^ t) in *. clearbody d u w h c. clear - M D U W.
  replace (h * d + - a * u) with (h * d - a * u) by ring. replace (c * d + - a * w) with (c * d - a * w) by ring.
  apply Z.le_trans with (Z.abs (h * w * d - a * u * w) * d).
  - replace (h * w * d - a * u * w) with ((h * d - a * u) * w) by ring. rewrite Z.abs_mul, (Z.abs_eq w) by lia. lia.
  - apply Z.le_trans with (Z.abs (c * u * d - a * u * w) * d); [apply Z.mul_le_mono_nonneg_r; lia|].
    replace (c * u * d - a * u * w) with ((c * d - a * w) * u) by ring. rewrite Z.abs_mul, (Z.abs_eq u) by lia. lia.
Qed.
Lemma double_nearest p a : fp_nearest 53 (qval 201 (ld_of p a)) (qval 201 (double_of p a)).
Proof. apply rne_nearest; lia. Qed.
