(** Proofs about the lookup tables of detail/util.hpp (C112, C113). *)
From Coq Require Import ZArith Bool List Lia.
From Verif Require Import Base BaseLemmas Fixed Math FixedLemmas MathProofs InspectProofs StdProofs Util.
Import ListNotations.
Open Scope Z_scope.

Lemma v64 x : -9223372036854775808 <= x <= 9223372036854775807 -> valid F64 x = true.
Proof. intros. unfold valid. apply in_range_iff. change (minv (ct F64)) with (-9223372036854775808). change (maxv (ct F64)) with 9223372036854775807. lia. Qed.
Lemma sF64 : std F64. Proof. right; reflexivity. Qed.
Lemma pi64 : pi_v F64 = Ok 13493037704. Proof. reflexivity. Qed.

Lemma tab_ok g h : forall n i, (forall k, i <= k < i + Z.of_nat n -> g k = Ok (h k)) ->
  exists l, tabulate g i n = Ok l /\ length l = n /\ forall k, 0 <= k < Z.of_nat n -> nth (Z.to_nat k) l 0 = h (i + k).
Proof.
  induction n as [|n IH]; intros i H; cbn [tabulate].
  - exists []. split; [reflexivity|]. split; [reflexivity|]. intros; lia.
  - rewrite (H i) by lia. cbn [bind]. destruct (IH (i + 1)) as (l & E & L & N); [intros; apply H; lia|]. rewrite E. cbn [bind].
    exists (h i :: l). split; [reflexivity|]. split; [cbn; congruence|]. intros k K. destruct (Z.eq_dec k 0) as [->|NE].
    + cbn [Z.to_nat nth]. f_equal. lia.
    + replace (Z.to_nat k) with (S (Z.to_nat (k - 1))) by lia. cbn [nth]. rewrite N by lia. f_equal. lia.
Qed.

(** the table of angles: entry i is i * floor(pi / N) in raw units *)
Lemma step_eq N : 1 <= N < 2147483648 -> lut_step N = Ok (13493037704 / N).
Proof.
  intros H. unfold lut_step. rewrite pi64. cbn [bind]. rewrite (s_int F64 sF64) by (apply v64; change (2 ^ cf F64) with 4294967296; lia).
  change (2 ^ cf F64) with 4294967296. cbn [bind].
  assert (Q : Z.quot (13493037704 * 4294967296) (N * 4294967296) = 13493037704 / N).
  { rewrite Z.quot_mul_cancel_r by lia. apply Z.quot_div_nonneg; lia. }
  assert (D : 0 <= 13493037704 / N <= 13493037704) by (split; [apply Z.div_pos; lia|apply Z.div_le_upper_bound; nia]).
  rewrite (s_div F64 sF64); change (2 ^ cf F64) with 4294967296; try rewrite Q; try apply v64; try lia. reflexivity.
Qed.
Lemma angle_eq N i : 1 <= N < 2147483648 -> 0 <= i < N ->
  (let* fi := fx_of_int F64 i in fx_mul F64 (13493037704 / N) fi) = Ok (13493037704 / N * i).
Proof.
  intros H I. rewrite (s_int F64 sF64) by (apply v64; change (2 ^ cf F64) with 4294967296; lia). change (2 ^ cf F64) with 4294967296. cbn [bind].
  assert (D : 0 <= 13493037704 / N <= 13493037704) by (split; [apply Z.div_pos; lia|apply Z.div_le_upper_bound; nia]).
  assert (P : 0 <= 13493037704 / N * i <= 13493037704).
  { pose proof (Z.mul_div_le 13493037704 N ltac:(lia)). nia. }
  assert (E : 13493037704 / N * (i * 4294967296) / 4294967296 = 13493037704 / N * i).
  { rewrite Z.mul_assoc. apply Z.div_mul. lia. }
  rewrite (s_mul F64 sF64); change (2 ^ cf F64) with 4294967296; try rewrite E; try apply v64; try lia. reflexivity.
Qed.
Lemma angels_eq N : 1 <= N < 2147483648 ->
  exists l, angels_lut N = Ok l /\ Z.of_nat (length l) = N /\ forall i, 0 <= i < N -> nth (Z.to_nat i) l 0 = 13493037704 / N * i.
Proof.
  intros H. unfold angels_lut, func_ptr_lut. rewrite step_eq by auto. cbn [bind].
  destruct (tab_ok (fun i => let* fi := fx_of_int F64 i in let* x := fx_mul F64 (13493037704 / N) fi in Ok x) (fun i => 13493037704 / N * i) (Z.to_nat N) 0) as (l & E & L & NT).
  { intros k K. pose proof (angle_eq N k H ltac:(lia)) as A. destruct (fx_of_int F64 k); cbn [bind] in *; try discriminate. rewrite A. reflexivity. }
  exists l. split; [exact E|]. split; [lia|]. intros i I. rewrite NT by lia. f_equal.
Qed.

(** the sine table of 512 entries: the conversion of the angle to double drops the fraction, so the entries are
    sin 0, sin 1, sin 2, sin 3 *)
Lemma to_float_eq x : 0 <= x <= 13493037704 -> fx_to_float F64 x = Ok (x / 4294967296).
Proof.
  intros H. unfold fx_to_float. change (fraction_multiplier F64) with (Ok 4294967296). cbn [bind]. unfold c_div. cbv zeta.
  change (uac (ct F64) (ci F64)) with int128. change (ct F64) with int64.
  assert (W : forall v, 0 <= v <= 13493037704 -> wrap int128 v = v /\ wrap int64 v = v).
  { intros v V. split; apply wrap_id; try reflexivity; apply in_range_iff; split; try (etransitivity; [|apply V]; discriminate); etransitivity; try apply V; discriminate. }
  rewrite (proj1 (W x H)), (proj1 (W 4294967296 ltac:(lia))). change (4294967296 =? 0) with false. cbv iota. rewrite Z.quot_div_nonneg by lia.
  assert (D : 0 <= x / 4294967296 <= 13493037704) by (split; [apply Z.div_pos; lia|apply Z.div_le_upper_bound; lia]).
  unfold arith. change (sgn int128) with true. cbv iota.
  replace (in_range int128 (x / 4294967296)) with true.
  2:{ symmetry. apply in_range_iff. split; [etransitivity; [|apply D]; discriminate|etransitivity; [apply D|discriminate]]. }
  cbn [bind]. rewrite (proj2 (W _ D)). reflexivity.
Qed.
(** what sin_d must satisfy: std::sin returns 0 at 0 and numbers in [-1, 1] *)
Definition sin_like (sin_d : Z -> Z * Z) : Prop :=
  fst (sin_d 0) = 0 /\ forall i, 0 <= snd (sin_d i) /\ Z.abs (fst (sin_d i)) <= 2 ^ snd (sin_d i).
Lemma of_float_ok n k : 0 <= k -> Z.abs n <= 2 ^ k -> fx_of_float F64 n k = Ok (Z.quot (n * 4294967296) (2 ^ k)).
Proof.
  intros K N. unfold fx_of_float. change (cr F64) with false. cbv iota. change (2 ^ cf F64) with 4294967296. unfold float_to_int.
  pose proof (Z.pow_pos_nonneg 2 k ltac:(lia) K) as P.
  assert (Q : Z.abs (Z.quot (n * 4294967296) (2 ^ k)) <= 4294967296).
  { rewrite <- Z.quot_abs by lia. rewrite (Z.abs_eq (2 ^ k)) by lia. rewrite Z.quot_div_nonneg by lia.
    apply Z.div_le_upper_bound; [lia|]. rewrite Z.abs_mul. change (Z.abs 4294967296) with 4294967296. nia. }
  replace (in_range (ct F64) _) with true; [reflexivity|]. symmetry. apply in_range_iff. change (minv (ct F64)) with (-9223372036854775808). change (maxv (ct F64)) with 9223372036854775807. lia.
Qed.
Definition sval (sin_d : Z -> Z * Z) (i : Z) : Z := Z.quot (fst (sin_d i) * 4294967296) (2 ^ snd (sin_d i)).
Lemma lut_sin_eq sin_d x : sin_like sin_d -> 0 <= x <= 13493037704 -> lut_sin sin_d x = Ok (sval sin_d (x / 4294967296)).
Proof.
  intros [_ S] X. unfold lut_sin. rewrite to_float_eq by auto. cbn [bind]. unfold sval. destruct (S (x / 4294967296)) as [K N].
  destruct (sin_d (x / 4294967296)) as [n k]. cbn [fst snd] in *. apply of_float_ok; auto.
Qed.
Lemma sin_table sin_d N : sin_like sin_d -> 1 <= N < 2147483648 ->
  exists l, func_ptr_lut N (lut_sin sin_d) = Ok l /\ Z.of_nat (length l) = N /\
            forall i, 0 <= i < N -> nth (Z.to_nat i) l 0 = sval sin_d (13493037704 / N * i / 4294967296).
Proof.
  intros S H. unfold func_ptr_lut. rewrite step_eq by auto. cbn [bind].
  destruct (tab_ok (fun i => let* fi := fx_of_int F64 i in let* x := fx_mul F64 (13493037704 / N) fi in lut_sin sin_d x)
              (fun i => sval sin_d (13493037704 / N * i / 4294967296)) (Z.to_nat N) 0) as (l & E & L & NT).
  { intros k K. pose proof (angle_eq N k H ltac:(lia)) as A. destruct (fx_of_int F64 k); cbn [bind] in *; try discriminate. rewrite A. cbn [bind].
    apply lut_sin_eq; auto. pose proof (Z.mul_div_le 13493037704 N ltac:(lia)). assert (0 <= 13493037704 / N) by (apply Z.div_pos; lia). nia. }
  exists l. split; [exact E|]. split; [lia|]. intros i I. rewrite NT by lia. f_equal.
Qed.
Lemma bind_ok {A B} (v : A) (k : A -> res B) : bind (Ok v) k = k v. Proof. reflexivity. Qed.
Ltac bo := rewrite bind_ok; cbv beta.
Lemma c_two : fx_of_int F64 2 = Ok 8589934592. Proof. vm_compute. reflexivity. Qed.
Lemma c_twopi : fx_mul F64 13493037704 8589934592 = Ok 26986075408. Proof. vm_compute. reflexivity. Qed.
Lemma c_zero : fx_mul_int F64 int64 26986075408 0 = Ok 0. Proof. vm_compute. reflexivity. Qed.
Lemma c_M : 2 ^ cf F64 = 4294967296. Proof. reflexivity. Qed.
Lemma c_omf fr : int_sub_fx F64 int32 1 fr = fx_sub F64 4294967296 fr.
Proof. unfold int_sub_fx. replace (fx_of_int F64 1) with (Ok 4294967296) by (vm_compute; reflexivity). reflexivity. Qed.
(** the interpolation step for 0 <= x < pi, given the table *)
Lemma lut_calc_pos N l x h pos idx fr a b : 4 <= N < 2147483648 -> 0 <= x < 13493037704 ->
  h = 13493037704 / (N - 1) -> pos = x * 4294967296 / h -> idx = pos / 4294967296 -> idx <= N - 2 -> fr = pos - idx * 4294967296 ->
  arr_at l idx = Ok a -> arr_at l (idx + 1) = Ok b ->
  lut_calc N l x = (let* omf := fx_sub F64 4294967296 fr in let* p := fx_mul F64 a omf in let* r := fx_mul F64 b fr in fx_add F64 p r).
Proof.
  intros H X Eh Epos Eidx IB Efr A B.
  assert (HB : 6 <= h <= 13493037704).
  { rewrite Eh. split; [apply Z.div_le_lower_bound; lia|apply Z.div_le_upper_bound; lia]. }
  assert (HQ : Z.quot (13493037704 * 4294967296) ((N - 1) * 4294967296) = h).
  { rewrite Z.quot_mul_cancel_r by lia. rewrite Eh. apply Z.quot_div_nonneg; lia. }
  assert (PQ : Z.quot (x * 4294967296) h = pos) by (rewrite Epos; apply Z.quot_div_nonneg; lia).
  assert (P0 : 0 <= pos) by (rewrite Epos; apply Z.div_pos; lia).
  pose proof (Z.div_mod pos 4294967296 ltac:(lia)) as DM. pose proof (Z.mod_pos_bound pos 4294967296 ltac:(lia)) as MB. rewrite <- Eidx in DM.
  assert (I0 : 0 <= idx) by (rewrite Eidx; apply Z.div_pos; lia).
  clear Eh Epos.
  unfold lut_calc. cbv zeta. rewrite pi64. bo. rewrite c_two. bo.
  rewrite c_twopi. bo.
  assert (Q : exists q, Z.quot (x * 4294967296) 26986075408 = q /\ 0 <= q < 4294967296).
  { eexists. split; [reflexivity|]. rewrite Z.quot_div_nonneg by lia. split; [apply Z.div_pos; lia|apply Z.div_lt_upper_bound; lia]. }
  destruct Q as (q & EQ & Q).
  rewrite (s_div F64 sF64 x 26986075408); [|apply v64; lia|reflexivity|discriminate|apply v64; rewrite ?c_M; rewrite EQ; lia].
  rewrite ?c_M. rewrite EQ. bo.
  rewrite integral_nonneg by (reflexivity || lia || (apply v64; lia)). rewrite ?c_M. rewrite (Z.div_small q) by lia. bo.
  rewrite c_zero. bo.
  rewrite (s_sub F64 sF64 x 0) by (apply v64; lia). replace (x - 0) with x by lia. bo.
  rewrite (s_ge F64 sF64) by (apply v64; lia). replace (13493037704 <=? x) with false by lia. bo.
  rewrite (s_int F64 sF64 (N - 1)) by (apply v64; rewrite ?c_M; lia). rewrite ?c_M. bo.
  rewrite (s_div F64 sF64); rewrite ?c_M; rewrite ?HQ; try (apply v64; lia); [|lia]. bo.
  rewrite (s_div F64 sF64); rewrite ?c_M; rewrite ?PQ; try (apply v64; lia); [|lia]. bo.
  rewrite integral_nonneg by (reflexivity || lia || (apply v64; lia)). rewrite ?c_M. bo.
  rewrite <- Eidx. rewrite Z.min_l by lia.
  rewrite (s_int F64 sF64 idx) by (apply v64; rewrite ?c_M; lia). rewrite ?c_M. bo.
  rewrite (s_sub F64 sF64) by (apply v64; lia). bo. rewrite <- Efr. rewrite A. bo.
  rewrite c_omf.
  destruct (fx_sub F64 4294967296 fr); cbn [bind]; try reflexivity. destruct (fx_mul F64 a a0); cbn [bind]; try reflexivity.
  rewrite B. bo. destruct (fx_mul F64 b fr); cbn [bind]; try reflexivity. destruct (fx_add F64 a1 a2); reflexivity.
Qed.
(** C113: below 1 - pi/N every result is 0 *)
Lemma lut_zero sin_d N x : sin_like sin_d -> 4 <= N < 2147483648 -> 0 <= x -> x + 13493037704 / N < 4294967296 ->
  lut_calc_sin sin_d N x = Ok 0.
Proof.
  intros S H X XB. pose proof (proj1 (proj2 S 0)) as SN. unfold lut_calc_sin. destruct (sin_table sin_d N S ltac:(lia)) as (l & -> & L & NT). cbn [bind].
  assert (Z0 : forall i, 0 <= i < N -> 13493037704 / N * i < 4294967296 -> arr_at l i = Ok 0).
  { intros i I B. unfold arr_at. replace ((0 <=? i) && (i <? Z.of_nat (length l))) with true by lia. rewrite NT by lia.
    assert (0 <= 13493037704 / N) by (apply Z.div_pos; lia).
    rewrite Z.div_small by (split; [apply Z.mul_nonneg_nonneg; lia|exact B]). unfold sval. rewrite (proj1 S). rewrite Z.mul_0_l. rewrite Z.quot_0_l; [reflexivity|].
    apply Z.pow_nonzero; [lia|exact SN]. }
  clear NT L. remember (13493037704 / N) as st eqn:Est. remember (13493037704 / (N - 1)) as h eqn:Eh.
  assert (ST0 : 0 <= st) by (rewrite Est; apply Z.div_pos; lia).
  assert (SH : st <= h) by (rewrite Est, Eh; apply Z.div_le_compat_l; lia).
  assert (HB : 6 <= h) by (rewrite Eh; apply Z.div_le_lower_bound; lia).
  assert (HN : 4294967296 <= h * (N - 1)).
  { rewrite Eh. pose proof (Z.mod_pos_bound 13493037704 (N - 1) ltac:(lia)). pose proof (Z.div_mod 13493037704 (N - 1) ltac:(lia)). lia. }
  remember (x * 4294967296 / h) as pos eqn:Epos. remember (pos / 4294967296) as idx eqn:Eidx.
  assert (ID : idx = x / h) by (rewrite Eidx, Epos; rewrite Z.div_div by lia; rewrite Z.div_mul_cancel_r by lia; reflexivity).
  pose proof (Z.mul_div_le x h ltac:(lia)) as XH. rewrite <- ID in XH.
  assert (I0 : 0 <= idx) by (rewrite ID; apply Z.div_pos; lia).
  assert (IB : idx <= N - 2) by (clear - XH XB ST0 HN HB H I0; nia).
  pose proof (Z.div_mod pos 4294967296 ltac:(lia)) as DM. pose proof (Z.mod_pos_bound pos 4294967296 ltac:(lia)) as MB. rewrite <- Eidx in DM.
  assert (A : st * idx < 4294967296) by (clear - XH XB ST0 SH I0; nia).
  assert (B : st * (idx + 1) < 4294967296) by (clear - XH XB ST0 SH I0; nia).
  rewrite (lut_calc_pos N l x h pos idx (pos - idx * 4294967296) 0 0); try assumption; try reflexivity; try lia; try (apply Z0; lia).
  assert (FB : 0 <= pos - idx * 4294967296 < 4294967296) by lia. generalize dependent (pos - idx * 4294967296). intros fr FB.
  rewrite (s_sub F64 sF64) by (apply v64; lia). cbn [bind].
  rewrite !(s_mul F64 sF64 0) by (rewrite ?Z.mul_0_l; (reflexivity || (apply v64; lia))). rewrite !Z.mul_0_l. reflexivity.
Qed.
