(** Proofs about text output (TextOut). *)
From Coq Require Import ZArith Znumtheory Bool Lia List QArith.
From Verif Require Import Base Fixed Spec SpecText TextOut BaseLemmas CLemmas FixedLemmas ArithProofs InspectProofs NumLemmas.
Import ListNotations.
Open Scope Z_scope.

Lemma digit_table_ok up d : 0 <= d < 16 -> digit_table up d = Ok (digit_char up d).
Proof.
  intros H. unfold digit_table, digit_char.
  destruct (Z.ltb_spec d 10).
  - replace (0 <=? d) with true by (symmetry; apply Z.leb_le; lia). cbn [andb]. f_equal. lia.
  - rewrite andb_false_r. replace (10 <=? d) with true by (symmetry; apply Z.leb_le; lia).
    replace (d <? 16) with true by (symmetry; apply Z.ltb_lt; lia). cbn [andb].
    destruct up; f_equal; lia.
Qed.

Lemma ok32 : ity_ok int32 = true. Proof. reflexivity. Qed.

Lemma base_range b : 0 <= b <= 16 -> 0 <= b <= maxv int32.
Proof. intros. unfold maxv, int32. cbn. lia. Qed.

Lemma int_digits_ok c up b : wf c = true -> 2 <= b <= 16 ->
  forall n ip buf out, 0 <= ip <= maxv (ct c) -> ip < 2 ^ Z.of_nat n ->
  (length buf + n < 514)%nat ->
  exists ds, int_digits (S n) c up b ip buf out = Ok (map (digit_char up) ds ++ buf, out) /\
    num b ds = ip /\ is_digits b ds /\ (ip = 0 -> ds = []) /\ (ip <> 0 -> exists d r, ds = d :: r /\ d <> 0).
Proof.
  intros W B. pose proof (wf_ct c W) as K. pose proof ok32 as K2.
  pose proof (base_range b ltac:(lia)) as RB.
  induction n as [|n IH]; intros ip buf out R L LB.
  - assert (ip = 0) by (change (2 ^ Z.of_nat 0) with 1 in L; clear - R L; lia). subst ip.
    cbn [int_digits]. rewrite nn_lt by (auto; cbn; lia). cbn [Z.ltb Z.compare].
    exists []. cbn. repeat split; auto. constructor. intros []; auto.
  - remember (S n) as n1. cbn [int_digits]. subst n1.
    rewrite nn_lt by (auto; cbn; lia).
    destruct (Z.ltb_spec 0 ip) as [P|P].
    + rewrite nn_rem by (auto; lia). rewrite nn_div by (auto; lia). cbn [bind].
      pose proof (Z.mod_pos_bound ip b ltac:(lia)) as MB.
      rewrite digit_table_ok by (clear - MB B; lia). cbn [bind].
      set (ip' := ip / b) in *.
      assert (D : ip = b * ip' + ip mod b) by (apply Z.div_mod; clear - B; lia).
      assert (PI : 0 <= ip') by (apply Z.div_pos; clear - B P; lia).
      assert (LI : ip' < ip) by (clear - D PI MB B P; nia).
      assert (L2 : 2 * ip' <= ip) by (clear - D PI MB B; nia).
      rewrite nn_wrap by (auto; clear - PI LI R; lia).
      replace (Z.of_nat (length (digit_char up (ip mod b) :: buf)) =? 514) with false
        by (symmetry; apply Z.eqb_neq; cbn [length]; clear - LB; lia).
      destruct (IH ip' (digit_char up (ip mod b) :: buf) out) as (ds & E & N & DG & Z0 & NZ).
      * clear - PI LI R; lia.
      * rewrite Nat2Z.inj_succ, Z.pow_succ_r in L by (clear; lia). clear - L L2. lia.
      * cbn [length]. clear - LB. lia.
      * exists (ds ++ [ip mod b]). rewrite E. split; [|split; [|split; [|split]]].
        -- rewrite map_app, <- app_assoc. reflexivity.
        -- rewrite num_snoc, N. clear - D. lia.
        -- apply is_digits_app. split; auto. constructor; auto.
        -- clear - P. lia.
        -- intros _. destruct (Z.eq_dec ip' 0) as [E0|E0].
           ++ rewrite (Z0 E0). exists (ip mod b), []. split; [reflexivity|]. clear - D E0 P. lia.
           ++ destruct (NZ E0) as (d & r & -> & Hd). exists d, (r ++ [ip mod b]). auto.
    + assert (ip = 0) by (clear - P R; lia). subst ip.
      exists []. cbn. repeat split; auto. constructor. intros []; auto.
Qed.

Lemma frac_digits_ok c up b : wf c = true -> 2 <= b <= 16 -> Z.even b = true ->
  forall n v d out, 0 <= v < d -> d <= maxv (ct c) -> (exists k, v * 2 ^ Z.of_nat n = d * k) ->
  (forall e, 0 < e -> (e | d) -> e mod b <> 0 -> b * (e - 1) <= maxv (ct c)) ->
  exists ds, frac_digits n c up b v d out = Ok (out ++ map (digit_char up) ds) /\
    v * b ^ Z.of_nat (length ds) = d * num b ds /\ is_digits b ds /\ (v = 0 -> ds = []) /\
    (v <> 0 -> exists e r, ds = r ++ [e] /\ e <> 0).
Proof.
  intros W B EV. pose proof (wf_ct c W) as K. pose proof ok32 as K2.
  pose proof (base_range b ltac:(lia)) as RB.
  apply Z.even_spec in EV. destruct EV as [h Hh].
  induction n as [|n IH]; intros v d out R LD [k HK] HB.
  - change (2 ^ Z.of_nat 0) with 1 in HK.
    assert (k = 0) by (clear - R HK; nia). assert (v = 0) by (clear - R HK H; nia).
    subst k v. exists []. cbn [map length]. rewrite app_nil_r. split; [reflexivity|]. split; [change (num b []) with 0; ring|]. split; [constructor|]. split; [reflexivity|]. intros []; reflexivity.
  - cbn [frac_digits].
    rewrite nn_eq by (auto; cbn; lia).
    destruct (Z.eqb_spec v 0) as [V|V].
    { subst v. exists []. cbn [map length]. rewrite app_nil_r. split; [reflexivity|]. split; [change (num b []) with 0; ring|]. split; [constructor|]. split; [reflexivity|]. intros []; reflexivity. }
    rewrite nn_rem by (auto; lia). cbn [bind].
    rewrite Nat2Z.inj_succ, Z.pow_succ_r in HK by (clear; lia).
    set (p := 2 ^ Z.of_nat n) in *.
    (* both branches reach a state (v1, d1) with v1 < b * d1 *)
    assert (C : exists v1 d1,
      (if d mod b =? 0 then let* d0 := c_div (ct c) int32 d b in Ok (v, wrap (ct c) d0)
       else let* v0 := c_mul (ct c) int32 v b in Ok (wrap (ct c) v0, d)) = Ok (v1, d1) /\
      0 < v1 < b * d1 /\ 0 < d1 <= d /\ v1 <= maxv (ct c) /\ (d1 | d) /\
      v1 * d = v * b * d1 /\ exists k1, v1 * p = d1 * k1).
    { destruct (Z.eqb_spec (d mod b) 0) as [E|E].
      - rewrite nn_div by (auto; lia). cbn [bind].
        assert (D : d = b * (d / b)) by (apply Z.div_exact; [clear - B; lia | exact E]).
        set (d1 := d / b) in *.
        assert (0 < d1) by (clear - R D B; nia).
        assert (d1 <= d) by (clear - D B H; nia).
        rewrite nn_wrap by (auto; clear - H H0 LD; lia).
        exists v, d1. split; [reflexivity|]. split; [clear - R V D; lia|]. split; [clear -H H0; lia|].
        split; [clear - R LD; lia|]. split; [exists b; clear - D; lia|].
        split; [clear - D; nia|]. exists (h * k).
        assert (2 * (v * p) = 2 * (d1 * (h * k))) by (rewrite D, Hh in HK; clear - HK; nia).
        clear - H1. lia.
      - assert (HM : b * (d - 1) <= maxv (ct c)).
        { apply HB; auto. clear - R. lia. apply Z.divide_refl. }
        assert (VM : v * b <= maxv (ct c)) by (clear - HM R B; nia).
        assert (VP : 0 < v * b) by (clear - R V B; nia).
        rewrite (nn_mul (ct c) int32 v b K K2 ltac:(clear - R LD; lia) RB ltac:(pose proof (maxv_uac_l (ct c) int32 K K2) as HU; clear - VM HU; lia)).
        cbn [bind]. rewrite nn_wrap by (auto; clear - VM VP; lia).
        exists (v * b), d. split; [reflexivity|]. split; [clear - VP R B; nia|]. split; [clear - R; lia|].
        split; [exact VM|]. split; [apply Z.divide_refl|]. split; [ring|].
        exists (h * k). rewrite Hh. replace (v * (2 * h) * p) with (h * (v * (2 * p))) by ring.
        rewrite HK. ring. }
    destruct C as (v1 & d1 & E & R1 & RD & M1 & DV & Q & k1 & HK1). rewrite E. cbn [bind].
    assert (D1M : 0 <= d1 <= maxv (ct c)) by (clear - RD LD; lia).
    rewrite nn_div by (auto; lia). cbn [bind].
    pose proof (Z.mod_pos_bound v1 d1 ltac:(clear - RD; lia)) as MB.
    assert (D : v1 = d1 * (v1 / d1) + v1 mod d1) by (apply Z.div_mod; clear - RD; lia).
    set (dg := v1 / d1) in *. set (v' := v1 mod d1) in *.
    assert (G0 : 0 <= dg) by (clear - D MB R1 RD; nia).
    assert (G1 : dg < b) by (clear - D MB R1 RD; nia).
    assert (GM : dg <= maxv (ct c)). { clear - D MB G0 RD M1. nia. }
    assert (PM : maxv (ct c) <= maxv (promote (ct c))).
    { rewrite <- uac_refl. apply maxv_uac_l; auto. }
    rewrite (nn_rem (promote (ct c)) int32 dg b (promote_ok _ K) K2 ltac:(clear - G0 GM PM; lia) RB ltac:(clear - B; lia)). cbn [bind].
    rewrite Z.mod_small by (clear - G0 G1; lia).
    rewrite digit_table_ok by (clear - G0 G1 B; lia). cbn [bind].
    rewrite nn_rem by (auto; clear - R1 M1 RD; lia). cbn [bind]. fold v'.
    rewrite nn_wrap by (auto; clear - MB D1M; lia).
    destruct (IH v' d1 (out ++ [digit_char up dg])) as (ds & ED & N & DG & Z0 & NZ).
    + exact MB.
    + clear - D1M; lia.
    + fold p. exists (k1 - dg * p). rewrite Z.mul_sub_distr_l, <- HK1.
      transitivity ((d1 * dg + v') * p - d1 * (dg * p)); [ring|]. rewrite <- D. reflexivity.
    + intros e P1 P2 P3. apply HB; auto. apply Z.divide_trans with d1; auto.
    + exists (dg :: ds). rewrite ED. split; [|split; [|split; [|split]]].
      * rewrite <- app_assoc. reflexivity.
      * rewrite num_cons. cbn [length]. rewrite Nat2Z.inj_succ, Z.pow_succ_r by (clear; lia).
        set (L := b ^ Z.of_nat (length ds)) in *. clear - Q D N RD.
        (* v * b * L * d1 = v1 * d * L = d * (d1 * dg * L + v' * L) = d * d1 * (dg * L + num) *)
        assert (v * (b * L) * d1 = d * (dg * L + num b ds) * d1); [|nia].
        replace (v * (b * L) * d1) with (v * b * d1 * L) by ring. rewrite <- Q.
        replace (v1 * d * L) with (d * (v1 * L)) by ring. rewrite D.
        replace ((d1 * dg + v') * L) with (d1 * dg * L + v' * L) by ring. rewrite N. ring.
      * constructor; auto.
      * congruence.
      * intros _. destruct (Z.eq_dec v' 0) as [E0|E0].
        -- rewrite (Z0 E0). exists dg, []. split; [reflexivity|]. clear - D E0 R1. nia.
        -- destruct (NZ E0) as (e & r & -> & He). exists e, (dg :: r). auto.
Qed.

(** the two supported families of (base, fraction) *)
Definition printable (c : cfg) (b : Z) : Prop :=
  (b = 10 /\ 10 * (2 ^ cf c - 1) <= maxv (ct c) /\ 2 ^ cf c <= maxv (ct c)) \/
  ((b = 2 \/ b = 8 \/ b = 16) /\ 2 ^ cf c <= maxv (ct c)).

Lemma divides_pow2 n e : 0 < e -> (e | 2 ^ Z.of_nat n) -> exists j, 0 <= j <= Z.of_nat n /\ e = 2 ^ j.
Proof.
  revert e. induction n as [|n IH]; intros e P D.
  - exists 0. split; [lia|]. apply Z.divide_1_r_nonneg in D; [|lia]. subst. reflexivity.
  - rewrite Nat2Z.inj_succ, Z.pow_succ_r in D by lia.
    destruct (Z.Even_or_Odd e) as [[h ->]|O].
    + destruct (IH h) as (j & Hj & ->); [lia| |].
      * destruct D as [k D]. exists k. lia.
      * exists (Z.succ j). split; [lia|]. rewrite Z.pow_succ_r by lia. reflexivity.
    + assert (G : (e | 2 ^ Z.of_nat n)).
      { apply Z.gauss with 2; auto. apply Zgcd_1_rel_prime. apply rel_prime_sym, prime_rel_prime; [apply prime_2|].
        intros [k E]. destruct O as [m ->]. lia. }
      destruct (IH e P G) as (j & Hj & ->). exists j. split; [lia|reflexivity].
Qed.

Lemma printable_step c b e : wf c = true -> printable c b -> 0 < e -> (e | 2 ^ cf c) -> e mod b <> 0 ->
  b * (e - 1) <= maxv (ct c).
Proof.
  intros W H P D N. pose proof (wf_bnd c W) as (_ & K & _ & _ & _ & F). pose proof (maxv_pos _ K) as MX.
  assert (PF : 0 < 2 ^ cf c) by (apply pow2_pos; zlia).
  destruct H as [(-> & H & _)|(B & _)].
  - apply Z.divide_pos_le in D; zlia.
  - rewrite <- (Z2Nat.id (cf c)) in D by zlia. destruct (divides_pow2 _ _ P D) as (j & Hj & ->).
    assert (J : b = 2 ^ 1 \/ b = 2 ^ 3 \/ b = 2 ^ 4) by (destruct B as [->|[->| ->]]; auto).
    assert (X : forall i, 0 <= i -> b = 2 ^ i -> j < i).
    { intros i I ->. destruct (Z_lt_le_dec j i); auto. exfalso. apply N.
      apply Z.mod_divide; [apply Z.pow_nonzero; zlia|]. exists (2 ^ (j - i)).
      rewrite <- Z.pow_add_r by zlia. f_equal. zlia. }
    assert (J3 : j < 1 \/ (j < 3 /\ b = 8) \/ (j < 4 /\ b = 16)).
    { destruct J as [J|[J|J]].
      - left. apply X; auto; zlia. - right; left. split; [apply X; auto; zlia|exact J].
      - right; right. split; [apply X; auto; zlia|exact J]. }
    assert (JJ : j = 0 \/ j = 1 \/ j = 2 \/ j = 3) by zlia.
    destruct JJ as [->|[->|[->| ->]]]; cbn [Z.pow Z.pow_pos Pos.iter Z.mul Pos.mul]; zlia.
Qed.

(** phase 1 of copy_as_chars_to *)
Lemma shiftr_nn c a : 0 <= cf c -> Z.shiftr a (cf c) = a / 2 ^ cf c.
Proof. intros. rewrite Z.shiftr_div_pow2 by lia. reflexivity. Qed.

Lemma pre_ok c m mask : wf c = true -> valid c m = true -> 2 ^ cf c <= maxv (ct c) ->
  signbit_mask c = Ok mask -> (sgn (ct c) = false -> m <> mask) ->
  exists v0,
  (if c_eq (ct c) (ct c) m mask then
       let* s := c_shr (ct c) m (cf c) in
       let* i := c_add (promote (ct c)) int32 (c_not (promote (ct c)) s) 1 in
       Ok (wrap (ct c) i, 0, [45])
     else if c_lt (ct c) int32 m 0 then
       let* v := c_neg (ct c) m in
       let v := wrap (ct c) v in
       let* i := c_shr (ct c) v (cf c) in
       Ok (wrap (ct c) i, v, [45])
     else
       let* i := c_shr (ct c) m (cf c) in
       Ok (wrap (ct c) i, m, [])) = Ok (Z.abs m / 2 ^ cf c, v0, if m <? 0 then [45] else []) /\
  0 <= v0 <= maxv (ct c) /\ v0 mod 2 ^ cf c = Z.abs m mod 2 ^ cf c /\
  0 <= Z.abs m / 2 ^ cf c <= maxv (ct c).
Proof.
  intros W V FM SM U. pose proof (wf_bnd c W) as (BB & K & _ & _ & _ & F).
  pose proof (cf_pos c W) as P.
  rewrite signbit_mask_eq in SM by auto.
  pose proof (promote_bits _ K) as [PB _]. pose proof (promote_ok _ K) as KP.
  assert (SH : (0 <=? cf c) && (cf c <? bits (promote (ct c))) = true) by (clear - F PB; lia).
  unfold fx_eq. unfold c_eq. cbv zeta. rewrite uac_refl, (wrap_p c m W V).
  set (w := bits (ct c)) in *.
  assert (EW : 2 ^ w = 2 * 2 ^ (w - 1)) by (destruct (ity_ok_pow _ K); auto).
  assert (PW : 0 < 2 ^ (w - 1)) by (destruct (ity_ok_pow _ K); auto).
  assert (NN : 0 <= m -> valid c m = true -> 0 <= m / 2 ^ cf c <= maxv (ct c)).
  { intros N V'. unfold valid in V'. apply in_range_iff in V'. split; [apply Z.div_pos; clear - N P; lia|].
    apply Z.le_trans with m; [|clear - V'; lia]. apply Z.div_le_upper_bound; [exact P|]. clear - N P. nia. }
  destruct (sgn (ct c)) eqn:SG.
  - (* signed *)
    injection SM as <-.
    assert (VM : valid c (- 2 ^ (w - 1)) = true).
    { unfold valid. apply in_range_iff. unfold minv, maxv. rewrite SG. fold w. clear - PW. lia. }
    rewrite (wrap_p c _ W VM).
    assert (MX : maxv (ct c) = 2 ^ (w - 1) - 1) by (unfold maxv; rewrite SG; reflexivity).
    assert (S32 : sgn (uac (ct c) int32) = true).
    { apply uac_i32_signed, SG. }
    destruct (Z.eqb_spec m (- 2 ^ (w - 1))) as [E|E].
    + subst m. unfold c_shr. cbv zeta. rewrite SH. cbn [bind].
      assert (ES : 2 ^ (w - 1) = 2 ^ (w - 1 - cf c) * 2 ^ cf c).
      { rewrite <- Z.pow_add_r by (clear - F; lia). f_equal. clear; lia. }
      assert (PS : 0 < 2 ^ (w - 1 - cf c)) by (apply pow2_pos; clear - F; lia).
      set (q := 2 ^ (w - 1 - cf c)) in *.
      rewrite shiftr_nn by (clear - F; lia).
      assert (EQ : - 2 ^ (w - 1) / 2 ^ cf c = - q).
      { rewrite ES, <- Z.mul_opp_l. apply Z.div_mul. clear - P. lia. }
      rewrite EQ.
      assert (QL : q <= maxv (ct c)).
      { rewrite MX, ES. assert (2 <= 2 ^ cf c).
        { change 2 with (2 ^ 1) at 1. apply Z.pow_le_mono_r; clear - F; lia. }
        clear - PS H. nia. }
      assert (PM : maxv (ct c) <= maxv (promote (ct c))).
      { rewrite <- uac_refl. apply maxv_uac_l; auto. }
      unfold c_not. rewrite promote_promote.
      replace (Z.lnot (- q)) with (q - 1) by (unfold Z.lnot; clear; lia).
      rewrite (nn_wrap (promote (ct c)) (q - 1)) by (auto; clear - PS QL PM; lia).
      rewrite (nn_add (promote (ct c)) int32 (q - 1) 1 KP ok32 ltac:(clear - PS QL PM; lia) ltac:(cbn; lia)
        ltac:(pose proof (maxv_uac_l (promote (ct c)) int32 KP ok32) as HU; clear - HU QL PM; lia)).
      cbn [bind]. replace (q - 1 + 1) with q by (clear; lia).
      rewrite nn_wrap by (auto; clear - PS QL; lia).
      exists 0.
      replace (- 2 ^ (w - 1) <? 0) with true by (symmetry; apply Z.ltb_lt; clear - PW; lia).
      rewrite Z.abs_opp, Z.abs_eq by (clear - PW; lia).
      assert (EQ' : 2 ^ (w - 1) / 2 ^ cf c = q) by (rewrite ES; apply Z.div_mul; clear - P; lia).
      rewrite EQ'. split; [reflexivity|]. split; [rewrite MX; clear - PW; lia|].
      split; [|clear - PS QL; lia].
      rewrite ES, Z.mod_mul by (clear - P; lia). apply Z.mod_0_l. clear - P; lia.
    + pose proof (valid_bounds c m W V) as (B1 & B2 & _). specialize (B2 SG).
      fold w in B1, B2.
      rewrite sg_lt by (auto using ok32).
      destruct (Z.ltb_spec m 0) as [N|N].
      * unfold c_neg.
        assert (VN : valid c (- m) = true).
        { unfold valid. apply in_range_iff. unfold minv, maxv. rewrite SG. fold w. clear - B1 N PW E. lia. }
        rewrite arith_ok by (auto using valid_promote). cbn [bind].
        rewrite (valid_wrap c _ W VN). unfold c_shr. cbv zeta. rewrite SH. cbn [bind].
        rewrite shiftr_nn by (clear - F; lia).
        assert (R : 0 <= - m / 2 ^ cf c <= maxv (ct c)).
        { unfold valid in VN. apply in_range_iff in VN. split; [apply Z.div_pos; clear - N P; lia|].
          apply Z.le_trans with (- m); [|clear - VN; lia]. apply Z.div_le_upper_bound; [exact P|]. clear - N P. nia. }
        rewrite (nn_wrap (ct c) (- m / 2 ^ cf c)) by auto.
        exists (- m). rewrite Z.abs_neq by (clear - N; lia).
        split; [reflexivity|]. split; [rewrite MX; clear - B1 N E; lia|]. auto.
      * unfold c_shr. cbv zeta. rewrite SH. cbn [bind]. rewrite shiftr_nn by (clear - F; lia).
        rewrite (nn_wrap (ct c) (m / 2 ^ cf c)) by auto.
        exists m. rewrite Z.abs_eq by (clear - N; lia).
        split; [reflexivity|]. split; [rewrite MX; clear - B2 N; lia|]. auto.
  - injection SM as <-. specialize (U eq_refl).
    pose proof (valid_bounds c m W V) as (B1 & _ & B2). specialize (B2 SG). fold w in B1.
    assert (VM : valid c (2 ^ (w - 1)) = true).
    { unfold valid. apply in_range_iff. unfold minv, maxv. rewrite SG. fold w. clear - PW EW. lia. }
    rewrite (wrap_p c _ W VM).
    destruct (Z.eqb_spec m (2 ^ (w - 1))) as [E|E]; [contradiction|].
    assert (MX : maxv (ct c) = 2 ^ w - 1) by (unfold maxv; rewrite SG; reflexivity).
    rewrite (nn_lt (ct c) int32 m 0 K ok32 ltac:(rewrite MX; clear - B1 B2; lia) ltac:(cbn; lia)).
    destruct (Z.ltb_spec m 0) as [N|N]; [exfalso; clear - N B2; lia|].
    unfold c_shr. cbv zeta. rewrite SH. cbn [bind]. rewrite shiftr_nn by (clear - F; lia).
    rewrite (nn_wrap (ct c) (m / 2 ^ cf c)) by auto.
    exists m. rewrite Z.abs_eq by (clear - N; lia).
    split; [reflexivity|]. split; [rewrite MX; clear - B1 N; lia|]. auto.
Qed.

Lemma copy_ok c m b up : wf c = true -> valid c m = true -> printable c b ->
  (sgn (ct c) = false -> m <> 2 ^ (bits (ct c) - 1)) ->
  exists s, copy_as_chars_to c m b up = Ok s /\ expansion b up s (qval (cf c) m).
Proof.
  intros W V PR U. pose proof (wf_bnd c W) as (BB & K & _ & _ & _ & F).
  pose proof (cf_pos c W) as P. pose proof ok32 as K2.
  assert (FM : 2 ^ cf c <= maxv (ct c)) by (destruct PR as [(_ & _ & H)|(_ & H)]; exact H).
  assert (B : 2 <= b <= 16) by (destruct PR as [(H & _)|(H & _)]; clear - H; lia).
  assert (EV : Z.even b = true).
  { destruct PR as [(-> & _)|([->|[->| ->]] & _)]; reflexivity. }
  unfold copy_as_chars_to.
  rewrite c_shl_ct by (auto; zlia). rewrite Z.mul_1_l. cbn [bind].
  pose proof (promote_bits _ K) as [PB _].
  assert (WD : wrap (ct c) (wrap (promote (ct c)) (2 ^ cf c)) = 2 ^ cf c).
  { rewrite wrap_wrap_p by auto. apply nn_wrap; auto. clear - P FM. lia. }
  rewrite WD. clear WD.
  rewrite signbit_mask_eq by auto. cbn [bind].
  destruct (pre_ok c m _ W V FM (signbit_mask_eq c W)) as (v0 & E & R0 & M0 & RI).
  { intros SG. rewrite SG. auto. }
  cbv zeta in E. cbv zeta. cbn [bind] in E. rewrite E. cbn [bind]. clear E.
  rewrite nn_rem by (auto; clear - P FM; lia). cbn [bind]. rewrite M0.
  pose proof (Z.mod_pos_bound (Z.abs m) (2 ^ cf c) P) as MB.
  pose proof (Z.div_mod (Z.abs m) (2 ^ cf c) ltac:(clear - P; lia)) as DM.
  set (ip := Z.abs m / 2 ^ cf c) in *. set (v := Z.abs m mod 2 ^ cf c) in *.
  rewrite (nn_wrap (ct c) v) by (auto; clear - MB FM; lia).
  set (sg := if m <? 0 then [45] else []).
  (* integer digits *)
  assert (I : exists buf out ds,
    (if c_eq (ct c) int32 ip 0 then Ok ([], sg ++ [48])
     else int_digits (S (Z.to_nat (bits (ct c)))) c up b ip [] sg) = Ok (buf, out) /\
     out ++ buf = sg ++ map (digit_char up) ds /\ num b ds = ip /\ is_digits b ds /\
     (ds = [0] \/ exists d r, ds = d :: r /\ d <> 0)).
  { rewrite nn_eq by (auto; cbn; lia).
    destruct (Z.eqb_spec ip 0) as [E0|E0].
    - exists [], (sg ++ [48]), [0]. split; [reflexivity|]. rewrite app_nil_r. split; [reflexivity|].
      rewrite E0. split; [reflexivity|]. split; [constructor; [clear - B; lia|constructor]|]. left; reflexivity.
    - destruct (int_digits_ok c up b W B (Z.to_nat (bits (ct c))) ip [] sg) as (ds & E & N & DG & _ & NZ); auto.
      + rewrite Z2Nat.id by (clear - BB; lia). pose proof (in_range_nn _ ip K (in_range_nn_i _ _ K RI) (proj1 RI)) as [X _]. clear - X. lia.
      + cbn [length]. clear - BB. lia.
      + exists (map (digit_char up) ds ++ []), sg, ds. rewrite app_nil_r. rewrite E, app_nil_r.
        split; [reflexivity|]. split; [reflexivity|]. split; [exact N|]. split; [exact DG|]. right. auto. }
  destruct I as (buf & out & ds & E & EO & NI & DI & HI). rewrite E. cbn [bind]. clear E. rewrite EO.
  rewrite nn_eq by (auto; cbn; lia).
  assert (NEG : (m <? 0) = true <-> (qval (cf c) m < 0)%Q).
  { unfold qval, Qlt; cbn [Qnum Qden]. split; intros; [apply Z.ltb_lt in H | apply Z.ltb_lt]; clear - H; lia. }
  assert (NUM : forall fp, v * b ^ Z.of_nat (length fp) = 2 ^ cf c * num b fp ->
     (numeral b (m <? 0) ds fp == qval (cf c) m)%Q).
  { intros fp HV. unfold numeral.
    pose proof (pow_len_pos b fp ltac:(clear - B; lia)) as PL. set (L := b ^ Z.of_nat (length fp)) in *.
    assert (X : (num b ds * L + num b fp) * 2 ^ cf c = Z.abs m * L).
    { rewrite NI. rewrite DM. replace ((2 ^ cf c * ip + v) * L) with (2 ^ cf c * ip * L + v * L) by ring.
      rewrite HV. ring. }
    assert (PP := pow2p_Z (cf c) ltac:(clear - F; lia)).
    destruct (Z.ltb_spec m 0) as [N|N]; unfold qval, Qeq, Qopp; cbn [Qnum Qden]; rewrite PP, Z2Pos.id by exact PL.
    - rewrite Z.mul_opp_l, X. rewrite Z.abs_neq by (clear - N; lia). ring.
    - rewrite X. rewrite Z.abs_eq by (clear - N; lia). ring. }
  assert (RS : forall fp t, t = (match fp with [] => [] | _ => 46 :: map (digit_char up) fp end) ->
     (sg ++ map (digit_char up) ds) ++ t = render up (m <? 0) ds fp).
  { intros fp t ->. unfold render, sg. rewrite <- app_assoc. destruct (m <? 0); reflexivity. }
  destruct (Z.eqb_spec v 0) as [V0|V0].
  - exists (sg ++ map (digit_char up) ds). split; [reflexivity|].
    exists (m <? 0), ds, []. split; [exact DI|]. split; [constructor|]. split.
    + rewrite <- (RS [] []) by reflexivity. rewrite app_nil_r. reflexivity.
    + split; [|split; [exact NEG|split; [exact HI|left; reflexivity]]].
      apply NUM. rewrite V0. cbn. clear; lia.
  - destruct (frac_digits_ok c up b W B EV (Z.to_nat (cf c)) v (2 ^ cf c) ((sg ++ map (digit_char up) ds) ++ [46]))
      as (fp & E & HV & DF & _ & NZ); auto.
    + exists v. rewrite Z2Nat.id by (clear - F; lia). ring.
    + intros e. apply printable_step; auto.
    + rewrite E. exists (((sg ++ map (digit_char up) ds) ++ [46]) ++ map (digit_char up) fp).
      split; [reflexivity|]. specialize (NZ V0).
      exists (m <? 0), ds, fp. split; [exact DI|]. split; [exact DF|]. split; [|split; [|split; [exact NEG|split]]].
      * rewrite <- app_assoc. apply RS. destruct NZ as (e & r & -> & _). destruct r; reflexivity.
      * apply NUM, HV.
      * exact HI.
      * right. exact NZ.
Qed.
