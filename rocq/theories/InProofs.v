(** Proofs about detail::parse, f32_from_cstring, fixed_from_cstring (TextIn). *)
From Coq Require Import ZArith Bool Lia List QArith Qabs.
From Verif Require Import Base Fixed Spec SpecText TextIn BaseLemmas CLemmas FixedLemmas SpecLemmas NumLemmas InLemmas.
Import ListNotations.
Open Scope Z_scope.

Definition lim_of (c : cfg) : Z := (2 ^ cf c - 1) / 10.

Lemma lim_bounds c : wf c = true ->
  0 <= lim_of c /\ 10 * lim_of c <= 2 ^ cf c - 1 /\ 2 ^ cf c <= 10 * (lim_of c + 1).
Proof.
  intros W. pose proof (cf_pos c W) as P. unfold lim_of.
  pose proof (Z.div_mod (2 ^ cf c - 1) 10 ltac:(lia)) as D.
  pose proof (Z.mod_pos_bound (2 ^ cf c - 1) 10 ltac:(lia)) as B.
  assert (0 <= (2 ^ cf c - 1) / 10) by (apply Z.div_pos; zlia). zlia.
Qed.

(** room in the intermediate type *)
Lemma ci_room c : wf c = true ->
  (2 ^ cf c + 8) * 2 ^ cf c <= maxv (ci c) /\ 2 * 2 ^ bits (ct c) <= maxv (ci c) /\ maxv (ct c) + 1 <= 2 ^ bits (ct c)
  /\ 2 * 2 ^ cf c <= 2 ^ bits (ct c) /\ cf c < bits (ci c).
Proof.
  intros W. destruct (wf_bnd c W) as (BB & K & KI & B2 & SE & F).
  destruct (ity_ok_pow _ KI) as [EI PI]. destruct (ity_ok_pow _ K) as [E P].
  set (w := bits (ct c)) in *. set (bi := bits (ci c)) in *. set (f := cf c) in *.
  assert (M : 2 ^ (bi - 1) - 1 <= maxv (ci c)).
  { unfold maxv. destruct (sgn (ci c)); fold bi; clear - EI PI; lia. }
  assert (A1 : 2 ^ f * 2 ^ f <= 2 ^ (bi - 2)).
  { rewrite <- Z.pow_add_r by (clear - F; lia). apply Z.pow_le_mono_r; clear - F B2; lia. }
  assert (A2 : 8 * 2 ^ f <= 2 ^ (bi - 3)).
  { change 8 with (2 ^ 3). rewrite <- Z.pow_add_r by (clear - F; lia). apply Z.pow_le_mono_r; clear - F B2 BB; lia. }
  assert (A3 : 2 ^ (bi - 1) = 4 * 2 ^ (bi - 3)).
  { replace (bi - 1) with (Z.succ (Z.succ (bi - 3))) by (clear; lia).
    rewrite !Z.pow_succ_r by (clear - BB B2; lia). ring. }
  assert (A4 : 2 ^ (bi - 2) = 2 * 2 ^ (bi - 3)).
  { replace (bi - 2) with (Z.succ (bi - 3)) by (clear; lia). rewrite !Z.pow_succ_r by (clear - BB B2; lia). ring. }
  assert (P3 : 0 < 2 ^ (bi - 3)) by (apply pow2_pos; clear - BB B2; lia).
  split; [|split; [|split; [|split]]].
  - rewrite Z.mul_add_distr_r. clear - M A1 A2 A3 A4 P3. lia.
  - assert (2 * 2 ^ w <= 2 ^ (bi - 3)).
    { rewrite <- Z.pow_succ_r by (clear - BB; lia). apply Z.pow_le_mono_r; clear - B2 BB; lia. }
    clear - M H A3 P3. lia.
  - unfold maxv. destruct (sgn (ct c)); fold w; clear - E P; lia.
  - rewrite <- Z.pow_succ_r by (clear - F; lia). apply Z.pow_le_mono_r; clear - F; lia.
  - clear - F B2 BB. lia.
Qed.

Lemma dec_text_sign neg ip fp : is_digits 10 ip ->
  sign_of (dec_text neg ip fp) = (neg, map dch ip ++ match fp with None => [] | Some fp => 46 :: map dch fp end).
Proof.
  intros H. unfold dec_text. destruct neg; [reflexivity|]. cbn [app].
  destruct H as [|d ip Hd H]; cbn [map app].
  - destruct fp; reflexivity.
  - cbn [sign_of]. destruct (dch_check d Hd) as (_ & _ & ->). reflexivity.
Qed.

Lemma lim_detail c : wf c = true -> cf c <= 62 ->
  c_shl int64 1 (cf c) = Ok (2 ^ cf c) /\ c_sub int64 int32 (2 ^ cf c) 1 = Ok (2 ^ cf c - 1) /\
  c_div int64 int32 (2 ^ cf c - 1) 10 = Ok (lim_of c) /\ 0 <= lim_of c <= maxv int64.
Proof.
  intros W F. pose proof (cf_pos c W) as P. destruct (wf_bnd c W) as (BB & _ & _ & _ & _ & F1).
  assert (L : 2 ^ cf c <= 2 ^ 62) by (apply Z.pow_le_mono_r; clear - F; lia).
  assert (MX : maxv int64 = 2 ^ 63 - 1) by reflexivity.
  assert (MB : 2 ^ cf c <= maxv int64) by (rewrite MX; clear - L; lia).
  split; [|split; [|split]].
  - rewrite (c_shl_nn int64 1 (cf c) eq_refl); [f_equal; ring| cbn; clear - F F1; lia | clear; lia | rewrite Z.mul_1_l; exact MB].
  - apply nn_sub; auto; [clear - P MB; lia|cbn; clear; lia|clear - P; lia].
  - apply nn_div; auto; [clear - P MB; lia|cbn; clear; lia|clear; lia].
  - pose proof (lim_bounds c W) as (A & B & _). clear - A B MB. lia.
Qed.

Lemma parse_eval c neg ip fp old : wf c = true -> cf c <= 62 -> is_digits 10 ip -> is_digits 10 (frac_of fp) ->
  (num 10 ip + 1) * 2 ^ cf c <= maxv (ci c) ->
  10 ^ (leading_zeros (frac_of fp) + 1) * 2 ^ cf c <= maxv (ci c) \/ 10 ^ Z.of_nat (length (frac_of fp)) <= maxv (ci c) ->
  exists r u, dec_result (lim_of c) (frac_of fp) r u /\
    detail_parse c (dec_text neg ip fp) old =
      finish c (ci c) (num 10 ip * 2 ^ cf c + num 10 r * 2 ^ cf c / 10 ^ Z.of_nat (length r)) neg old.
Proof.
  intros W F HI HF MI MZ. destruct (wf_bnd c W) as (BB & K & KI & B2 & SE & F1).
  pose proof (cf_pos c W) as P. destruct (ci_room c W) as (R1 & R2 & R3 & R4 & R5).
  pose proof (lim_bounds c W) as (L0 & L1 & L2).
  pose proof (num_nonneg 10 ip ltac:(lia) HI) as NI.
  unfold detail_parse. rewrite dec_text_sign by exact HI.
  assert (IP : forall tail, ends tail -> int_strict (ci c) (map dch ip ++ tail) 0 = Ok (Some (num 10 ip, tail))).
  { intros tail E. rewrite (int_strict_digits (ci c) ip tail KI E HI 0 ltac:(clear; lia) ltac:(clear - MI NI P; nia)). reflexivity. }
  destruct fp as [fp|]; cbn [frac_of] in *.
  - rewrite IP by (right; eauto). cbn [bind]. rewrite Z.eqb_refl.
    destruct (lim_detail c W F) as (E1 & E2 & E3 & E4). rewrite E1. cbn [bind]. rewrite E2. cbn [bind].
    rewrite E3. cbn [bind].
    assert (PL : 2 ^ cf c * 1 <= 2 ^ cf c * 2 ^ cf c) by (apply Z.mul_le_mono_nonneg_l; clear - P; lia).
    assert (L9 : 10 * lim_of c + 9 <= maxv (ci c)).
    { clear - L1 R1 P PL. nia. }
    assert (DBall : forall r u, fp = r ++ u -> (forall r1 r2, r = r1 ++ r2 -> r2 <> [] -> num 10 r1 <= lim_of c) ->
      10 ^ Z.of_nat (length r) <= maxv (ci c)).
    { intros r u E X. destruct MZ as [MZ|MZ].
      - pose proof (divisor_bound (lim_of c) (2 ^ cf c) fp r u HF L0 ltac:(clear - L1; lia) ltac:(clear - P; lia) E X) as DB.
        clear - DB MZ. lia.
      - rewrite E, app_length in MZ. apply Z.le_trans with (2 := MZ). apply Z.pow_le_mono_r; clear; lia. }
    destruct (dec_strict_digits (ci c) int64 (lim_of c) KI eq_refl E4 L9 fp HF [] 0 1)
      as (r & u & ED & DR).
    + constructor.
    + reflexivity.
    + reflexivity.
    + clear - L9 L0. lia.
    + clear - L9 L0. lia.
    + intros r1 r2 E N. symmetry in E. apply app_eq_nil in E. tauto.
    + intros r u E X. cbn [app] in *. exact (DBall r u E X).
    + cbn [app] in ED, DR. rewrite ED. cbn [bind]. exists r, u. split; [exact DR|].
      destruct DR as (EF & _ & PR). rewrite EF in HF. apply is_digits_app in HF. destruct HF as [HR HU].
      pose proof (num_nonneg 10 r ltac:(lia) HR) as NR.
      assert (DB : 10 ^ Z.of_nat (length r) <= maxv (ci c)).
      { exact (DBall r u EF PR). }
      assert (RL : num 10 r <= 10 * lim_of c + 9).
      { destruct r as [|d r'] using rev_ind; [change (num 10 []) with 0; clear - L0; lia|]. clear IHr'.
        rewrite num_snoc. specialize (PR r' [d] eq_refl ltac:(discriminate)).
        apply is_digits_app in HR. destruct HR as [_ HR]. inversion HR; subst. clear - PR H1. lia. }
      assert (QL : num 10 r * 2 ^ cf c / 10 ^ Z.of_nat (length r) < 2 ^ cf c).
      { apply Z.div_lt_upper_bound; [clear - NR; lia|]. clear - NR P. nia. }
      assert (Q0 : 0 <= num 10 r * 2 ^ cf c / 10 ^ Z.of_nat (length r)).
      { apply Z.div_pos; [clear - NR P; nia|clear - NR; lia]. }
      rewrite combine_ok; auto.
      * cbn [bind]. rewrite nn_wrap; auto. split.
        -- assert (0 <= num 10 ip * 2 ^ cf c) by (clear - NI P; nia). clear - H Q0. lia.
        -- clear - QL MI. lia.
      * clear - F1 R5; lia.
      * clear - NI; lia.
      * clear - NR; lia.
      * clear - NR DB; lia.
      * apply Z.le_trans with ((2 ^ cf c + 8) * 2 ^ cf c); [|exact R1].
        apply Z.mul_le_mono_nonneg_r; [clear - P; lia|]. clear - RL L1. lia.
      * clear - QL MI. lia.
  - rewrite app_nil_r. rewrite <- (app_nil_r (map dch ip)). rewrite IP by (left; reflexivity). cbn [bind].
    exists [], []. split; [split; [reflexivity|split; [left; reflexivity|]]|].
    { intros r1 r2 E N. symmetry in E. apply app_eq_nil in E. tauto. }
    change (num 10 []) with 0. rewrite Z.mul_0_l. change (10 ^ Z.of_nat (length [])) with 1.
    rewrite Z.div_1_r, Z.add_0_r.
    rewrite c_shl_nn; auto; [|clear - F1 R5; lia | clear - NI; lia | clear - MI P; lia]. cbn [bind].
    rewrite nn_wrap; auto. split; [clear - NI P; nia|clear - MI P; lia].
Qed.

Lemma finish_ok c V neg old : wf c = true -> 0 <= V <= maxv (ct c) -> (neg = true -> sgn (ct c) = true) ->
  finish c (ci c) V neg old = Ok (true, if neg then - V else V).
Proof.
  intros W R S. destruct (wf_bnd c W) as (BB & K & KI & B2 & SE & F1).
  destruct (ci_room c W) as (R1 & R2 & R3 & R4 & R5).
  assert (MM : maxv (ct c) <= maxv (ci c)) by (clear - R2 R3 R; lia).
  assert (VT : valid c V = true) by (apply in_range_nn_i; auto).
  unfold finish. rewrite (nn_wrap (ci c)) by (auto; clear - R MM; lia).
  rewrite nn_lt; auto; [|clear - R MM; lia|clear - R MM; lia].
  assert (LT : c_lt (ci c) (ci c) V (wrap (ci c) (minv (ct c))) = false).
  { unfold c_lt. cbv zeta. rewrite uac_refl.
    assert (VM : valid c (minv (ct c)) = true).
    { unfold valid. apply in_range_iff. pose proof (maxv_pos _ K) as M7. split; [clear; lia|].
      unfold minv. destruct (sgn (ct c)); [|clear - M7; lia].
      assert (0 < 2 ^ (bits (ct c) - 1)) by (apply pow2_pos; clear - BB; lia). clear - H M7. lia. }
    rewrite (wrap_ci c _ W VM), (wrap_it c _ W VM), (wrap_it c V W VT).
    apply Z.ltb_ge. unfold valid in VT. apply in_range_iff in VT. clear - VT. lia. }
  rewrite LT. replace (maxv (ct c) <? V) with false by (symmetry; apply Z.ltb_ge; clear - R; lia).
  cbn [orb]. rewrite (nn_wrap (ct c)) by auto.
  destruct neg; [|reflexivity].
  specialize (S eq_refl).
  rewrite fx_neg_eq by auto. rewrite ovf_valid; auto.
  unfold valid. apply in_range_iff. unfold minv. rewrite S. unfold maxv in R. rewrite S in R. clear - R BB.
  assert (0 < 2 ^ (bits (ct c) - 1)) by (apply pow2_pos; clear - BB; lia).
  unfold maxv. destruct (sgn (ct c)).
  - lia.
  - assert (2 ^ (bits (ct c) - 1) <= 2 ^ bits (ct c)) by (apply Z.pow_le_mono_r; lia). lia.
Qed.

Lemma finish_reject c V neg old : wf c = true -> maxv (ct c) < V <= maxv (ci c) ->
  finish c (ci c) V neg old = Ok (false, old).
Proof.
  intros W R. destruct (wf_bnd c W) as (BB & K & KI & B2 & SE & F1).
  destruct (ci_room c W) as (R1 & R2 & R3 & R4 & R5). pose proof (maxv_pos _ K) as M7.
  unfold finish. rewrite (nn_wrap (ci c)) by (auto; clear - R M7; lia).
  rewrite nn_lt; auto; [|clear - R M7; lia|clear - R M7; lia].
  replace (maxv (ct c) <? V) with true by (symmetry; apply Z.ltb_lt; clear - R; lia). reflexivity.
Qed.

(** the pure arithmetic of cutting digits *)
Lemma cut_value f lim ip fp r u : 0 <= f -> is_digits 10 fp -> dec_result lim fp r u -> 2 ^ f <= 10 * (lim + 1) ->
  let V := num 10 ip * 2 ^ f + num 10 r * 2 ^ f / 10 ^ Z.of_nat (length r) in
  (qval f V <= numeral 10 false ip fp)%Q /\ (numeral 10 false ip fp < qval f (V + 11))%Q /\
  (u = [] -> (numeral 10 false ip fp < qval f (V + 1))%Q).
Proof.
  intros F HF (E & CUT & PR) LM. cbv zeta.
  assert (P : 0 < 2 ^ f) by (apply pow2_pos; lia).
  rewrite E in HF. apply is_digits_app in HF. destruct HF as [HR HU].
  pose proof (num_nonneg 10 r ltac:(lia) HR) as NR. pose proof (num_nonneg 10 u ltac:(lia) HU) as NU.
  unfold numeral. rewrite E. rewrite app_length, Nat2Z.inj_add, Z.pow_add_r by lia. rewrite num_app.
  set (D := 10 ^ Z.of_nat (length r)) in *. set (L := 10 ^ Z.of_nat (length u)) in *.
  set (R := num 10 r) in *. set (U := num 10 u) in *. set (I := num 10 ip).
  assert (PD : 0 < D) by lia. assert (PL : 0 < L) by lia.
  pose proof (Z.div_mod (R * 2 ^ f) D ltac:(lia)) as DM. pose proof (Z.mod_pos_bound (R * 2 ^ f) D PD) as MB.
  set (w := R * 2 ^ f / D) in *. set (rho := (R * 2 ^ f) mod D) in *.
  unfold qval, Qle, Qlt; cbn [Qnum Qden]. rewrite pow2p_Z by lia. rewrite Z2Pos.id by nia.
  (* everything times D * L *)
  assert (EQ : (I * (D * L) + (R * L + U)) * 2 ^ f = I * 2 ^ f * (D * L) + (w * D + rho) * L + U * 2 ^ f).
  { transitivity (I * 2 ^ f * (D * L) + (R * 2 ^ f) * L + U * 2 ^ f); [ring|]. rewrite DM. ring. }
  rewrite EQ.
  assert (A1 : 0 <= rho * L) by (clear - MB PL; nia).
  assert (A2 : 0 <= U * 2 ^ f) by (clear - NU P; nia).
  assert (A3 : rho * L < D * L) by (clear - MB PL; nia).
  split; [|split].
  - replace ((I * 2 ^ f + w) * (D * L)) with (I * 2 ^ f * (D * L) + w * D * L) by ring.
    replace ((w * D + rho) * L) with (w * D * L + rho * L) by ring. clear - A1 A2. lia.
  - replace ((I * 2 ^ f + w + 11) * (D * L)) with (I * 2 ^ f * (D * L) + w * D * L + 11 * (D * L)) by ring.
    replace ((w * D + rho) * L) with (w * D * L + rho * L) by ring.
    assert (U * 2 ^ f <= 10 * (D * L)).
    { destruct CUT as [CUT|CUT].
      - unfold U. rewrite CUT. change (num 10 []) with 0. clear - PD PL. nia.
      - assert (2 ^ f <= 10 * D) by (clear - LM CUT NR; lia). clear - H NU P PD. nia. }
    clear - H A3. lia.
  - intros ->. change (num 10 []) with 0 in U. subst U.
    replace ((I * 2 ^ f + w + 1) * (D * L)) with (I * 2 ^ f * (D * L) + w * D * L + D * L) by ring.
    replace ((w * D + rho) * L) with (w * D * L + rho * L) by ring. clear - A3. lia.
Qed.

Lemma int_le_numeral ip fp : is_digits 10 fp -> (inject_Z (num 10 ip) <= numeral 10 false ip fp)%Q /\
  (numeral 10 false ip fp < inject_Z (num 10 ip + 1))%Q.
Proof.
  intros HF. pose proof (num_nonneg 10 fp ltac:(lia) HF) as NF.
  unfold numeral, Qle, Qlt, inject_Z; cbn [Qnum Qden]. rewrite Z2Pos.id by lia.
  set (D := 10 ^ _) in *. nia.
Qed.

(** in-range text has an integer part that fits *)
Lemma in_range_int c ip fp : wf c = true -> is_digits 10 fp ->
  (numeral 10 false ip fp < qval (cf c) (hi (bits (ct c)) (sgn (ct c)) + 1))%Q ->
  num 10 ip * 2 ^ cf c <= maxv (ct c) /\ (num 10 ip + 1) * 2 ^ cf c <= maxv (ci c).
Proof.
  intros W HF H. destruct (wf_bnd c W) as (BB & K & KI & B2 & SE & F1).
  destruct (ci_room c W) as (R1 & R2 & R3 & R4 & R5). pose proof (cf_pos c W) as P.
  destruct (int_le_numeral ip fp HF) as [A _].
  pose proof (Qle_lt_trans _ _ _ A H) as L.
  change (hi (bits (ct c)) (sgn (ct c))) with (maxv (ct c)) in L.
  unfold qval, Qlt, inject_Z in L; cbn [Qnum Qden] in L. rewrite pow2p_Z in L by (clear - F1; lia).
  split; [clear - L; lia|]. clear - L R2 R3 R4. lia.
Qed.

Lemma parse_accurate c neg ip fp old : wf c = true -> cf c <= 62 -> is_digits 10 ip -> is_digits 10 (frac_of fp) ->
  (neg = true -> sgn (ct c) = true) ->
  (numeral 10 false ip (frac_of fp) < qval (cf c) (hi (bits (ct c)) (sgn (ct c)) + 1))%Q ->
  10 ^ (leading_zeros (frac_of fp) + 1) * 2 ^ cf c <= hi (bits (ci c)) (sgn (ci c)) ->
  exists a, detail_parse c (dec_text neg ip fp) old = Ok (true, if neg then - a else a) /\ 0 <= a /\
    valid c (if neg then - a else a) = true /\
    (qval (cf c) a <= numeral 10 false ip (frac_of fp))%Q /\
    (numeral 10 false ip (frac_of fp) < qval (cf c) (a + 11))%Q.
Proof.
  intros W F HI HF S RG MZ. change (hi (bits (ci c)) (sgn (ci c))) with (maxv (ci c)) in MZ.
  pose proof (cf_pos c W) as P. pose proof (lim_bounds c W) as (L0 & L1 & L2).
  destruct (wf_bnd c W) as (BB & K & KI & B2 & SE & F1).
  destruct (in_range_int c ip (frac_of fp) W HF RG) as [M1 M2].
  destruct (parse_eval c neg ip fp old W F HI HF M2 (or_introl MZ)) as (r & u & DR & E).
  destruct (cut_value (cf c) (lim_of c) ip (frac_of fp) r u ltac:(clear - F1; lia) HF DR L2) as (C1 & C2 & _).
  set (V := num 10 ip * 2 ^ cf c + num 10 r * 2 ^ cf c / 10 ^ Z.of_nat (length r)) in *.
  pose proof (num_nonneg 10 ip ltac:(lia) HI) as NI.
  destruct DR as (EF & _ & _). rewrite EF in HF. apply is_digits_app in HF. destruct HF as [HR _].
  pose proof (num_nonneg 10 r ltac:(lia) HR) as NR.
  assert (V0 : 0 <= V).
  { unfold V. assert (0 <= num 10 r * 2 ^ cf c / 10 ^ Z.of_nat (length r)).
    { apply Z.div_pos; [clear - NR P; nia|clear - NR; lia]. }
    clear - H NI P. nia. }
  assert (VM : V <= maxv (ct c)).
  { pose proof (Qle_lt_trans _ _ _ C1 RG) as X. apply qval_lt in X.
    change (hi (bits (ct c)) (sgn (ct c))) with (maxv (ct c)) in X. clear - X. lia. }
  exists V. rewrite E, finish_ok by auto. split; [reflexivity|]. split; [exact V0|]. split; [|split; assumption].
  unfold valid. destruct neg; [|apply in_range_nn_i; auto].
  specialize (S eq_refl). apply in_range_iff. unfold minv. rewrite S. unfold maxv in VM |- *. rewrite S in VM |- *.
  clear - V0 VM. lia.
Qed.

(** short fractions are read completely *)
Lemma short_complete lim fp r u : dec_result lim fp r u -> is_digits 10 fp ->
  10 ^ Z.of_nat (length fp) <= 10 * (lim + 1) -> u = [].
Proof.
  intros (E & CUT & _) HF L. destruct CUT as [H|H]; [exact H|].
  destruct u as [|d u]; [reflexivity|]. exfalso.
  rewrite E in HF, L. apply is_digits_app in HF. destruct HF as [HR _].
  pose proof (num_nonneg 10 r ltac:(lia) HR) as NR.
  rewrite app_length in L. cbn [length] in L. rewrite Nat2Z.inj_add, Z.pow_add_r in L by lia.
  rewrite Nat2Z.inj_succ, Z.pow_succ_r in L by lia.
  pose proof (Z.pow_pos_nonneg 10 (Z.of_nat (length u)) ltac:(lia) ltac:(lia)) as PU.
  set (D := 10 ^ Z.of_nat (length r)) in *. set (U := 10 ^ Z.of_nat (length u)) in *.
  assert (D * 10 <= D * (10 * U)) by nia. lia.
Qed.

Lemma parse_short c neg ip fp old : wf c = true -> cf c <= 62 -> is_digits 10 ip -> is_digits 10 (frac_of fp) ->
  (neg = true -> sgn (ct c) = true) ->
  (numeral 10 false ip (frac_of fp) < qval (cf c) (hi (bits (ct c)) (sgn (ct c)) + 1))%Q ->
  10 ^ Z.of_nat (length (frac_of fp)) <= 2 ^ cf c ->
  exists m, detail_parse c (dec_text neg ip fp) old = Ok (true, m) /\ valid c m = true /\
    is_trunc (cf c) (numeral 10 neg ip (frac_of fp)) m.
Proof.
  intros W F HI HF S RG SH.
  pose proof (cf_pos c W) as P. pose proof (lim_bounds c W) as (L0 & L1 & L2).
  destruct (wf_bnd c W) as (BB & K & KI & B2 & SE & F1). destruct (ci_room c W) as (R1 & R2 & R3 & R4 & R5).
  destruct (in_range_int c ip (frac_of fp) W HF RG) as [M1 M2].
  assert (MZ : 10 ^ Z.of_nat (length (frac_of fp)) <= maxv (ci c)).
  { clear - SH R2 R4 P. lia. }
  destruct (parse_eval c neg ip fp old W F HI HF M2 (or_intror MZ)) as (r & u & DR & E).
  pose proof (short_complete (lim_of c) (frac_of fp) r u DR HF ltac:(clear - SH L2; lia)) as U.
  destruct (cut_value (cf c) (lim_of c) ip (frac_of fp) r u ltac:(clear - F1; lia) HF DR L2) as (C1 & _ & C2).
  specialize (C2 U).
  set (V := num 10 ip * 2 ^ cf c + num 10 r * 2 ^ cf c / 10 ^ Z.of_nat (length r)) in *.
  pose proof (num_nonneg 10 ip ltac:(lia) HI) as NI.
  destruct DR as (EF & _ & _). pose proof HF as HF'. rewrite EF in HF'. apply is_digits_app in HF'. destruct HF' as [HR _].
  pose proof (num_nonneg 10 r ltac:(lia) HR) as NR.
  assert (V0 : 0 <= V).
  { unfold V. assert (0 <= num 10 r * 2 ^ cf c / 10 ^ Z.of_nat (length r)).
    { apply Z.div_pos; [clear - NR P; nia|clear - NR; lia]. }
    clear - H NI P. nia. }
  assert (VM : V <= maxv (ct c)).
  { pose proof (Qle_lt_trans _ _ _ C1 RG) as X. apply qval_lt in X.
    change (hi (bits (ct c)) (sgn (ct c))) with (maxv (ct c)) in X. clear - X. lia. }
  exists (if neg then - V else V). rewrite E, finish_ok by auto. split; [reflexivity|]. split.
  - unfold valid. destruct neg; [|apply in_range_nn_i; auto].
    specialize (S eq_refl). apply in_range_iff. unfold minv. rewrite S. unfold maxv in VM |- *. rewrite S in VM |- *.
    clear - V0 VM. lia.
  - pose proof (num_nonneg 10 (frac_of fp) ltac:(lia) HF) as NF.
    unfold numeral in C1, C2 |- *.
    set (a := num 10 ip * 10 ^ Z.of_nat (length (frac_of fp)) + num 10 (frac_of fp)) in *.
    set (b := Z.to_pos (10 ^ Z.of_nat (length (frac_of fp)))) in *.
    assert (A0 : 0 <= a) by (unfold a; clear - NI NF; nia).
    assert (FL : is_floor (cf c) (a # b) V) by (split; assumption).
    apply is_floor_iff in FL; [|clear - F1; lia].
    assert (AP : 0 <= a * 2 ^ cf c) by (clear - A0 P; nia).
    destruct neg.
    + change (- (a # b))%Q with ((- a) # b)%Q. apply is_trunc_iff; [clear - F1; lia|].
      rewrite Z.mul_opp_l, Z.quot_opp_l, Z.quot_div_nonneg by (clear - AP; lia). rewrite FL. reflexivity.
    + apply is_trunc_iff; [clear - F1; lia|]. rewrite Z.quot_div_nonneg by (clear - AP; lia). exact FL.
Qed.

Lemma hi_int c : wf c = true -> exists n, hi (bits (ct c)) (sgn (ct c)) + 1 = n * 2 ^ cf c.
Proof.
  intros W. destruct (wf_bnd c W) as (BB & K & KI & B2 & SE & F1). unfold hi. destruct (sgn (ct c)).
  - exists (2 ^ (bits (ct c) - 1 - cf c)). rewrite <- Z.pow_add_r by (clear - F1; lia).
    replace (bits (ct c) - 1 - cf c + cf c) with (bits (ct c) - 1) by (clear; lia). clear; lia.
  - exists (2 ^ (bits (ct c) - cf c)). rewrite <- Z.pow_add_r by (clear - F1; lia).
    replace (bits (ct c) - cf c + cf c) with (bits (ct c)) by (clear; lia). clear; lia.
Qed.

Lemma parse_rejects c neg ip fp old : wf c = true -> cf c <= 62 -> is_digits 10 ip -> is_digits 10 (frac_of fp) ->
  (qval (cf c) (hi (bits (ct c)) (sgn (ct c)) + 1) <= numeral 10 false ip (frac_of fp))%Q ->
  (num 10 ip + 1) * 2 ^ cf c <= hi (bits (ci c)) (sgn (ci c)) ->
  10 ^ (leading_zeros (frac_of fp) + 1) * 2 ^ cf c <= hi (bits (ci c)) (sgn (ci c)) ->
  detail_parse c (dec_text neg ip fp) old = Ok (false, old).
Proof.
  intros W F HI HF RG MI MZ. change (hi (bits (ci c)) (sgn (ci c))) with (maxv (ci c)) in MZ, MI.
  pose proof (cf_pos c W) as P. destruct (wf_bnd c W) as (BB & K & KI & B2 & SE & F1).
  destruct (hi_int c W) as [n Hn].
  assert (NL : n <= num 10 ip).
  { destruct (int_le_numeral ip (frac_of fp) HF) as [_ X]. pose proof (Qle_lt_trans _ _ _ RG X) as Y.
    rewrite Hn in Y. unfold qval, Qlt, inject_Z in Y; cbn [Qnum Qden] in Y. rewrite pow2p_Z in Y by (clear - F1; lia).
    clear - Y P. nia. }
  destruct (parse_eval c neg ip fp old W F HI HF MI (or_introl MZ)) as (r & u & DR & E).
  destruct DR as (EF & _ & _). rewrite EF in HF. apply is_digits_app in HF. destruct HF as [HR _].
  pose proof (num_nonneg 10 r ltac:(lia) HR) as NR.
  assert (Q0 : 0 <= num 10 r * 2 ^ cf c / 10 ^ Z.of_nat (length r)).
  { apply Z.div_pos; [clear - NR P; nia|clear - NR; lia]. }
  assert (QL : num 10 r * 2 ^ cf c / 10 ^ Z.of_nat (length r) < 2 ^ cf c).
  { apply Z.div_lt_upper_bound; [clear - NR; lia|]. clear - NR P. nia. }
  rewrite E. apply finish_reject; [exact W|].
  change (hi (bits (ct c)) (sgn (ct c))) with (maxv (ct c)) in Hn.
  assert (n * 2 ^ cf c <= num 10 ip * 2 ^ cf c) by (clear - NL P; nia).
  clear - H Hn Q0 QL MI. lia.
Qed.

(** ** every string *)
Lemma finish_false c ti V neg old x : finish c ti V neg old = Ok (false, x) -> x = old.
Proof.
  unfold finish. destruct (_ || _); [congruence|]. cbv zeta. destruct neg; [|discriminate].
  destruct (fx_neg c (wrap (ct c) V)); discriminate.
Qed.

Lemma parse_false_keeps c s old x : detail_parse c s old = Ok (false, x) -> x = old.
Proof.
  unfold detail_parse. destruct (sign_of s) as [neg s1].
  destruct (int_strict (ci c) s1 0) as [[[ip s2]|]| | |]; cbn [bind]; try discriminate; [|congruence].
  destruct s2 as [|ch s3].
  - destruct (c_shl (ci c) ip (cf c)); cbn [bind]; try discriminate. apply finish_false.
  - destruct (ch =? 46).
    + destruct (c_shl int64 1 (cf c)); cbn [bind]; try discriminate.
      destruct (c_sub int64 int32 _ _); cbn [bind]; try discriminate.
      destruct (c_div int64 int32 _ _); cbn [bind]; try discriminate.
      destruct (dec_strict _ _ _ _ _ _) as [[[[d v] t]|]| | |]; cbn [bind]; try discriminate; [|congruence].
      destruct (combine _ _ _ _ _); cbn [bind]; try discriminate. apply finish_false.
    + destruct (c_shl (ci c) ip (cf c)); cbn [bind]; try discriminate. apply finish_false.
Qed.

Lemma parse_bad_int c (neg : bool) ds ch tail old : wf c = true -> is_digits 10 ds ->
  ch <> 46 -> check_ch ch = false -> (ds = [] -> neg = false -> ch <> 45) ->
  num 10 ds <= hi (bits (ci c)) (sgn (ci c)) ->
  detail_parse c ((if neg then [45] else []) ++ map dch ds ++ ch :: tail) old = Ok (false, old).
Proof.
  intros W HD C1 C2 C3 M. change (hi (bits (ci c)) (sgn (ci c))) with (maxv (ci c)) in M.
  destruct (wf_bnd c W) as (BB & K & KI & B2 & SE & F1).
  assert (S : sign_of ((if neg then [45] else []) ++ map dch ds ++ ch :: tail) = (neg, map dch ds ++ ch :: tail)).
  { destruct neg; [reflexivity|]. cbn [app]. destruct HD as [|d ds Hd HD]; cbn [map app sign_of].
    - specialize (C3 eq_refl eq_refl). apply Z.eqb_neq in C3. rewrite C3. reflexivity.
    - destruct (dch_check d Hd) as (_ & _ & ->). reflexivity. }
  unfold detail_parse. rewrite S.
  rewrite (int_strict_bad (ci c) ds ch tail KI HD C1 C2 0 ltac:(clear; lia) ltac:(clear - M; lia)). reflexivity.
Qed.

Lemma dec_strict_bad t tm lim ds ch tail : ity_ok t = true -> ity_ok tm = true -> 0 <= lim <= maxv tm ->
  10 * lim + 9 <= maxv t -> is_digits 10 ds -> check_ch ch = false ->
  forall r0 dec div, is_digits 10 r0 -> dec = num 10 r0 -> div = 10 ^ Z.of_nat (length r0) ->
  dec <= maxv t -> 10 ^ Z.of_nat (length (r0 ++ ds)) <= maxv t ->
  (forall r1 r2, r0 ++ ds = r1 ++ r2 -> r2 <> [] -> num 10 r1 <= lim) ->
  dec_strict t tm lim (map dch ds ++ ch :: tail) dec div = Ok None.
Proof.
  intros K KM LM L9 H CH. induction H as [|d ds Hd H IH]; intros r0 dec div H0 -> -> MD MV PR.
  - cbn [map app dec_strict]. rewrite CH. reflexivity.
  - cbn [map app dec_strict]. destruct (dch_check d Hd) as (-> & _ & _). cbn [negb].
    pose proof (num_nonneg 10 r0 ltac:(lia) H0) as NN.
    rewrite nn_lt by (auto; clear - NN MD; lia).
    pose proof (PR r0 (d :: ds) eq_refl ltac:(discriminate)) as L.
    destruct (Z.ltb_spec lim (num 10 r0)) as [X|_]; [exfalso; clear - X L; lia|].
    rewrite push_digit_ok; auto; [|clear - NN; lia|clear - Hd L L9; lia]. cbn [bind].
    pose proof (pow_len_pos 10 r0 ltac:(lia)) as PP.
    assert (LE : 10 ^ Z.of_nat (length r0) * 10 = 10 ^ Z.of_nat (length (r0 ++ [d]))).
    { rewrite app_length. cbn [length]. rewrite Nat2Z.inj_add, Z.pow_add_r by (clear; lia). reflexivity. }
    assert (EA : r0 ++ d :: ds = (r0 ++ [d]) ++ ds) by (rewrite <- app_assoc; reflexivity).
    assert (DB : 10 ^ Z.of_nat (length (r0 ++ [d])) <= maxv t).
    { apply Z.le_trans with (2 := MV). rewrite EA, (app_length (r0 ++ [d])). apply Z.pow_le_mono_r; clear; lia. }
    rewrite nn_mul; auto; [ | clear - PP DB LE; lia | cbn; clear; lia
      | pose proof (maxv_uac_l t int32 K eq_refl) as HU; clear - HU DB LE; lia].
    cbn [bind]. rewrite LE. rewrite nn_wrap by (auto; clear - DB LE PP; lia).
    apply (IH (r0 ++ [d])).
    + apply is_digits_app. split; [exact H0|constructor; [exact Hd|constructor]].
    + rewrite num_snoc. reflexivity.
    + reflexivity.
    + clear - Hd L L9. lia.
    + rewrite <- EA. exact MV.
    + rewrite <- EA. exact PR.
Qed.

Lemma num_prefix r1 r2 d : is_digits 10 (r1 ++ r2 ++ [d]) -> num 10 r1 <= num 10 (r1 ++ r2).
Proof.
  intros H. rewrite app_assoc in H. apply is_digits_app in H. destruct H as [H _].
  apply is_digits_app in H. destruct H as [H1 H2].
  rewrite num_app. pose proof (num_nonneg 10 r1 ltac:(lia) H1). pose proof (num_nonneg 10 r2 ltac:(lia) H2).
  pose proof (pow_len_pos 10 r2 ltac:(lia)). nia.
Qed.

Lemma parse_bad_frac c (neg : bool) ip fp ch tail old : wf c = true -> cf c <= 62 -> is_digits 10 ip -> is_digits 10 fp ->
  check_ch ch = false -> (forall r d, fp = r ++ [d] -> num 10 r <= lim_of c) ->
  num 10 ip <= hi (bits (ci c)) (sgn (ci c)) -> 10 ^ Z.of_nat (length fp) <= hi (bits (ci c)) (sgn (ci c)) ->
  detail_parse c ((if neg then [45] else []) ++ map dch ip ++ 46 :: map dch fp ++ ch :: tail) old = Ok (false, old).
Proof.
  intros W F HI HF CH PR M1 M2. change (hi (bits (ci c)) (sgn (ci c))) with (maxv (ci c)) in M1, M2.
  destruct (wf_bnd c W) as (BB & K & KI & B2 & SE & F1). destruct (ci_room c W) as (R1 & R2 & R3 & R4 & R5).
  pose proof (cf_pos c W) as P. pose proof (lim_bounds c W) as (L0 & L1 & L2).
  assert (S : sign_of ((if neg then [45] else []) ++ map dch ip ++ 46 :: map dch fp ++ ch :: tail) =
              (neg, map dch ip ++ 46 :: map dch fp ++ ch :: tail)).
  { destruct neg; [reflexivity|]. cbn [app]. destruct HI as [|d ds Hd HD]; cbn [map app sign_of].
    - reflexivity.
    - destruct (dch_check d Hd) as (_ & _ & ->). reflexivity. }
  unfold detail_parse. rewrite S.
  rewrite (int_strict_digits (ci c) ip _ KI ltac:(right; eauto) HI 0 ltac:(clear; lia) ltac:(clear - M1; lia)). cbn [bind].
  rewrite Z.eqb_refl.
  destruct (lim_detail c W F) as (E1 & E2 & E3 & E4). rewrite E1. cbn [bind]. rewrite E2. cbn [bind].
  rewrite E3. cbn [bind].
  rewrite (dec_strict_bad (ci c) int64 (lim_of c) fp ch tail KI eq_refl E4) with (r0 := []); auto.
  - clear - L1 R1 P. nia.
  - constructor.
  - pose proof (maxv_pos _ KI) as M7. clear - M7; lia.
  - cbn [app]. intros r1 r2 E N. destruct r2 as [|x r2] using rev_ind; [congruence|]. clear IHr2.
    rewrite E in HF. pose proof (num_prefix r1 r2 x HF). rewrite app_assoc in E. specialize (PR _ _ E). clear - H PR. lia.
Qed.

(** shape of accepted strings *)
Lemma dec_strict_inv t tm lim s : forall dec div d' v' tail, dec_strict t tm lim s dec div = Ok (Some (d', v', tail)) ->
  exists r, is_digits 10 r /\ s = map dch r ++ tail /\
    (tail = [] \/ (exists d t', tail = dch d :: t' /\ 0 <= d < 10 /\ c_lt tm t lim d' = true)).
Proof.
  induction s as [|ch s IH]; intros dec div d' v' tail E; cbn [dec_strict] in E.
  - injection E as _ _ <-. exists []. split; [constructor|]. split; [reflexivity|]. left; reflexivity.
  - destruct (check_ch ch) eqn:C; cbn [negb] in E; [|discriminate].
    destruct (check_ch_inv ch C) as (d & Hd & ->).
    destruct (c_lt tm t lim dec) eqn:L.
    + injection E as <- _ <-. exists []. split; [constructor|]. split; [reflexivity|]. right. exists d, s. auto.
    + destruct (push_digit t dec (dch d)) as [a| | |]; try discriminate. cbn [bind] in E.
      destruct (c_mul t int32 div 10) as [b| | |]; try discriminate. cbn [bind] in E.
      destruct (IH _ _ _ _ _ E) as (ds & H1 & -> & H3). exists (d :: ds).
      split; [constructor; auto|]. split; [reflexivity|exact H3].
Qed.

Lemma dec_strict_value t tm lim s : ity_ok t = true -> ity_ok tm = true -> 0 <= lim <= maxv tm -> 10 * lim + 9 <= maxv t ->
  forall r0 div d' v' tail, is_digits 10 r0 -> num 10 r0 <= maxv t ->
  dec_strict t tm lim s (num 10 r0) div = Ok (Some (d', v', tail)) ->
  exists r, is_digits 10 r /\ s = map dch r ++ tail /\ d' = num 10 (r0 ++ r) /\
    (tail = [] \/ (exists d t', tail = dch d :: t' /\ 0 <= d < 10 /\ lim < d')).
Proof.
  intros K KM LM L9. induction s as [|ch s IH]; intros r0 div d' v' tail H0 M E; cbn [dec_strict] in E.
  - injection E as <- _ <-. exists []. rewrite (app_nil_r r0). split; [constructor|]. repeat split. left; reflexivity.
  - destruct (check_ch ch) eqn:C; cbn [negb] in E; [|discriminate].
    destruct (check_ch_inv ch C) as (d & Hd & ->).
    pose proof (num_nonneg 10 r0 ltac:(lia) H0) as NN.
    rewrite nn_lt in E by (auto; clear - NN M; lia).
    destruct (Z.ltb_spec lim (num 10 r0)) as [L|L].
    + injection E as <- _ <-. exists []. rewrite (app_nil_r r0). split; [constructor|]. repeat split. right. exists d, s. auto.
    + rewrite push_digit_ok in E; auto; [|clear - NN; lia|clear - Hd L L9; lia]. cbn [bind] in E.
      destruct (c_mul t int32 div 10) as [b| | |]; try discriminate. cbn [bind] in E.
      rewrite <- num_snoc in E.
      destruct (IH (r0 ++ [d]) _ _ _ _ ltac:(apply is_digits_app; split; [exact H0|constructor; [exact Hd|constructor]])
        ltac:(rewrite num_snoc; clear - Hd L L9; lia) E) as (r & H1 & -> & -> & H3).
      exists (d :: r). rewrite <- app_assoc in H3 |- *. cbn [app] in H3 |- *. split; [constructor; auto|]. auto.
Qed.

Lemma sign_of_inv s neg s1 : sign_of s = (neg, s1) -> s = (if neg then [45] else []) ++ s1.
Proof.
  destruct s as [|ch s]; cbn [sign_of]; [intros E; injection E as <- <-; reflexivity|].
  destruct (Z.eqb_spec ch 45) as [->|]; intros E; injection E as <- <-; reflexivity.
Qed.

Lemma parse_shape c s old v : wf c = true -> cf c <= 62 -> detail_parse c s old = Ok (true, v) ->
  exists neg ip, is_digits 10 ip /\
   (s = dec_text neg ip None \/
    exists r tail, is_digits 10 r /\ s = dec_text neg ip (Some r) ++ tail /\
      (tail = [] \/ exists d t', tail = dch d :: t' /\ 0 <= d < 10 /\ 2 ^ cf c <= 10 * num 10 r)).
Proof.
  intros W F E. destruct (wf_bnd c W) as (BB & K & KI & B2 & SE & F1). destruct (ci_room c W) as (R1 & R2 & R3 & R4 & R5).
  pose proof (cf_pos c W) as P. pose proof (lim_bounds c W) as (L0 & L1 & L2).
  unfold detail_parse in E. destruct (sign_of s) as [neg s1] eqn:S. apply sign_of_inv in S.
  destruct (int_strict (ci c) s1 0) as [[[ip s2]|]| | |] eqn:EI; cbn [bind] in E; try discriminate.
  destruct (int_strict_inv _ _ _ _ _ EI) as (ds & HD & -> & EN). exists neg, ds. split; [exact HD|].
  destruct EN as [->|(s3 & ->)].
  - left. rewrite S. reflexivity.
  - right. rewrite Z.eqb_refl in E.
    destruct (lim_detail c W F) as (E1 & E2 & E3 & E4). rewrite E1 in E. cbn [bind] in E. rewrite E2 in E. cbn [bind] in E.
    rewrite E3 in E. cbn [bind] in E.
    destruct (dec_strict (ci c) int64 (lim_of c) s3 0 1) as [[[[d v0] t]|]| | |] eqn:ED; cbn [bind] in E; try discriminate.
    change 0 with (num 10 []) in ED.
    destruct (dec_strict_value (ci c) int64 (lim_of c) s3 KI eq_refl E4 ltac:(clear - L1 R1 P; nia) [] 1 d v0 t) as (r & HR & -> & -> & T).
    + constructor.
    + pose proof (maxv_pos _ KI) as M7. change (num 10 []) with 0. clear - M7; lia.
    + exact ED.
    + exists r, t. split; [exact HR|]. split.
      * rewrite S. unfold dec_text. rewrite <- !app_assoc. reflexivity.
      * destruct T as [T|(d & t' & -> & Hd & T)]; [left; exact T|right]. exists d, t'. repeat split; try apply Hd.
        cbn [app] in T. clear - T L2. lia.
Qed.

(** ** definedness for bounded length *)
Lemma int_strict_total t M s : ity_ok t = true -> M <= maxv t -> forall acc, 0 <= acc -> (acc + 1) * 10 ^ Z.of_nat (length s) <= M ->
  exists o, int_strict t s acc = Ok o /\
    match o with None => True | Some (v, tail) => 0 <= v /\ (v + 1) * 10 ^ Z.of_nat (length tail) <= M end.
Proof.
  intros K MM. induction s as [|ch s IH]; intros acc A B; cbn [int_strict].
  - exists (Some (acc, [])). auto.
  - destruct (ch =? 46); [exists (Some (acc, ch :: s)); auto|].
    destruct (check_ch ch) eqn:C; cbn [negb]; [|exists None; auto].
    destruct (check_ch_inv ch C) as (d & Hd & ->). cbn [length] in B. rewrite Nat2Z.inj_succ, Z.pow_succ_r in B by (clear; lia).
    pose proof (pow_len_pos 10 s ltac:(lia)) as PP. set (p := 10 ^ Z.of_nat (length s)) in *.
    assert (B' : (acc * 10 + d + 1) * p <= M) by (clear - B Hd PP A; nia).
    rewrite push_digit_ok; auto; [|clear - B' MM PP A Hd; nia]. cbn [bind]. apply IH; [clear - A Hd; lia|exact B'].
Qed.
Lemma dec_strict_total t tm lim s : ity_ok t = true -> ity_ok tm = true -> 0 <= lim <= maxv tm ->
  forall dec div, 0 <= dec < div -> div * 10 ^ Z.of_nat (length s) <= maxv t ->
  exists o, dec_strict t tm lim s dec div = Ok o /\
    match o with None => True | Some (d, v, _) => 0 <= d < v /\ v <= div * 10 ^ Z.of_nat (length s) end.
Proof.
  intros K KM LM. induction s as [|ch s IH]; intros dec div A B; cbn [dec_strict].
  - exists (Some (dec, div, [])). split; [reflexivity|]. cbn [length]. clear - A. change (10 ^ Z.of_nat 0) with 1. lia.
  - pose proof (pow_len_pos 10 s ltac:(lia)) as PP.
    cbn [length] in B |- *. rewrite Nat2Z.inj_succ, Z.pow_succ_r in B |- * by (clear; lia).
    set (p := 10 ^ Z.of_nat (length s)) in *.
    destruct (check_ch ch) eqn:C; cbn [negb]; [|exists None; auto].
    destruct (check_ch_inv ch C) as (d & Hd & ->).
    destruct (c_lt tm t lim dec).
    + exists (Some (dec, div, dch d :: s)). split; [reflexivity|]. split; [exact A|]. clear - A PP. nia.
    + assert (BB : div * 10 * p <= maxv t) by (clear - B; lia).
      assert (B2 : div * 10 <= maxv t) by (clear - BB A PP; nia).
      rewrite push_digit_ok; auto; [|clear - A; lia|clear - A Hd B2; lia]. cbn [bind].
      rewrite nn_mul; auto; [ | clear - A B2; lia | cbn; clear; lia
        | pose proof (maxv_uac_l t int32 K eq_refl) as HU; clear - HU B2; lia].
      cbn [bind]. rewrite nn_wrap by (auto; clear - A B2; lia).
      destruct (IH (dec * 10 + d) (div * 10) ltac:(clear - A Hd; lia) BB) as (o & E & X). exists o. split; [exact E|].
      destruct o as [[[d' v'] t']|]; [|exact I]. fold p in X. destruct X as [X1 X2]. split; [exact X1|]. clear - X2. lia.
Qed.

Lemma finish_total c V neg old : wf c = true -> 0 <= V <= maxv (ci c) -> exists r, finish c (ci c) V neg old = Ok r.
Proof.
  intros W R. destruct (Z_lt_le_dec (maxv (ct c)) V) as [L|L].
  - rewrite finish_reject by (auto; clear - R L; lia). eauto.
  - destruct (wf_bnd c W) as (BB & K & KI & B2 & SE & F1).
    destruct (sgn (ct c)) eqn:S; [rewrite finish_ok by (auto; clear - R L; lia); eauto|].
    destruct neg; [|rewrite finish_ok by (auto; try discriminate; clear - R L; lia); eauto].
    unfold finish. destruct (_ || _); [eauto|]. cbv zeta.
    rewrite (nn_wrap (ct c)) by (auto; clear - R L; lia). rewrite fx_neg_eq; auto.
    + unfold ovf. rewrite S. cbn [andb bind]. eauto.
    + apply in_range_nn_i; auto. clear - R L; lia.
Qed.

Lemma parse_defined c s old : wf c = true -> cf c <= 62 ->
  10 ^ Z.of_nat (length s) * 2 ^ cf c <= hi (bits (ci c)) (sgn (ci c)) ->
  exists r, detail_parse c s old = Ok r.
Proof.
  intros W F B. change (hi (bits (ci c)) (sgn (ci c))) with (maxv (ci c)) in B.
  destruct (wf_bnd c W) as (BB & K & KI & B2 & SE & F1). destruct (ci_room c W) as (R1 & R2 & R3 & R4 & R5).
  pose proof (cf_pos c W) as P. pose proof (lim_bounds c W) as (L0 & L1 & L2).
  unfold detail_parse. destruct (sign_of s) as [neg s1] eqn:S. apply sign_of_inv in S.
  assert (B1 : 10 ^ Z.of_nat (length s1) * 2 ^ cf c <= maxv (ci c)).
  { apply Z.le_trans with (2 := B). apply Z.mul_le_mono_nonneg_r; [clear - P; lia|].
    apply Z.pow_le_mono_r; [clear; lia|]. rewrite S, app_length. clear; lia. }
  set (M := maxv (ci c) / 2 ^ cf c).
  assert (MD : M * 2 ^ cf c <= maxv (ci c)) by (unfold M; rewrite Z.mul_comm; apply Z.mul_div_le; clear - P; lia).
  pose proof (maxv_pos _ KI) as M7.
  assert (MM : M <= maxv (ci c)).
  { unfold M. apply Z.div_le_upper_bound; [clear - P; lia|]. clear - P M7. nia. }
  assert (BM : (0 + 1) * 10 ^ Z.of_nat (length s1) <= M).
  { rewrite Z.mul_1_l. unfold M. apply Z.div_le_lower_bound; [clear - P; lia|]. clear - B1. lia. }
  destruct (int_strict_total (ci c) M s1 KI MM 0 ltac:(clear; lia) BM) as (o & -> & X). cbn [bind].
  destruct o as [[ip s2]|]; [|eauto]. destruct X as [X1 X2].
  pose proof (pow_len_pos 10 s2 ltac:(lia)) as PP.
  assert (X3 : (ip + 1) * 2 ^ cf c <= maxv (ci c)).
  { apply Z.le_trans with (2 := MD). apply Z.mul_le_mono_nonneg_r; [clear - P; lia|]. clear - X1 X2 PP. nia. }
  assert (INT : exists r, (let* v := c_shl (ci c) ip (cf c) in finish c (ci c) (wrap (ci c) v) neg old) = Ok r).
  { rewrite c_shl_nn; auto; [ | clear - F1 R5; lia | clear - X3 P; lia]. cbn [bind].
    assert (0 <= ip * 2 ^ cf c <= maxv (ci c)) by (split; [clear - X1 P; nia|clear - X3 P; lia]).
    rewrite nn_wrap by auto. apply finish_total; auto. }
  destruct s2 as [|ch s3]; [exact INT|]. destruct (ch =? 46); [|exact INT].
  destruct (lim_detail c W F) as (E1 & E2 & E3 & E4). rewrite E1. cbn [bind]. rewrite E2. cbn [bind].
  rewrite E3. cbn [bind].
  assert (D1 : 10 ^ Z.of_nat (length s3) <= M).
  { apply Z.le_trans with (10 ^ Z.of_nat (length (ch :: s3))).
    - cbn [length]. apply Z.pow_le_mono_r; clear; lia.
    - clear - X1 X2 PP. nia. }
  destruct (dec_strict_total (ci c) int64 (lim_of c) s3 KI eq_refl E4 0 1 ltac:(clear; lia) ltac:(clear - D1 MM; lia))
    as (o & -> & Y). cbn [bind].
  destruct o as [[[d v] t]|]; [|eauto]. destruct Y as [Y1 Y2].
  assert (DM : d * 2 ^ cf c <= maxv (ci c)).
  { apply Z.le_trans with (2 := MD). apply Z.mul_le_mono_nonneg_r; [clear - P; lia|]. clear - Y1 Y2 D1. lia. }
  assert (Q0 : 0 <= d * 2 ^ cf c / v) by (apply Z.div_pos; [clear - Y1 P; nia|clear - Y1; lia]).
  assert (QL : d * 2 ^ cf c / v < 2 ^ cf c) by (apply Z.div_lt_upper_bound; clear - Y1 P; nia).
  assert (I0 : 0 <= ip * 2 ^ cf c) by (clear - X1 P; nia).
  rewrite combine_ok; auto.
  - cbn [bind]. assert (0 <= ip * 2 ^ cf c + d * 2 ^ cf c / v <= maxv (ci c)) by (clear - Q0 QL I0 X3; lia).
    rewrite nn_wrap by auto. apply finish_total; auto.
  - clear - F1 R5; lia.
  - clear - Y1; lia.
  - clear - Y1 Y2 D1 MM; lia.
  - clear - QL X3. lia.
Qed.

(** ** agreement of the parsers *)
Lemma dec_strict_ext t tm tm' lim s : (forall d, c_lt tm t lim d = c_lt tm' t lim d) ->
  forall dec div, dec_strict t tm lim s dec div = dec_strict t tm' lim s dec div.
Proof.
  intros H. induction s as [|ch s IH]; intros dec div; cbn [dec_strict]; [reflexivity|].
  rewrite H. destruct (negb (check_ch ch)); [reflexivity|]. destruct (c_lt tm' t lim dec); [reflexivity|].
  destruct (push_digit t dec ch); cbn [bind]; auto. destruct (c_mul t int32 div 10); cbn [bind]; auto.
Qed.

Lemma f32_agrees s old : f32_from_cstring s old = detail_parse F32 s old.
Proof.
  unfold f32_from_cstring, detail_parse. change (ci F32) with int64. change (cf F32) with 16.
  destruct (sign_of s) as [neg s1].
  destruct (int_strict int64 s1 0) as [[[ip s2]|]| | |]; cbn [bind]; auto.
  destruct s2 as [|ch s3]; auto. destruct (ch =? 46); auto.
  change (c_shl int32 1 16) with (Ok 65536). change (c_shl int64 1 16) with (Ok 65536). cbn [bind].
  change (c_sub int32 int32 65536 1) with (Ok 65535). change (c_sub int64 int32 65536 1) with (Ok 65535). cbn [bind].
  change (c_div int32 int32 65535 10) with (Ok 6553). change (c_div int64 int32 65535 10) with (Ok 6553). cbn [bind].
  rewrite (dec_strict_ext int64 int32 int64); [reflexivity|]. intros d. reflexivity.
Qed.

Lemma int_lax_strict t ds tail : is_digits 10 ds -> ends tail -> forall acc,
  int_strict t (map dch ds ++ tail) acc = (let* p := int_lax t (map dch ds ++ tail) acc in Ok (Some p)).
Proof.
  intros H E. induction H as [|d ds Hd H IH]; intros acc; cbn [map app].
  - destruct E as [->|(r & ->)]; reflexivity.
  - cbn [int_strict int_lax]. destruct (dch_check d Hd) as (-> & -> & _). cbn [negb].
    destruct (push_digit t acc (dch d)); cbn [bind]; auto.
Qed.

Lemma dec_lax_strict t tm tm' lim ds : ity_ok t = true -> ity_ok tm = true -> ity_ok tm' = true ->
  0 <= lim <= maxv tm -> lim <= maxv tm' -> 10 * lim + 9 <= maxv t -> is_digits 10 ds ->
  forall dec div, 0 <= dec <= maxv t ->
  dec_strict t tm lim (map dch ds) dec div = (let* p := dec_lax t tm' lim (map dch ds) dec div in Ok (Some p)).
Proof.
  intros K K1 K2 L1 L2 L9 H. induction H as [|d ds Hd H IH]; intros dec div D; cbn [map dec_strict dec_lax]; [reflexivity|].
  destruct (dch_check d Hd) as (-> & _ & _). cbn [negb]. rewrite orb_false_r.
  rewrite !nn_lt by (auto; clear - D L1 L2; lia).
  destruct (Z.ltb_spec lim dec) as [L|L]; [reflexivity|].
  rewrite push_digit_ok; auto; [|clear - D; lia|clear - Hd L L9; lia]. cbn [bind].
  destruct (c_mul t int32 div 10); cbn [bind]; auto. apply IH. clear - D Hd L L9. lia.
Qed.

Lemma lim_lax c : wf c = true -> cf c <= bits (ct c) - (if sgn (ct c) then 2 else 1) ->
  c_shl (ct c) 1 (cf c) = Ok (2 ^ cf c) /\ c_sub (promote (ct c)) (ct c) (2 ^ cf c) 1 = Ok (2 ^ cf c - 1) /\
  c_div (promote (ct c)) int32 (2 ^ cf c - 1) 10 = Ok (lim_of c) /\ 0 <= lim_of c <= maxv (uac (promote (ct c)) int32).
Proof.
  intros W F. destruct (wf_bnd c W) as (BB & K & KI & B2 & SE & F1). pose proof (cf_pos c W) as P.
  pose proof (lim_bounds c W) as (L0 & L1 & L2).
  assert (M : 2 ^ cf c <= maxv (ct c)).
  { unfold maxv. destruct (ity_ok_pow _ K) as [EI PI]. destruct (sgn (ct c)).
    - assert (2 ^ (bits (ct c) - 1) = 2 * 2 ^ (bits (ct c) - 2)).
      { rewrite <- Z.pow_succ_r by (clear - BB; lia). f_equal. clear; lia. }
      assert (2 ^ cf c <= 2 ^ (bits (ct c) - 2)) by (apply Z.pow_le_mono_r; clear - F; lia).
      assert (1 <= 2 ^ (bits (ct c) - 2)) by (pose proof (pow2_pos (bits (ct c) - 2) ltac:(clear - BB; lia)); lia).
      clear - H H0 H1. lia.
    - assert (2 ^ cf c <= 2 ^ (bits (ct c) - 1)) by (apply Z.pow_le_mono_r; clear - F; lia).
      clear - H EI PI. lia. }
  pose proof (promote_ok _ K) as KP.
  assert (PM : maxv (ct c) <= maxv (promote (ct c))) by (rewrite <- uac_refl; apply maxv_uac_l; auto).
  pose proof (maxv_pos _ K) as M7.
  split; [|split; [|split]].
  - rewrite (c_shl_nn (ct c) 1 (cf c) K); [f_equal; ring|clear - F1; lia|clear; lia|clear - M; lia].
  - apply nn_sub; auto; [clear - P M PM; lia|clear - M7; lia|clear - P; lia].
  - apply nn_div; auto; [clear - P M PM; lia|cbn; clear; lia|clear; lia].
  - pose proof (maxv_uac_l (promote (ct c)) int32 KP eq_refl). clear - L0 L1 M PM H. lia.
Qed.

Lemma from_cstring_agrees c neg ip fp old : wf c = true -> cf c <= 62 ->
  cf c <= bits (ct c) - (if sgn (ct c) then 2 else 1) -> is_digits 10 ip -> is_digits 10 (frac_of fp) ->
  fixed_from_cstring c (dec_text neg ip fp) old = detail_parse c (dec_text neg ip fp) old.
Proof.
  intros W F F2 HI HF. destruct (wf_bnd c W) as (BB & K & KI & B2 & SE & F1).
  destruct (ci_room c W) as (R1 & R2 & R3 & R4 & R5).
  pose proof (cf_pos c W) as P. pose proof (lim_bounds c W) as (L0 & L1 & L2).
  unfold fixed_from_cstring, detail_parse. rewrite dec_text_sign by exact HI.
  set (tail := match fp with None => [] | Some fp => 46 :: map dch fp end).
  assert (EN : ends tail) by (destruct fp; [right; exists (map dch l); reflexivity|left; reflexivity]).
  rewrite (int_lax_strict _ _ _ HI EN).
  destruct (int_lax (ci c) (map dch ip ++ tail) 0) as [[v s2]| | |] eqn:EL; cbn [bind]; auto.
  assert (ES : s2 = tail).
  { clear - EL HI EN. revert EL. generalize 0 as acc. induction HI as [|d ds Hd H IH]; intros acc; cbn [map app].
    - destruct EN as [->|(r & ->)]; cbn [int_lax]; [congruence|]. rewrite Z.eqb_refl. congruence.
    - cbn [int_lax]. destruct (dch_check d Hd) as (-> & -> & _). cbn [negb].
      destruct (push_digit (ci c) acc (dch d)) as [a| | |]; cbn [bind]; try discriminate. apply IH. }
  rewrite ES. unfold tail. destruct fp as [fp|]; [|reflexivity]. rewrite Z.eqb_refl. cbn [frac_of] in HF.
  destruct (lim_detail c W F) as (E1 & E2 & E3 & E4). rewrite E1. cbn [bind]. rewrite E2. cbn [bind].
  rewrite E3. cbn [bind].
  destruct (lim_lax c W F2) as (G1 & G2 & G3 & G4). rewrite G1. cbn [bind]. rewrite G2. cbn [bind].
  rewrite G3. cbn [bind].
  rewrite (dec_lax_strict (ci c) int64 (uac (promote (ct c)) int32)); auto.
  - destruct (dec_lax _ _ _ _ _ _) as [[[d v0] t]| | |]; cbn [bind]; auto.
  - apply uac_ok; auto. apply promote_ok; auto.
  - apply G4.
  - clear - L1 R1 P; nia.
  - pose proof (maxv_pos _ KI) as M7. clear - M7; lia.
Qed.

(** print then parse *)
Lemma digit_char_low up d : 0 <= d < 10 -> digit_char up d = dch d.
Proof. intros. unfold digit_char. destruct (Z.ltb_spec d 10); [reflexivity|lia]. Qed.
Lemma render_dec up neg ip fp : is_digits 10 ip -> is_digits 10 fp ->
  render up neg ip fp = dec_text neg ip (match fp with [] => None | _ => Some fp end).
Proof.
  intros HI HF. unfold render, dec_text.
  assert (M : forall ds, is_digits 10 ds -> map (digit_char up) ds = map dch ds).
  { intros ds H. induction H as [|d ds Hd H IH]; cbn [map]; [reflexivity|]. rewrite IH, digit_char_low by exact Hd. reflexivity. }
  rewrite (M ip HI). destruct fp as [|d fp]; [reflexivity|]. rewrite (M _ HF). reflexivity.
Qed.
Lemma frac_of_opt fp : frac_of (match fp with [] => None | _ => Some fp end) = fp.
Proof. destruct fp; reflexivity. Qed.

Lemma num_lt b ds : 1 < b -> is_digits b ds -> num b ds < b ^ Z.of_nat (length ds).
Proof.
  intros B H. induction H as [|d ds Hd H IH]; [cbn; lia|]. rewrite num_cons. cbn [length].
  rewrite Nat2Z.inj_succ, Z.pow_succ_r by lia. pose proof (pow_len_pos b ds ltac:(lia)). nia.
Qed.
Lemma lz_upper ds : is_digits 10 ds -> num 10 ds * 10 ^ leading_zeros ds < 10 ^ Z.of_nat (length ds).
Proof.
  intros H. induction H as [|d ds Hd H IH]; [cbn; lia|]. cbn [leading_zeros]. rewrite num_cons. cbn [length].
  rewrite Nat2Z.inj_succ, Z.pow_succ_r by lia. pose proof (pow_len_pos 10 ds ltac:(lia)) as PP.
  pose proof (num_lt 10 ds ltac:(lia) H) as NL. pose proof (lz_nonneg ds) as LZ.
  destruct (Z.eqb_spec d 0) as [->|N].
  - rewrite Z.pow_add_r by lia. change (10 ^ 1) with 10. lia.
  - change (10 ^ 0) with 1. nia.
Qed.
