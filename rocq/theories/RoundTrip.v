(** Printing then parsing. *)
From Coq Require Import ZArith Bool Lia List QArith Qabs.
From Verif Require Import Base Fixed Spec SpecText TextOut TextIn BaseLemmas CLemmas FixedLemmas SpecLemmas NumLemmas
  OutProofs InLemmas InProofs.
Import ListNotations.
Open Scope Z_scope.

Lemma expansion_abs f up s m : 0 <= f -> expansion 10 up s (qval f m) ->
  exists ip fp, is_digits 10 ip /\ is_digits 10 fp /\
    s = dec_text (m <? 0) ip (match fp with [] => None | _ => Some fp end) /\
    (numeral 10 false ip fp == qval f (Z.abs m))%Q /\ (fp = [] \/ 10 ^ leading_zeros fp < 2 ^ f) /\ ((2 ^ f | m) -> fp = []).
Proof.
  intros F (neg & ip & fp & HI & HF & -> & EQ & NG & _ & LAST). exists ip, fp. split; [exact HI|]. split; [exact HF|].
  assert (P : 0 < 2 ^ f) by (apply pow2_pos; lia).
  assert (NE : neg = (m <? 0)).
  { unfold qval, Qlt in NG; cbn [Qnum Qden] in NG. destruct neg; symmetry.
    - apply Z.ltb_lt. pose proof (proj1 NG eq_refl). lia.
    - apply Z.ltb_ge. destruct (Z_lt_le_dec m 0); [|lia]. exfalso. pose proof (proj2 NG ltac:(lia)). discriminate. }
  rewrite render_dec by auto. rewrite NE. split; [reflexivity|].
  assert (EA : (numeral 10 false ip fp == qval f (Z.abs m))%Q).
  { rewrite NE in EQ. destruct (Z.ltb_spec m 0) as [L|L].
    - rewrite Z.abs_neq by lia. change (numeral 10 true ip fp) with (- numeral 10 false ip fp)%Q in EQ.
      setoid_replace (qval f (- m)) with (- qval f m)%Q by (unfold qval, Qeq; cbn; lia). rewrite <- EQ. ring.
    - rewrite Z.abs_eq by lia. exact EQ. }
  split; [exact EA|].
  pose proof (num_nonneg 10 fp ltac:(lia) HF) as NF. pose proof (lz_upper fp HF) as LU.
  pose proof (pow_len_pos 10 fp ltac:(lia)) as PP. pose proof (num_lt 10 fp ltac:(lia) HF) as NL.
  assert (ZE : (num 10 ip * 10 ^ Z.of_nat (length fp) + num 10 fp) * 2 ^ f = Z.abs m * 10 ^ Z.of_nat (length fp)).
  { revert EA. unfold numeral, qval, Qeq; cbn [Qnum Qden]. rewrite pow2p_Z, Z2Pos.id by lia. auto. }
  assert (POS : fp <> [] -> 0 < num 10 fp).
  { intros N. destruct LAST as [|(d & r & -> & Hd)]; [contradiction|].
    rewrite num_snoc. apply is_digits_app in HF. destruct HF as [H1 H2]. inversion H2; subst.
    pose proof (num_nonneg 10 r ltac:(lia) H1). lia. }
  set (L := 10 ^ Z.of_nat (length fp)) in *. set (N := num 10 fp) in *. set (I := num 10 ip) in *.
  assert (DIV : N * 2 ^ f = (Z.abs m - I * 2 ^ f) * L) by lia.
  split.
  - destruct fp as [|d fp']; [left; reflexivity|right].
    specialize (POS ltac:(discriminate)).
    set (X := Z.abs m - I * 2 ^ f) in *.
    assert (X0 : 0 < X * L) by (rewrite <- DIV; clear - POS P; nia).
    assert (K1 : 1 <= X) by (clear - X0 PP; nia).
    set (zz := 10 ^ leading_zeros (d :: fp')) in *.
    assert (0 < zz) by (apply Z.pow_pos_nonneg; [lia|apply lz_nonneg]).
    (* N zz < L <= N 2^f *)
    assert (L <= N * 2 ^ f) by (clear - DIV K1 PP; nia). clear - H H0 LU POS. nia.
  - intros (k & ->). destruct fp as [|d fp']; [reflexivity|]. exfalso. specialize (POS ltac:(discriminate)).
    rewrite Z.abs_mul, (Z.abs_eq (2 ^ f)) in DIV by lia.
    replace ((Z.abs k * 2 ^ f - I * 2 ^ f) * L) with ((Z.abs k - I) * L * 2 ^ f) in DIV by ring.
    assert (EN : N = (Z.abs k - I) * L) by (apply Z.mul_reg_r with (2 ^ f); [clear - P; lia|exact DIV]).
    set (Y := Z.abs k - I) in *. assert (Y0 : 0 < Y) by (clear - EN POS PP; nia). clear - EN Y0 NL PP. nia.
Qed.

Lemma print_parse c m up old : wf c = true -> valid c m = true -> printable c 10 -> cf c <= 62 ->
  (sgn (ct c) = false -> m <> 2 ^ (bits (ct c) - 1)) ->
  (sgn (ct c) = true -> m <> - 2 ^ (bits (ct c) - 1)) ->
  exists s m', copy_as_chars_to c m 10 up = Ok s /\ detail_parse c s old = Ok (true, m') /\
    Z.abs m - 10 <= Z.abs m' <= Z.abs m /\ 0 <= m' * m /\ ((2 ^ cf c | m) -> m' = m).
Proof.
  intros W V PR F U MN. destruct (wf_bnd c W) as (BB & K & KI & B2 & SE & F1).
  pose proof (cf_pos c W) as P. destruct (ci_room c W) as (R1 & R2 & R3 & R4 & R5).
  destruct (copy_ok c m 10 up W V PR U) as (s & E & X).
  destruct (expansion_abs (cf c) up s m ltac:(clear - F1; lia) X) as (ip & fp & HI & HF & -> & EA & LZ & INT).
  exists (dec_text (m <? 0) ip (match fp with [] => None | _ => Some fp end)).
  assert (AM : Z.abs m <= maxv (ct c)).
  { unfold valid in V. apply in_range_iff in V. unfold minv, maxv in *. destruct (sgn (ct c)); [specialize (MN eq_refl)|];
    clear - V MN; lia. }
  assert (RG : (numeral 10 false ip (frac_of (match fp with [] => None | _ => Some fp end)) <
                qval (cf c) (hi (bits (ct c)) (sgn (ct c)) + 1))%Q).
  { rewrite frac_of_opt, EA. apply qval_lt. change (hi (bits (ct c)) (sgn (ct c))) with (maxv (ct c)). clear - AM; lia. }
  assert (SG : (m <? 0) = true -> sgn (ct c) = true).
  { intros L. apply Z.ltb_lt in L. unfold valid in V. apply in_range_iff in V. unfold minv in V.
    destruct (sgn (ct c)); [reflexivity|exfalso; clear - V L; lia]. }
  assert (NM : 0 <= num 10 ip) by (apply num_nonneg; [lia|exact HI]).
  assert (MZ : 10 ^ (leading_zeros fp + 1) * 2 ^ cf c <= maxv (ci c)).
  { pose proof (lz_nonneg fp) as LN. rewrite Z.pow_add_r by (clear - LN; lia). change (10 ^ 1) with 10.
    destruct LZ as [->|LZ].
    - cbn [leading_zeros]. change (10 ^ 0) with 1. pose proof (maxv_pos _ KI) as M7.
      assert (E1 : 2 ^ cf c = 1 \/ 2 <= 2 ^ cf c) by (clear - P; lia).
      destruct E1 as [E1|E1]; [rewrite E1; clear - M7; lia|]. clear - E1 R1. nia.
    - assert (TP : 10 * (2 ^ cf c - 1) <= maxv (ct c)) by (destruct PR as [(_ & H & _)|([H|[H|H]] & _)]; [exact H|discriminate..]).
      assert (W2 : 2 ^ bits (ct c) * 2 ^ cf c <= maxv (ci c) + 1).
      { rewrite <- Z.pow_add_r by (clear - BB F1; lia). destruct (ity_ok_pow _ KI) as [EI PI].
        apply Z.le_trans with (2 ^ (bits (ci c) - 1)); [apply Z.pow_le_mono_r; clear - F1 B2; lia|].
        unfold maxv. destruct (sgn (ci c)); clear - EI PI; lia. }
      clear - LZ TP W2 R3 P. nia. }
  destruct (parse_accurate c (m <? 0) ip (match fp with [] => None | _ => Some fp end) old) as (a & EP & A0 & VA & Q1 & Q2); auto.
  { rewrite frac_of_opt. exact HF. }
  { rewrite frac_of_opt. exact MZ. }
  rewrite frac_of_opt in Q1, Q2. rewrite EA in Q1, Q2. apply qval_le in Q1. apply qval_lt in Q2.
  exists (if m <? 0 then - a else a). split; [exact E|]. split; [exact EP|].
  split; [destruct (m <? 0); clear - A0 Q1 Q2; lia|].
  split; [destruct (Z.ltb_spec m 0); clear - A0 H; nia|].
  intros D. rewrite (INT D) in *.
  destruct (parse_short c (m <? 0) ip None old) as (m2 & EP2 & _ & TR); auto.
  { cbn [frac_of length]. change (10 ^ Z.of_nat 0) with 1. clear - P; lia. }
  rewrite EP in EP2. injection EP2 as EP2. rewrite EP2.
  cbn [frac_of] in TR.
  assert (EM : (numeral 10 (m <? 0) ip [] == qval (cf c) m)%Q).
  { change (numeral 10 (m <? 0) ip []) with (if m <? 0 then (- numeral 10 false ip [])%Q else numeral 10 false ip []).
    destruct (Z.ltb_spec m 0) as [L|L]; rewrite EA.
    - rewrite Z.abs_neq by (clear - L; lia). unfold qval, Qeq; cbn. clear; lia.
    - rewrite Z.abs_eq by (clear - L; lia). reflexivity. }
  apply (is_trunc_Qeq _ _ _ _ EM) in TR. unfold qval in TR. apply is_trunc_iff in TR; [|clear - F1; lia].
  rewrite pow2p_Z in TR by (clear - F1; lia). rewrite Z.quot_mul in TR by (clear - P; lia). exact TR.
Qed.
