(** Proofs about the formatter (Format). *)
From Coq Require Import ZArith Bool Lia List QArith.
From Verif Require Import Base Fixed Spec SpecText SpecFormat TextOut Format BaseLemmas CLemmas FixedLemmas ArithProofs
  InspectProofs NumLemmas OutProofs SpecLemmas.
Import ListNotations.
Open Scope Z_scope.

Lemma tu_ok t : ity_ok t = true -> ity_ok (to_unsigned t) = true.
Proof. intros H. exact H. Qed.
Lemma tu_max t : maxv (to_unsigned t) = 2 ^ bits t - 1.
Proof. reflexivity. Qed.

Lemma magnitude_eq t v : ity_ok t = true -> in_range t v = true -> magnitude t v = Ok (Z.abs v).
Proof.
  intros K R. destruct (ity_ok_pow t K) as [E P]. pose proof (tu_ok t K) as KU. pose proof ok32 as K2.
  unfold magnitude. pose proof R as R'. apply in_range_iff in R'. unfold minv, maxv in R'.
  destruct (sgn t) eqn:S.
  - rewrite (sg_lt t int32 v 0) by (auto; apply uac_i32_signed; auto).
    pose proof (uac_i32_signed t S) as SU.
    destruct (Z.ltb_spec v 0) as [N|N].
    + rewrite (sg_add t int32 v 1) by auto.
      pose proof (uac_ok t int32 K K2) as KC.
      assert (RC : in_range (uac t int32) (v + 1) = true /\ in_range (uac t int32) (- (v + 1)) = true).
      { destruct (uac_bits t int32 K K2) as (B1 & _).
        assert (2 ^ (bits t - 1) <= 2 ^ (bits (uac t int32) - 1)).
        { apply Z.pow_le_mono_r; [lia|]. clear - B1. lia. }
        split; apply in_range_iff; unfold minv, maxv; rewrite SU; clear - H R' N; lia. }
      destruct RC as [R1 R2]. rewrite R1. cbn [bind].
      unfold c_neg. rewrite arith_ok; [|apply promote_ok; auto|apply promote_range; auto]. cbn [bind].
      assert (B : 0 <= - (v + 1) /\ - (v + 1) + 1 <= maxv (to_unsigned t)).
      { rewrite tu_max. clear - R' N E P. lia. }
      rewrite nn_wrap by (auto; clear - B; lia).
      assert (M1 : 127 <= maxv (to_unsigned t)) by (apply maxv_pos; auto).
      rewrite nn_add; [|auto|auto|clear - B; lia|clear - M1; lia|].
      2:{ pose proof (maxv_uac_l (to_unsigned t) (to_unsigned t) KU KU) as U. clear - U B. lia. }
      cbn [bind]. rewrite nn_wrap by (auto; clear - B; lia). f_equal. clear - N. lia.
    + rewrite nn_wrap; [f_equal; clear - N; lia|auto|]. rewrite tu_max. clear - R' N E P. lia.
  - rewrite nn_wrap; [f_equal; clear - R'; lia|auto|]. rewrite tu_max. clear - R'. lia.
Qed.

Lemma udigits_ok u up tb b : ity_ok u = true -> sgn u = false -> ity_ok {| bits := tb; sgn := false |} = true -> 2 <= b <= 16 ->
  forall n v rev, 0 <= v <= maxv u -> v < 2 ^ Z.of_nat n ->
  exists ds, udigits (S n) u up tb b v rev = Ok (map (digit_char up) ds ++ rev) /\
    num b ds = v /\ is_digits b ds /\ (v = 0 -> ds = []) /\ (v <> 0 -> exists d r, ds = d :: r /\ d <> 0) /\
    (length ds <= n)%nat.
Proof.
  intros K S K2 B.
  assert (RB : 0 <= b <= maxv {| bits := tb; sgn := false |}) by (pose proof (maxv_pos _ K2) as M; clear - M B; lia).
  induction n as [|n IH]; intros v rev R L.
  - assert (v = 0) by (change (2 ^ Z.of_nat 0) with 1 in L; clear - R L; lia). subst v.
    exists []. cbn. repeat split; auto. constructor. intros []; auto.
  - remember (Datatypes.S n) as n1. cbn [udigits]. subst n1. rewrite Z.gtb_ltb.
    destruct (Z.ltb_spec 0 v) as [P|P].
    + rewrite nn_rem by (auto; lia). rewrite nn_div by (auto; lia). cbn [bind].
      pose proof (Z.mod_pos_bound v b ltac:(lia)) as MB.
      rewrite digit_table_ok by (clear - MB B; lia). cbn [bind].
      set (v' := v / b) in *.
      assert (D : v = b * v' + v mod b) by (apply Z.div_mod; clear - B; lia).
      assert (PI : 0 <= v') by (apply Z.div_pos; clear - B P; lia).
      assert (LI : v' < v) by (clear - D PI MB B P; nia).
      assert (L2 : 2 * v' <= v) by (clear - D PI MB B; nia).
      rewrite nn_wrap by (auto; clear - PI LI R; lia).
      destruct (IH v' (digit_char up (v mod b) :: rev)) as (ds & E & N & DG & Z0 & NZ & LN).
      * clear - PI LI R; lia.
      * rewrite Nat2Z.inj_succ, Z.pow_succ_r in L by (clear; lia). clear - L L2. lia.
      * exists (ds ++ [v mod b]). rewrite E. split; [|split; [|split; [|split; [|split]]]].
        -- rewrite map_app, <- app_assoc. reflexivity.
        -- rewrite num_snoc, N. clear - D. lia.
        -- apply is_digits_app. split; auto. constructor; auto.
        -- clear - P. lia.
        -- intros _. destruct (Z.eq_dec v' 0) as [E0|E0].
           ++ rewrite (Z0 E0). exists (v mod b), []. split; [reflexivity|]. clear - D E0 P. lia.
           ++ destruct (NZ E0) as (d & r & -> & Hd). exists d, (r ++ [v mod b]). auto.
        -- rewrite app_length. cbn [length]. clear - LN. lia.
    + assert (v = 0) by (clear - P R; lia). subst v.
      exists []. cbn. repeat split; auto. constructor. intros []; auto. clear; lia.
Qed.

Lemma abs_lt_pow t v : ity_ok t = true -> in_range t v = true -> Z.abs v < 2 ^ Z.of_nat (Z.to_nat (bits t)) /\ 0 <= Z.abs v <= maxv (to_unsigned t).
Proof.
  intros K R. destruct (ity_ok_pow t K) as [E P]. apply ity_ok_bits in K as KB.
  rewrite Z2Nat.id by (clear - KB; lia). rewrite tu_max. apply in_range_iff in R. unfold minv, maxv in R.
  destruct (sgn t); clear - R E P; lia.
Qed.

Lemma int_to_string_ok t v b up : ity_ok t = true -> in_range t v = true -> 2 <= b <= 16 ->
  exists ds, int_to_string t v b up = Ok (map (digit_char up) ds) /\ canon b ds (Z.abs v) /\ (length ds <= 128)%nat /\ ds <> [].
Proof.
  intros K R B. unfold int_to_string.
  assert (EQ : c_eq t int32 v 0 = (v =? 0)).
  { destruct (sgn (uac t int32)) eqn:S.
    - apply sg_eq; auto.
    - destruct (sgn t) eqn:ST; [rewrite uac_i32_signed in S by auto; discriminate|].
      apply nn_eq; auto; [|cbn; clear; lia]. apply in_range_iff in R. unfold minv in R. rewrite ST in R. exact R. }
  rewrite EQ. destruct (Z.eqb_spec v 0) as [Z|Z].
  - subst v. exists [0]. split; [reflexivity|]. split; [|split; [cbn; clear; lia|discriminate]].
    split; [constructor; [clear - B; lia|constructor]|]. split; [reflexivity|auto].
  - rewrite magnitude_eq by auto. cbn [bind]. destruct (abs_lt_pow t v K R) as [L1 L2].
    pose proof (tu_ok t K) as KU.
    assert (M1 : 127 <= maxv (to_unsigned t)) by (apply maxv_pos; auto).
    rewrite nn_wrap by (auto; clear - M1 B; lia).
    destruct (udigits_ok (to_unsigned t) up (bits t) b KU eq_refl KU B _ (Z.abs v) [] L2 L1)
      as (ds & E & N & DG & _ & NZ & LN).
    exists ds. rewrite E, app_nil_r. split; [reflexivity|].
    destruct (NZ ltac:(clear - Z; lia)) as (d & r & -> & Hd).
    split; [|split; [|discriminate]].
    + split; [exact DG|]. split; [exact N|]. right. eauto.
    + apply ity_ok_bits in K. clear - LN K. lia.
Qed.

(** ** sign, prefix, alignment *)
Lemma append_sign_eq st neg : append_sign st [] neg = sign_text (sign_mode st) neg.
Proof.
  unfold append_sign, sign_text. destruct (sign_mode st =? 43), (sign_mode st =? 32), neg; reflexivity.
Qed.
Lemma append_alt_eq s base upper : append_alt_prefix s base upper = s ++ base_text true upper base.
Proof.
  unfold append_alt_prefix, base_text. destruct (base =? 2); [reflexivity|]. destruct (base =? 8); [reflexivity|].
  destruct (base =? 16); [reflexivity|]. rewrite app_nil_r. reflexivity.
Qed.

Lemma wrap_size w : 0 <= w < 2 ^ 63 -> wrap size_t w = w.
Proof. intros H. apply nn_wrap; [reflexivity|]. change (maxv size_t) with (2 ^ 64 - 1). change (2 ^ 63) with 9223372036854775808 in H. change (2^64) with 18446744073709551616. lia. Qed.

Lemma output_aligned_ok st body : fits 32 true (width_val st) ->
  padded (width_val st) (if zero_pad st then 48 else fill_ch st) (align_mode st) body (output_aligned st body).
Proof.
  intros F. unfold fits, lo, hi in F. change (2 ^ (32 - 1)) with 2147483648 in F.
  unfold output_aligned, padded.
  destruct (Z.leb_spec (width_val st) 0) as [W|W]; cbn [orb].
  { exists 0%nat, 0%nat. cbn [repeat app]. rewrite app_nil_r. repeat split; auto; clear - W; lia. }
  rewrite wrap_size by (change (2 ^ 63) with 9223372036854775808; clear - F W; lia).
  destruct (Z.leb_spec (width_val st) (Z.of_nat (length body))) as [L|L].
  { exists 0%nat, 0%nat. cbn [repeat app]. rewrite app_nil_r. repeat split; auto; clear - L; lia. }
  rewrite wrap_size by (change (2 ^ 63) with 9223372036854775808; clear - F W L; lia).
  set (p := width_val st - Z.of_nat (length body)) in *. assert (PP : 0 < p) by (unfold p; clear - L; lia).
  set (ch := if zero_pad st then 48 else fill_ch st). unfold fill_n.
  destruct (Z.eqb_spec (align_mode st) 0) as [A0|A0].
  { cbn [Z.eqb Pos.eqb]. exists (Z.to_nat p), 0%nat. cbn [repeat]. rewrite app_nil_r. split; [reflexivity|].
    rewrite app_length, repeat_length. rewrite A0. split; [unfold p in *; clear - PP; lia|].
    split; [|split]; intros; try discriminate; reflexivity. }
  destruct (Z.eqb_spec (align_mode st) 60) as [A1|A1].
  { exists 0%nat, (Z.to_nat p). split; [reflexivity|]. rewrite app_length, repeat_length. rewrite A1.
    split; [unfold p in *; clear - PP; lia|]. split; [|split]; intros; try discriminate; try reflexivity. contradiction. }
  destruct (Z.eqb_spec (align_mode st) 94) as [A2|A2].
  { exists (Z.to_nat (p / 2)), (Z.to_nat (p - p / 2)). split; [reflexivity|].
    pose proof (Z.div_mod p 2 ltac:(clear; lia)) as D. pose proof (Z.mod_pos_bound p 2 ltac:(clear; lia)) as M.
    rewrite !app_length, !repeat_length. rewrite A2. split; [unfold p in *; clear - PP D M; lia|].
    split; [|split]; intros; try discriminate; try contradiction. clear - D M PP; lia. }
  exists (Z.to_nat p), 0%nat. cbn [repeat]. rewrite app_nil_r. split; [reflexivity|].
  rewrite app_length, repeat_length. split; [unfold p in *; clear - PP; lia|]. split; [|split]; intros; try contradiction; reflexivity.
Qed.

(** ** '?' *)
Lemma format_debug_ok c st m : wf c = true -> valid c m = true -> fits 32 true (width_val st) -> ftype st = 63 ->
  exists ds out, format_to c st m = Ok out /\ canon 16 ds (Z.abs m) /\
    padded (width_val st) (if zero_pad st then 48 else fill_ch st) (align_mode st)
      (sign_text (sign_mode st) (m <? 0) ++ base_text (alt_form st) false 16 ++ dgs ds) out.
Proof.
  intros W V F T. pose proof (wf_ct c W) as K. pose proof ok32 as K2.
  unfold format_to. rewrite T. change (mode_of 63) with (@None (bool * bool * Z)). cbv iota.
  unfold format_debug_to.
  assert (EN : sgn (ct c) && c_lt (ct c) int32 m 0 = (m <? 0)).
  { destruct (sgn (ct c)) eqn:S; cbn [andb].
    - apply sg_lt; auto. apply uac_i32_signed; auto.
    - symmetry. apply Z.ltb_ge. unfold valid in V. apply in_range_iff in V. unfold minv in V. rewrite S in V. apply V. }
  cbv zeta. rewrite EN, magnitude_eq by auto. cbn [bind]. rewrite append_sign_eq, append_alt_eq.
  set (pre := if alt_form st then sign_text (sign_mode st) (m <? 0) ++ base_text true false 16 else sign_text (sign_mode st) (m <? 0)).
  assert (EP : pre = sign_text (sign_mode st) (m <? 0) ++ base_text (alt_form st) false 16).
  { unfold pre. destruct (alt_form st); [reflexivity|]. cbn [base_text]. rewrite app_nil_r. reflexivity. }
  clearbody pre.
  destruct (abs_lt_pow (ct c) m K V) as [L1 L2].
  destruct (Z.eqb_spec (Z.abs m) 0) as [Z|Z].
  - cbn [bind]. exists [0], (output_aligned st (pre ++ [48])). split; [reflexivity|]. split.
    + split; [constructor; [clear; lia|constructor]|]. split; [rewrite Z; reflexivity|auto].
    + rewrite app_assoc, <- EP. apply output_aligned_ok; auto.
  - destruct (udigits_ok (to_unsigned (ct c)) false 32 16 (tu_ok _ K) eq_refl eq_refl ltac:(lia) _ (Z.abs m) [] L2 L1)
      as (ds & E & N & DG & _ & NZ & LN).
    rewrite E, app_nil_r. cbn [bind]. exists ds, (output_aligned st (pre ++ map (digit_char false) ds)).
    split; [reflexivity|]. split.
    + split; [exact DG|]. split; [exact N|]. right. apply NZ. exact Z.
    + rewrite app_assoc, <- EP. apply output_aligned_ok; auto.
Qed.

(** ** radix types *)
Lemma radix_mode_of ty up base : radix_type ty up base ->
  mode_of ty = Some (true, up, base) /\ 2 <= base <= 16 /\ (base_text true up base = [] <-> base = 10) /\ (length (base_text true up base) <= 2)%nat.
Proof.
  unfold radix_type. cbn [In]. intros H.
  repeat (destruct H as [H|H]; [injection H as <- <- <-; split; [reflexivity|]; split; [clear; lia|]; split; [cbn; split; intros; congruence|cbn; clear; lia]|]).
  destruct H.
Qed.

Lemma sign_len mode neg : (length (sign_text mode neg) <= 1)%nat.
Proof. unfold sign_text. destruct neg, (mode =? 43), (mode =? 32); cbn; lia. Qed.

Lemma format_radix_ok c st m n up base : wf c = true -> valid c m = true -> fits 32 true (width_val st) ->
  radix_type (ftype st) up base -> integral_part c m = Ok n -> valid c n = true -> 0 <= n ->
  exists ds out, format_to c st m = Ok out /\ canon base ds n /\
    let pre := sign_text (sign_mode st) (m <? 0) ++ base_text (alt_form st) up base in
    let digits := map (digit_char up) ds in
    (zero_pad st = true -> zero_padded (width_val st) pre digits out) /\
    (zero_pad st = false -> padded (width_val st) (fill_ch st) (align_mode st) (pre ++ digits) out).
Proof.
  intros W V F RM EI VN N0. pose proof (wf_ct c W) as K.
  destruct (radix_mode_of _ _ _ RM) as (MO & BB & B10 & BL).
  unfold format_to. rewrite MO, signbit_eq, EI by auto. cbn [bind].
  destruct (int_to_string_ok (ct c) n base up K VN BB) as (ds & ED & CA & LD & _).
  rewrite Z.abs_eq in CA by auto. rewrite ED. cbn [bind]. rewrite append_sign_eq, append_alt_eq.
  set (sg := sign_text (sign_mode st) (m <? 0)).
  set (pre := if alt_form st && true && negb (base =? 10) then sg ++ base_text true up base else sg).
  assert (EP : pre = sg ++ base_text (alt_form st) up base).
  { unfold pre. destruct (alt_form st); cbn [andb].
    - destruct (Z.eqb_spec base 10) as [E|E]; cbn [negb]; [|reflexivity].
      apply B10 in E. rewrite E, app_nil_r. reflexivity.
    - cbn [base_text]. rewrite app_nil_r. reflexivity. }
  cbv zeta. rewrite <- EP.
  assert (PL : (length pre <= 3)%nat).
  { rewrite EP, app_length. pose proof (sign_len (sign_mode st) (m <? 0)). fold sg in H.
    assert (length (base_text (alt_form st) up base) <= 2)%nat by (destruct (alt_form st); [exact BL|cbn; clear; lia]).
    clear - H H0. lia. }
  clearbody pre. set (dg := map (digit_char up) ds). assert (DL : (length dg <= 128)%nat) by (unfold dg; rewrite map_length; exact LD).
  exists ds. eexists. split; [reflexivity|]. split; [exact CA|]. fold dg.
  pose proof F as F'. unfold fits, lo, hi in F'. change (2 ^ (32 - 1)) with 2147483648 in F'.
  split; intros ZP.
  - rewrite ZP. cbn [andb]. rewrite Z.gtb_ltb. destruct (Z.ltb_spec 0 (width_val st)) as [P|P].
    + rewrite wrap_id; [|reflexivity|apply in_range_nn_i; [reflexivity|change (maxv int32) with 2147483647; clear - PL DL; lia]].
      set (tot := Z.of_nat (length pre) + Z.of_nat (length dg)).
      destruct (Z.ltb_spec tot (width_val st)) as [L|L].
      * rewrite (wrap_size (width_val st)) by (change (2 ^ 63) with 9223372036854775808; clear - F' P; lia).
        assert (0 <= tot) by (unfold tot; clear; lia).
        rewrite wrap_size by (change (2 ^ 63) with 9223372036854775808; clear - F' L H; lia).
        unfold fill_n. set (z := Z.to_nat (width_val st - tot)).
        assert (LE : Z.of_nat (length (pre ++ repeat 48 z ++ dg)) = width_val st).
        { rewrite !app_length, repeat_length. unfold z, tot in *. clear - L. lia. }
        unfold output_aligned. rewrite (wrap_size (width_val st)) by (change (2 ^ 63) with 9223372036854775808; clear - F' P; lia).
        rewrite LE, Z.leb_refl, orb_true_r. exists z. split; [reflexivity|]. rewrite LE. rewrite app_length. unfold tot in L. clear - L. lia.
      * unfold output_aligned. rewrite (wrap_size (width_val st)) by (change (2 ^ 63) with 9223372036854775808; clear - F' P; lia).
        replace (width_val st <=? Z.of_nat (length (pre ++ dg))) with true
          by (symmetry; apply Z.leb_le; rewrite app_length; unfold tot in L; clear - L; lia).
        rewrite orb_true_r. exists 0%nat. split; [reflexivity|]. rewrite app_length. unfold tot in L. clear - L. lia.
    + unfold output_aligned. replace (width_val st <=? 0) with true by (symmetry; apply Z.leb_le; exact P).
      cbn [orb]. exists 0%nat. split; [reflexivity|]. clear - P. lia.
  - rewrite ZP. cbn [andb]. pose proof (output_aligned_ok st (pre ++ dg) F) as O. rewrite ZP in O. exact O.
Qed.

(** ** g and f *)
Lemma digit_char_dec up d : 0 <= d < 10 -> digit_char up d = digit_char false d.
Proof. intros H. unfold digit_char. replace (d <? 10) with true by (symmetry; apply Z.ltb_lt; lia). reflexivity. Qed.
Lemma dgs_up up ds : is_digits 10 ds -> map (digit_char up) ds = dgs ds.
Proof. intros H. unfold dgs. apply map_ext_in. intros d I. apply digit_char_dec. unfold is_digits in H. rewrite Forall_forall in H. auto. Qed.

Lemma dec_room c : wf c = true -> 10 * (2 ^ cf c - 1) <= maxv (ct c) ->
  2 ^ cf c <= maxv (ct c) /\ (sgn (ct c) = true -> cf c <= bits (ct c) - 2).
Proof.
  intros W T. pose proof (wf_pows c W) as P. cbv zeta in P. destruct P as (E & P & L & L2 & _).
  split; [clear - T L2; lia|]. intros S. destruct (wf_bnd c W) as (B & _ & _ & _ & _ & F).
  destruct (Z.eq_dec (cf c) (bits (ct c) - 1)) as [Q|Q]; [|clear - Q F; lia]. exfalso.
  unfold maxv in T. rewrite S, Q in T. rewrite Q in L2. clear - T L2. lia.
Qed.

Lemma fmt_frac_ok c up prec : wf c = true -> 10 * (2 ^ cf c - 1) <= maxv (ct c) ->
  forall n v used out, 0 <= v < 2 ^ cf c -> (exists k, v * 2 ^ Z.of_nat n = 2 ^ cf c * k) -> 0 <= used ->
  exists ds rem, fmt_frac n c up prec v used out = Ok (out ++ map (digit_char up) ds, used + Z.of_nat (length ds)) /\
    is_digits 10 ds /\ v * 10 ^ Z.of_nat (length ds) = 2 ^ cf c * num 10 ds + rem /\ 0 <= rem < 2 ^ cf c /\
    used + Z.of_nat (length ds) <= Z.max used prec /\ (rem = 0 \/ prec <= used + Z.of_nat (length ds)) /\
    (rem = 0 -> v = 0 \/ exists e r, ds = r ++ [e] /\ e <> 0).
Proof.
  intros W T. pose proof (wf_ct c W) as K. pose proof ok32 as K2. pose proof (cf_pos c W) as CP.
  destruct (dec_room c W T) as [RM SF]. pose proof (promote_ok _ K) as KP.
  destruct (wf_bnd c W) as (BB & _ & _ & _ & _ & FB).
  set (D := 2 ^ cf c) in *.
  assert (M127 : 127 <= maxv (ct c)) by (apply maxv_pos; auto).
  assert (PM : maxv (ct c) <= maxv (promote (ct c))) by (rewrite <- uac_refl; apply maxv_uac_l; auto).
  induction n as [|n IH]; intros v used out R [k HK] U.
  - change (2 ^ Z.of_nat 0) with 1 in HK.
    assert (k = 0) by (clear - R HK; nia). assert (v = 0) by (clear - R HK H; nia). subst k v.
    exists [], 0. cbn [fmt_frac map length]. rewrite app_nil_r, Z.add_0_r. split; [reflexivity|].
    split; [constructor|]. split; [change (num 10 []) with 0; clear; lia|]. split; [clear - CP; lia|].
    split; [clear; lia|]. split; [left; reflexivity|auto].
  - cbn [fmt_frac]. destruct (Z.ltb_spec used prec) as [UP|UP].
    2:{ exists [], v. cbn [map length]. rewrite app_nil_r, Z.add_0_r. split; [reflexivity|].
        split; [constructor|]. split; [change (num 10 []) with 0; clear; lia|]. split; [clear - R; lia|].
        split; [clear; lia|]. split; [right; exact UP|auto]. }
    rewrite nn_eq by (auto; cbn; clear - R RM; lia).
    destruct (Z.eqb_spec v 0) as [V|V].
    { subst v. exists [], 0. cbn [map length]. rewrite app_nil_r, Z.add_0_r. split; [reflexivity|].
      split; [constructor|]. split; [change (num 10 []) with 0; clear; lia|]. split; [clear - CP; lia|].
      split; [clear; lia|]. split; [left; reflexivity|auto]. }
    rewrite (nn_wrap (ct c) 10) by (auto; clear - M127; lia).
    assert (VM : v * 10 <= maxv (ct c)) by (clear - T R; lia).
    rewrite (nn_mul (ct c) (ct c) v 10 K K ltac:(clear - R RM; lia) ltac:(clear - M127; lia)
      ltac:(pose proof (maxv_uac_l (ct c) (ct c) K K) as HU; clear - VM HU; lia)). cbn [bind].
    rewrite nn_wrap by (auto; clear - VM R; lia).
    rewrite c_shr_ct by (auto; clear - FB BB; lia). cbn [bind]. fold D.
    pose proof (Z.mod_pos_bound (v * 10) D CP) as MB.
    assert (DV : v * 10 = D * (v * 10 / D) + (v * 10) mod D) by (apply Z.div_mod; clear - CP; lia).
    set (dg := v * 10 / D) in *. set (v' := (v * 10) mod D) in *.
    assert (G0 : 0 <= dg) by (clear - DV MB R CP; nia).
    assert (G1 : dg < 10) by (clear - DV MB R CP; nia).
    rewrite (nn_wrap (ct c) dg) by (auto; clear - G0 G1 M127; lia).
    rewrite one_shift_ok by auto. cbn [bind]. fold D.
    rewrite (nn_sub (promote (ct c)) (ct c) D 1 KP K ltac:(clear - CP RM PM; lia) ltac:(clear - M127; lia) ltac:(clear - CP; lia)).
    cbn [bind].
    assert (LA : c_and (ct c) (promote (ct c)) (v * 10) (D - 1) = v').
    { unfold c_and. cbv zeta. rewrite (nn_wrap_l (ct c) (promote (ct c)) (v * 10) K KP) by (clear - R VM; lia).
      rewrite (nn_wrap_r (ct c) (promote (ct c)) (D - 1) K KP) by (clear - CP RM PM; lia).
      unfold D. rewrite land_low by (clear - FB; lia). reflexivity. }
    rewrite LA. rewrite (nn_wrap (ct c) v') by (auto; clear - MB RM; lia).
    rewrite wrap_size by (change (2 ^ 63) with 9223372036854775808; clear - G0 G1; lia).
    rewrite digit_table_ok by (clear - G0 G1; lia). cbn [bind].
    rewrite Nat2Z.inj_succ, Z.pow_succ_r in HK by (clear; lia). set (p := 2 ^ Z.of_nat n) in *.
    destruct (IH v' (used + 1) (out ++ [digit_char up dg])) as (ds & rem & E & DG & Q & RR & LE & ST & NZ).
    + exact MB.
    + exists (5 * k - dg * p). fold p. replace v' with (v * 10 - D * dg) by (clear - DV; lia).
      transitivity (5 * (v * (2 * p)) - D * dg * p); [ring|]. rewrite HK. ring.
    + clear - U. lia.
    + exists (dg :: ds), rem. rewrite E. cbn [length]. rewrite Nat2Z.inj_succ.
      split; [f_equal; f_equal; [rewrite <- app_assoc; reflexivity|clear; lia]|].
      split; [constructor; [clear - G0 G1; lia|exact DG]|].
      split.
      { rewrite num_cons, Z.pow_succ_r by (clear; lia). set (L := 10 ^ Z.of_nat (length ds)) in *.
        clear - Q DV. replace (v * (10 * L)) with ((v * 10) * L) by ring. rewrite DV.
        replace ((D * dg + v') * L) with (D * dg * L + v' * L) by ring. rewrite Q. ring. }
      split; [exact RR|]. split; [clear - LE UP; lia|]. split; [destruct ST as [ST|ST]; [left; exact ST|right; clear - ST; lia]|].
      intros R0. right. destruct (NZ R0) as [Z|(e & r & -> & He)].
      * destruct ds as [|e ds].
        -- exists dg, []. split; [reflexivity|]. intros ->. clear - DV Z V CP. lia.
        -- exfalso. clear - E Z. subst v'. rewrite Z in E.
           assert (X : fmt_frac n c up prec 0 (used + 1) (out ++ [digit_char up dg]) = Ok (out ++ [digit_char up dg], used + 1)).
           { destruct n; [reflexivity|]. cbn [fmt_frac]. destruct (used + 1 <? prec); [|reflexivity].
             unfold c_eq. rewrite Z.eqb_refl. reflexivity. }
           rewrite X in E. injection E as E1 E2. cbn [length] in E2. lia.
      * exists e, (dg :: r). auto.
Qed.

Lemma trail_zeros_ok prec : forall n used out, 0 <= used -> prec - used <= Z.of_nat n ->
  trail_zeros (S n) prec used out =
  Ok (out ++ (if (used =? 0) && (used <? prec) then [46] else []) ++ repeat 48 (Z.to_nat (prec - used))).
Proof.
  induction n as [|n IH]; intros used out U L.
  - cbn [trail_zeros]. destruct (Z.ltb_spec used prec); [lia|]. rewrite andb_false_r.
    replace (Z.to_nat (prec - used)) with 0%nat by lia. cbn [repeat app]. rewrite app_nil_r. reflexivity.
  - remember (S n) as n1 eqn:En1. cbn [trail_zeros]. destruct (Z.ltb_spec used prec) as [P|P].
    + subst n1. rewrite IH by lia. rewrite andb_true_r. replace (used + 1 =? 0) with false by (symmetry; apply Z.eqb_neq; lia).
      cbn [andb]. replace (Z.to_nat (prec - used)) with (S (Z.to_nat (prec - (used + 1)))) by lia. cbn [repeat app].
      destruct (used =? 0); rewrite <- ?app_assoc; reflexivity.
    + rewrite andb_false_r. replace (Z.to_nat (prec - used)) with 0%nat by lia. cbn [repeat app]. rewrite app_nil_r. reflexivity.
Qed.

Lemma is_digits_zeros k : is_digits 10 (repeat 0 k).
Proof. induction k; constructor; [lia|auto]. Qed.
Lemma num_zeros k : num 10 (repeat 0 k) = 0.
Proof. induction k; [reflexivity|]. cbn [repeat]. rewrite num_cons, IHk. lia. Qed.
Lemma dgs_zeros k : dgs (repeat 0 k) = repeat 48 k.
Proof. induction k; [reflexivity|]. cbn [repeat dgs map]. unfold dgs in IHk. rewrite IHk. reflexivity. Qed.

Definition eff_prec (st : fstate) : Z := if precision st <? 0 then 6 else precision st.

Lemma dec_mode ty : dec_type ty -> mode_of ty = Some (false, (ty =? 71) || (ty =? 70), 10).
Proof. unfold dec_type. cbn [In]. intros H. repeat (destruct H as [<-|H]; [reflexivity|]). destruct H. Qed.

Lemma format_dec_ok c st m n : wf c = true -> valid c m = true -> fits 32 true (width_val st) ->
  10 * (2 ^ cf c - 1) <= maxv (ct c) ->
  dec_type (ftype st) -> integral_part c m = Ok n -> valid c n = true -> 0 <= n ->
  let fr := Z.abs m mod 2 ^ cf c in
  exists ip fp rem out, format_to c st m = Ok out /\ canon 10 ip n /\ is_digits 10 fp /\
    fr * 10 ^ Z.of_nat (length fp) = 2 ^ cf c * num 10 fp + rem /\ 0 <= rem < 2 ^ cf c /\
    Z.of_nat (length fp) <= eff_prec st /\
    (In (ftype st) [102; 70] -> Z.of_nat (length fp) = eff_prec st) /\
    (In (ftype st) [103; 71] -> (rem = 0 \/ Z.of_nat (length fp) = eff_prec st) /\
       (rem = 0 -> fp = [] \/ exists e r, fp = r ++ [e] /\ e <> 0)) /\
    padded (width_val st) (if zero_pad st then 48 else fill_ch st) (align_mode st)
      (sign_text (sign_mode st) (m <? 0) ++ dgs ip ++
       (if (fr =? 0) && (Z.of_nat (length fp) =? 0) then [] else [46]) ++ dgs fp) out.
Proof.
  intros W V F T TY EI VN N0 fr. pose proof (wf_ct c W) as K. pose proof (cf_pos c W) as CP. pose proof ok32 as K2.
  destruct (dec_room c W T) as [RM SF].
  unfold format_to. rewrite (dec_mode _ TY), signbit_eq, EI by auto. cbn [bind].
  set (up := (ftype st =? 71) || (ftype st =? 70)).
  destruct (int_to_string_ok (ct c) n 10 up K VN ltac:(lia)) as (ip & ED & CA & LD & _).
  rewrite Z.abs_eq in CA by auto. rewrite ED. cbn [bind]. rewrite append_sign_eq.
  rewrite andb_false_r. cbn [andb]. cbv zeta.
  assert (WS : wide_signed c = true -> cf c <= bits (ct c) - 2).
  { intros X. apply SF. unfold wide_signed in X. apply andb_true_iff in X. tauto. }
  rewrite fractional_eq by auto. cbn [bind].
  assert (FV : (if sgn (ct c) && c_lt (ct c) int32 (Z.rem m (2 ^ cf c)) 0
                then let* n0 := c_neg (ct c) (Z.rem m (2 ^ cf c)) in Ok (wrap (ct c) n0)
                else Ok (Z.rem m (2 ^ cf c))) = Ok fr).
  { pose proof (Z.mod_pos_bound (Z.abs m) (2 ^ cf c) CP) as FB. fold fr in FB.
    assert (RE : Z.rem m (2 ^ cf c) = if m <? 0 then - fr else fr).
    { unfold fr. destruct (Z.ltb_spec m 0) as [N|N].
      - rewrite Z.abs_neq by (clear - N; lia). rewrite <- (Z.opp_involutive m) at 1. rewrite Z.rem_opp_l by (clear - CP; lia).
        rewrite Z.rem_mod_nonneg by (clear - N CP; lia). reflexivity.
      - rewrite Z.abs_eq by exact N. apply Z.rem_mod_nonneg; clear - N CP; lia. }
    rewrite RE. destruct (sgn (ct c)) eqn:S; cbn [andb].
    - assert (VR : forall x, - fr <= x <= fr -> in_range (ct c) x = true).
      { intros x Hx. apply in_range_iff. unfold minv, maxv in *. rewrite S in *. clear - Hx FB RM. lia. }
      rewrite (sg_lt (ct c) int32); auto; [|apply uac_i32_signed; auto|apply VR; destruct (m <? 0); clear - FB; lia].
      destruct (Z.ltb_spec m 0) as [N|N].
      + destruct (Z.ltb_spec (- fr) 0) as [Q|Q].
        * unfold c_neg. rewrite Z.opp_involutive. rewrite arith_ok; [|apply promote_ok; auto|apply promote_range; auto; apply VR; clear - FB; lia].
          cbn [bind]. f_equal. apply wrap_id; auto. apply VR. clear - FB; lia.
        * f_equal. clear - Q FB. lia.
      + replace (fr <? 0) with false by (symmetry; apply Z.ltb_ge; clear - FB; lia). reflexivity.
    - replace (m <? 0) with false; [reflexivity|]. symmetry. apply Z.ltb_ge. unfold valid in V. apply in_range_iff in V.
      unfold minv in V. rewrite S in V. apply V. }
  rewrite FV. cbn [bind]. clear FV.
  pose proof (Z.mod_pos_bound (Z.abs m) (2 ^ cf c) CP) as FB. fold fr in FB. clearbody fr.
  rewrite nn_eq by (auto; cbn; clear - FB RM; lia). fold (eff_prec st).
  set (P := eff_prec st). assert (P0 : 0 <= P) by (unfold P, eff_prec; destruct (Z.ltb_spec (precision st) 0); clear - H; lia).
  set (body := sign_text (sign_mode st) (m <? 0) ++ map (digit_char up) ip).
  assert (BE : body = sign_text (sign_mode st) (m <? 0) ++ dgs ip) by (unfold body; rewrite dgs_up by apply CA; reflexivity).
  (* the fraction digits before the trailing zeros *)
  assert (ST : exists ds rem,
    (if negb (fr =? 0) then fmt_frac (Z.to_nat (cf c)) c up P fr 0 (body ++ [46]) else Ok (body, 0)) =
      Ok (body ++ (if fr =? 0 then [] else [46]) ++ dgs ds, Z.of_nat (length ds)) /\
    is_digits 10 ds /\ fr * 10 ^ Z.of_nat (length ds) = 2 ^ cf c * num 10 ds + rem /\ 0 <= rem < 2 ^ cf c /\
    Z.of_nat (length ds) <= P /\ (rem = 0 \/ P <= Z.of_nat (length ds)) /\
    (rem = 0 -> fr = 0 /\ ds = [] \/ exists e r, ds = r ++ [e] /\ e <> 0) /\ (fr = 0 -> ds = [])).
  { destruct (Z.eqb_spec fr 0) as [Z|Z]; cbn [negb].
    - subst fr. exists [], 0. cbn [dgs map app length]. rewrite app_nil_r. split; [reflexivity|]. split; [constructor|].
      split; [change (num 10 []) with 0; clear; lia|]. split; [clear - CP; lia|]. split; [exact P0|]. split; [left; reflexivity|].
      split; [left; split; reflexivity|reflexivity].
    - destruct (fmt_frac_ok c up P W T (Z.to_nat (cf c)) fr 0 (body ++ [46]) FB) as (ds & rem & E & DG & Q & RR & LE & SP & NZ).
      + exists fr. destruct (wf_bnd c W) as (_ & _ & _ & _ & _ & X). rewrite Z2Nat.id by (clear - X; lia). ring.
      + clear; lia.
      + exists ds, rem. rewrite E, Z.add_0_l, dgs_up, <- app_assoc by exact DG. split; [reflexivity|]. split; [exact DG|].
        split; [exact Q|]. split; [exact RR|]. split; [clear - LE P0; lia|]. split; [exact SP|].
        split; [|intros X; contradiction].
        intros R0. destruct (NZ R0) as [X|X]; [contradiction|right; exact X]. }
  destruct ST as (ds & rem & E & DG & Q & RR & LE & SP & NZ & FZ). rewrite E. cbn [bind].
  destruct TY as [TY|[TY|[TY|[TY|[]]]]].
  1,2: rewrite <- TY; cbn [Z.eqb Pos.eqb orb bind];
    exists ip, ds, rem; eexists; split; [reflexivity|]; split; [exact CA|]; split; [exact DG|]; split; [exact Q|];
    split; [exact RR|]; split; [exact LE|]; split; [cbn [In]; intros [X|[X|[]]]; discriminate|];
    split; [intros _; split; [destruct SP as [SP|SP]; [left; exact SP|right; clear - SP LE; lia]|
      intros R0; destruct (NZ R0) as [[_ X]|X]; [left; exact X|right; exact X]]|];
    replace ((fr =? 0) && (Z.of_nat (length ds) =? 0)) with (fr =? 0)
      by (destruct (Z.eqb_spec fr 0) as [X|X]; [rewrite (FZ X); reflexivity|reflexivity]);
    rewrite app_assoc, <- BE; apply output_aligned_ok; auto.
  1,2: rewrite <- TY; cbn [Z.eqb Pos.eqb orb];
    rewrite trail_zeros_ok by (rewrite ?Z2Nat.id by exact P0; clear; lia); cbn [bind];
    exists ip, (ds ++ repeat 0 (Z.to_nat (P - Z.of_nat (length ds)))), (rem * 10 ^ (P - Z.of_nat (length ds))); eexists;
    split; [reflexivity|]; split; [exact CA|]; split; [apply is_digits_app; split; [exact DG|apply is_digits_zeros]|];
    assert (LL : Z.of_nat (length (ds ++ repeat 0 (Z.to_nat (P - Z.of_nat (length ds))))) = P)
      by (rewrite app_length, repeat_length; clear - LE; lia);
    rewrite LL;
    (split; [rewrite num_app, num_zeros, repeat_length, Z2Nat.id by (clear - LE; lia);
       replace P with (Z.of_nat (length ds) + (P - Z.of_nat (length ds))) at 1 by ring;
       rewrite Z.pow_add_r by (clear - LE; lia); rewrite Z.mul_assoc, Q; ring|]);
    (split; [destruct SP as [->|SP]; [rewrite Z.mul_0_l; clear - CP; lia|];
       replace (P - Z.of_nat (length ds)) with 0 by (clear - SP LE; lia); rewrite Z.mul_1_r; exact RR|]);
    (split; [clear; lia|]); (split; [reflexivity|]); (split; [cbn [In]; intros [X|[X|[]]]; discriminate|]);
    match goal with |- padded _ _ _ ?b (output_aligned _ ?b') => replace b with b'; [apply output_aligned_ok; auto|] end;
    rewrite BE; unfold dgs at 4; rewrite map_app; fold (dgs ds); fold (dgs (repeat 0 (Z.to_nat (P - Z.of_nat (length ds)))));
    rewrite dgs_zeros; rewrite <- !app_assoc; f_equal; f_equal;
    destruct (Z.eqb_spec fr 0) as [X|X].
  all: cbn [andb app].
  1,3: rewrite (FZ X); cbn [length dgs map app]; change (Z.of_nat 0) with 0; rewrite Z.sub_0_r; cbn [Z.eqb andb];
    destruct (Z.ltb_spec 0 P) as [Y|Y]; [replace (P =? 0) with false by (symmetry; apply Z.eqb_neq; clear - Y; lia); reflexivity|
      replace P with 0 by (clear - Y P0; lia); reflexivity].
  all: f_equal; f_equal;
    destruct (Z.eqb_spec (Z.of_nat (length ds)) 0) as [Y|Y]; cbn [andb app]; [|reflexivity];
    rewrite Y; destruct (Z.ltb_spec 0 P) as [G|G]; [|reflexivity]; exfalso;
    destruct ds; [|discriminate]; destruct SP as [SP|SP]; [|cbn in SP; clear - SP G; lia];
    destruct (NZ SP) as [[Z _]|(e & r & Z & _)]; [contradiction|destruct r; discriminate].
Qed.
