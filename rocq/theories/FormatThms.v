(** Formatter: the statements used by PropsFormat, and counterexamples. *)
From Coq Require Import ZArith Bool Lia String List QArith Qabs.
From Verif Require Import Base Fixed Spec SpecText SpecFormat TextOut Format BaseLemmas CLemmas FixedLemmas ArithProofs
  ArithProofs2 ConvProofs InspectProofs NumLemmas OutProofs SpecLemmas FormatProofs ParseProofs.
Import ListNotations.
Open Scope Z_scope.

(** room for [~m + (1 << fraction)] in integral_part *)
Definition neg_room (c : cfg) (m : Z) : Prop :=
  m < 0 -> (wide_signed c = true -> cf c <= bits (ct c) - 2) /\ valid c (- m - 1 + 2 ^ cf c) = true.

Lemma neg_room_of c m : wf c = true -> valid c m = true ->
  ((qval (cf c) m < 0)%Q -> cf c <= bits (ct c) - 2 /\ (qval (cf c) (lo (bits (ct c)) true + 2 ^ cf c) <= qval (cf c) m)%Q) ->
  neg_room c m.
Proof.
  intros W V H N. destruct H as [F L]; [unfold qval, Qlt; cbn [Qnum Qden]; lia|]. split; [auto|].
  rewrite qval_le in L. unfold lo in L. unfold valid in *. rewrite in_range_iff in *. unfold minv, maxv in *.
  pose proof (cf_pos c W). destruct (sgn (ct c)); lia.
Qed.

Lemma ceil_div a d : 0 < d -> let n := - (a / d) in d * (n - 1) < - a /\ - a <= d * n.
Proof. intros D. cbv zeta. pose proof (Z.div_mod a d ltac:(lia)). pose proof (Z.mod_pos_bound a d D). nia. Qed.

Lemma integral_any c m : wf c = true -> valid c m = true -> neg_room c m ->
  exists n, integral_part c m = Ok n /\ valid c n = true /\ 0 <= n /\
    (0 <= m -> n = m / 2 ^ cf c) /\ (m < 0 -> n = - (m / 2 ^ cf c)).
Proof.
  intros W V R. pose proof (cf_pos c W) as CP. destruct (Z_lt_ge_dec m 0) as [N|N].
  - destruct (R N) as [R1 R2]. exists (- (m / 2 ^ cf c)). rewrite integral_neg by auto.
    split; [reflexivity|]. pose proof (ceil_div m (2 ^ cf c) CP) as C. cbv zeta in C.
    set (n := - (m / 2 ^ cf c)) in *. set (D := 2 ^ cf c) in *. assert (0 <= n) by nia.
    split; [|split; [auto|split; [lia|reflexivity]]].
    unfold valid in *. rewrite in_range_iff in *. destruct (ity_ok_pow _ (wf_ct c W)). unfold minv, maxv in *.
    destruct (sgn (ct c)); nia.
  - exists (m / 2 ^ cf c). rewrite integral_nonneg by (auto; lia). split; [reflexivity|].
    assert (0 <= m / 2 ^ cf c) by (apply Z.div_pos; lia).
    assert (m / 2 ^ cf c <= m) by (apply Z.div_le_upper_bound; nia).
    split; [|split; [auto|split; [reflexivity|lia]]].
    unfold valid in *. rewrite in_range_iff in *. destruct (ity_ok_pow _ (wf_ct c W)). unfold minv, maxv in *.
    destruct (sgn (ct c)); lia.
Qed.

(** the printed magnitude in rational terms *)
Lemma mag_q c m n : wf c = true -> (0 <= m -> n = m / 2 ^ cf c) -> (m < 0 -> n = - (m / 2 ^ cf c)) ->
  ((0 <= qval (cf c) m)%Q -> is_floor 0 (qval (cf c) m) n) /\ ((qval (cf c) m < 0)%Q -> is_ceil 0 (- qval (cf c) m) n).
Proof.
  intros W A B. pose proof (cf_pos c W) as CP. pose proof (cf_nonneg c W) as Hf.
  unfold is_floor, is_ceil, qval, Qle, Qlt, Qopp. cbn [Qnum Qden]. rewrite !pow2p_Z by (auto; lia). change (2 ^ 0) with 1.
  split; intros H.
  - assert (0 <= m) by lia. rewrite (A H0). pose proof (Z.div_mod m (2 ^ cf c) ltac:(lia)). pose proof (Z.mod_pos_bound m (2 ^ cf c) CP). nia.
  - assert (m < 0) by lia. rewrite (B H0). pose proof (ceil_div m (2 ^ cf c) CP) as C. cbv zeta in C. nia.
Qed.

Lemma signtest f m : (m <? 0) = true <-> (qval f m < 0)%Q.
Proof. unfold qval, Qlt; cbn [Qnum Qden]. lia. Qed.

(** ** radix types *)
Lemma format_int_thm c st m up base : wf c = true -> valid c m = true -> neg_room c m -> fits 32 true (width_val st) ->
  radix_type (ftype st) up base ->
  exists neg n ds out, format_to c st m = Ok out /\ canon base ds n /\
    (neg = true <-> (qval (cf c) m < 0)%Q) /\
    ((0 <= qval (cf c) m)%Q -> is_floor 0 (qval (cf c) m) n) /\
    ((qval (cf c) m < 0)%Q -> is_ceil 0 (- qval (cf c) m) n) /\
    let pre := sign_text (sign_mode st) neg ++ base_text (alt_form st) up base in
    let digits := map (digit_char up) ds in
    (zero_pad st = true -> zero_padded (width_val st) pre digits out) /\
    (zero_pad st = false -> padded (width_val st) (fill_ch st) (align_mode st) (pre ++ digits) out).
Proof.
  intros W V R F T. destruct (integral_any c m W V R) as (n & E & VN & N0 & A & B).
  destruct (format_radix_ok c st m n up base W V F T E VN N0) as (ds & out & EO & CA & P).
  exists (m <? 0), n, ds, out. split; [exact EO|]. split; [exact CA|]. split; [apply signtest|].
  destruct (mag_q c m n W A B) as [Q1 Q2]. split; [exact Q1|]. split; [exact Q2|]. exact P.
Qed.

(** ** g and f *)
Lemma int_frac c m : wf c = true -> (is_int (qval (cf c) m) <-> Z.abs m mod 2 ^ cf c = 0).
Proof.
  intros W. pose proof (cf_pos c W) as CP. pose proof (cf_nonneg c W) as Hf.
  unfold is_int, qval, Qeq, inject_Z. cbn [Qnum Qden]. rewrite pow2p_Z by auto.
  rewrite Z.mod_divide by lia. rewrite Z.divide_abs_r. split; intros [n E]; exists n; lia.
Qed.

Lemma dec_trunc_raw f k a n : 0 <= f -> 0 <= k -> (dec_trunc k (qval f a) n <-> n * 2 ^ f <= a * 10 ^ k < (n + 1) * 2 ^ f).
Proof.
  intros F K. unfold dec_trunc, dval, qval, Qle, Qlt. cbn [Qnum Qden]. rewrite pow2p_Z by auto.
  rewrite Z2Pos.id by (apply Z.pow_pos_nonneg; lia). lia.
Qed.

Lemma format_dec_gen c st m e : wf c = true -> valid c m = true -> neg_room c m -> fits 32 true (width_val st) ->
  10 * (2 ^ cf c - 1) <= hi (bits (ct c)) (sgn (ct c)) -> dec_type (ftype st) ->
  let x := qval (cf c) m in
  let prec := if precision st <? 0 then 6 else precision st in
  (e = 0 /\ ((0 <= x)%Q \/ is_int x) \/ e = 1 /\ (x < 0)%Q /\ ~ is_int x) ->
  exists neg ip fp dot out, format_to c st m = Ok out /\ is_digits 10 ip /\ is_digits 10 fp /\
    (ip = [0] \/ exists d r, ip = d :: r /\ d <> 0) /\
    (neg = true <-> (x < 0)%Q) /\
    (dot = [] /\ is_int x /\ fp = [] \/ dot = [46] /\ (~ is_int x \/ fp <> [])) /\
    (let k := Z.of_nat (List.length fp) in
     let y := (Qabs x + inject_Z e)%Q in
     k <= prec /\
     dec_trunc k y (num 10 (ip ++ fp)) /\
     (In (ftype st) [103; 71] -> (k = prec \/ (dval k (num 10 (ip ++ fp)) == y)%Q) /\
        ((dval k (num 10 (ip ++ fp)) == y)%Q -> fp = [] \/ exists d r, fp = r ++ [d] /\ d <> 0)) /\
     (In (ftype st) [102; 70] -> k = prec)) /\
    padded (width_val st) (if zero_pad st then 48 else fill_ch st) (align_mode st)
      (sign_text (sign_mode st) neg ++ dgs ip ++ dot ++ dgs fp) out.
Proof.
  intros W V R F T TY x prec HE. pose proof (cf_pos c W) as CP. pose proof (cf_nonneg c W) as Hf.
  change (hi (bits (ct c)) (sgn (ct c))) with (maxv (ct c)) in T.
  destruct (integral_any c m W V R) as (n & E & VN & N0 & A & B).
  pose proof (format_dec_ok c st m n W V F T TY E VN N0) as FD. cbv zeta in FD.
  destruct FD as (ip & fp & rem & out & EO & CA & DF & Q & RR & LE & TF & TG & P).
  set (D := 2 ^ cf c) in *. set (fr := Z.abs m mod D) in *.
  exists (m <? 0), ip, fp, (if (fr =? 0) && (Z.of_nat (List.length fp) =? 0) then [] else [46]), out.
  destruct CA as (DI & NI & HI).
  split; [exact EO|]. split; [exact DI|]. split; [exact DF|]. split; [exact HI|]. split; [apply signtest|].
  assert (FI : is_int x <-> fr = 0) by (apply int_frac; auto).
  split.
  { destruct (Z.eqb_spec fr 0) as [Z|Z]; cbn [andb].
    - destruct (Z.eqb_spec (Z.of_nat (List.length fp)) 0) as [L|L].
      + left. split; [reflexivity|]. split; [apply FI; exact Z|]. destruct fp; [reflexivity|discriminate].
      + right. split; [reflexivity|]. right. intros ->. apply L. reflexivity.
    - right. split; [reflexivity|]. left. rewrite FI. exact Z. }
  split; [|exact P]. cbv zeta. set (k := Z.of_nat (List.length fp)) in *.
  split; [exact LE|].
  assert (K0 : 0 <= k) by (unfold k; lia).
  (* |m| + e * D = n * D + fr *)
  assert (KEY : Z.abs m + e * D = n * D + fr).
  { pose proof (Z.div_mod (Z.abs m) D ltac:(lia)) as DM. fold fr in DM.
    assert (FRB : 0 <= fr < D) by (apply Z.mod_pos_bound; auto).
    destruct (Z_lt_ge_dec m 0) as [N|N].
    - rewrite (B N). pose proof (ceil_div m D CP) as C. cbv zeta in C. rewrite Z.abs_neq in DM |- * by lia.
      set (q := m / D) in *. set (q2 := - m / D) in *.
      destruct HE as [[-> HE]|[-> [_ HE]]].
      + assert (fr = 0). { apply FI. destruct HE as [HE|HE]; auto. exfalso. unfold x, qval, Qle in HE. cbn [Qnum Qden] in HE. lia. }
        assert (q2 = - q) by (clear - C DM CP H; nia). nia.
      + rewrite FI in HE. assert (q2 = - q - 1) by (clear - C DM CP FRB HE; nia). nia.
    - destruct HE as [[-> HE]|[-> [HE _]]]; [|exfalso; unfold x, qval, Qlt in HE; cbn [Qnum Qden] in HE; lia].
      rewrite (A ltac:(lia)). rewrite Z.abs_eq in DM |- * by lia. lia. }
  assert (YE : (Qabs x + inject_Z e == qval (cf c) (n * D + fr))%Q).
  { rewrite <- KEY. unfold x, qval, Qabs, inject_Z, Qplus, Qeq. cbn [Qnum Qden]. rewrite !Pos.mul_1_r.
    fold D. rewrite pow2p_Z by auto. fold D. lia. }
  assert (NA : num 10 (ip ++ fp) = n * 10 ^ k + num 10 fp) by (rewrite num_app, NI; reflexivity).
  assert (PK : 0 < 10 ^ k) by (apply Z.pow_pos_nonneg; lia).
  set (pw := 10 ^ k) in *.
  split; [|split].
  - assert (DT : dec_trunc k (qval (cf c) (n * D + fr)) (num 10 (ip ++ fp))).
    { apply dec_trunc_raw; auto. rewrite NA. fold D. fold pw. nia. }
    unfold dec_trunc in *. rewrite YE. exact DT.
  - intros G. assert (EX : (dval k (num 10 (ip ++ fp)) == Qabs x + inject_Z e)%Q <-> rem = 0).
    { rewrite YE, NA. unfold dval, qval, Qeq. cbn [Qnum Qden]. rewrite pow2p_Z by auto.
      rewrite Z2Pos.id by exact PK. fold D. fold pw. clear - Q. split; intros H; nia. }
    rewrite EX. destruct (TG G) as [R0 LZ]. split; [|exact LZ]. destruct R0 as [R0|R0]; [right|left]; exact R0.
  - exact TF.
Qed.

(** ** width *)
Lemma integral_valid c m n : wf c = true -> integral_part c m = Ok n -> valid c n = true.
Proof.
  intros W. unfold integral_part.
  destruct (fx_signbit c m) as [s| | |]; cbn [bind]; try discriminate.
  destruct (if s then _ else _) as [r| | |]; cbn [bind]; try discriminate.
  destruct (c_shr (ct c) r (cf c)) as [q| | |]; cbn [bind]; try discriminate.
  intros E. injection E as <-. apply valid_wrap_valid; auto.
Qed.

Lemma aligned_0 st body : width_val st = 0 -> output_aligned st body = body.
Proof. intros E. unfold output_aligned. rewrite E. reflexivity. Qed.

Lemma with_width_eq st w : align_mode (with_width st w) = align_mode st /\ sign_mode (with_width st w) = sign_mode st /\
  alt_form (with_width st w) = alt_form st /\ zero_pad (with_width st w) = zero_pad st /\ width_val (with_width st w) = w /\
  precision (with_width st w) = precision st /\ ftype (with_width st w) = ftype st /\ fill_ch (with_width st w) = fill_ch st.
Proof. repeat split; reflexivity. Qed.

Lemma width_radix c st m nat0 : wf c = true -> fits 32 true (width_val st) -> is_radix (ftype st) = true -> zero_pad st = true ->
  format_to c (with_width st 0) m = Ok nat0 ->
  exists up base pre ds out, radix_type (ftype st) up base /\ format_to c st m = Ok out /\ nat0 = pre ++ map (digit_char up) ds /\
    is_digits base ds /\ ds <> [] /\
    (exists neg, pre = sign_text (sign_mode st) neg ++ base_text (alt_form st) up base) /\
    zero_padded (width_val st) pre (map (digit_char up) ds) out.
Proof.
  intros W F RX ZP. pose proof (wf_ct c W) as K.
  assert (RT : exists up base, radix_type (ftype st) up base).
  { unfold is_radix in RX. apply existsb_exists in RX. destruct RX as (y & I & Y). apply Z.eqb_eq in Y. subst y.
    unfold radix_type. cbn [In] in I.
    destruct I as [I|[I|[I|[I|[I|[I|[]]]]]]]; rewrite <- I; eexists; eexists; cbn [In];
      [left|right; left|right; right; left|right; right; right; left|right; right; right; right; left|right; right; right; right; right; left]; reflexivity. }
  destruct RT as (up & base & RT). destruct (radix_mode_of _ _ _ RT) as (MO & BB & B10 & BL).
  unfold format_to. destruct (with_width_eq st 0) as (_ & _ & -> & -> & -> & _ & -> & _). rewrite MO.
  destruct (fx_signbit c m) as [neg| | |]; cbn [bind]; try discriminate.
  destruct (integral_part c m) as [n| | |] eqn:EI; cbn [bind]; try discriminate.
  pose proof (integral_valid c m n W EI) as VN.
  destruct (int_to_string_ok (ct c) n base up K VN BB) as (ds & ED & CA & LD & NE). rewrite ED. cbn [bind].
  change (append_sign (with_width st 0) [] neg) with (append_sign st [] neg).
  rewrite append_sign_eq, append_alt_eq.
  set (sg := sign_text (sign_mode st) neg).
  set (pre := if alt_form st && true && negb (base =? 10) then sg ++ base_text true up base else sg).
  assert (EP : pre = sg ++ base_text (alt_form st) up base).
  { unfold pre. destruct (alt_form st); cbn [andb].
    - destruct (Z.eqb_spec base 10) as [E|E]; cbn [negb]; [|reflexivity].
      apply B10 in E. rewrite E, app_nil_r. reflexivity.
    - cbn [base_text]. rewrite app_nil_r. reflexivity. }
  cbv zeta. rewrite ZP. change (0 >? 0) with false. cbn [andb]. rewrite aligned_0 by reflexivity.
  intros E. injection E as E. subst nat0.
  assert (PL : (List.length pre <= 3)%nat).
  { rewrite EP, app_length. pose proof (sign_len (sign_mode st) neg). fold sg in H.
    assert (List.length (base_text (alt_form st) up base) <= 2)%nat by (destruct (alt_form st); [exact BL|cbn; clear; lia]).
    clear - H H0. lia. }
  set (dg := map (digit_char up) ds). assert (DL : (List.length dg <= 128)%nat) by (unfold dg; rewrite map_length; exact LD).
  exists up, base, pre, ds. eexists. split; [exact RT|]. split; [reflexivity|]. split; [reflexivity|]. split; [apply CA|].
  split; [exact NE|]. split; [exists neg; exact EP|]. fold dg. clearbody pre dg.
  pose proof F as F'. unfold fits, lo, hi in F'. change (2 ^ (32 - 1)) with 2147483648 in F'.
  rewrite Z.gtb_ltb. destruct (Z.ltb_spec 0 (width_val st)) as [P|P].
  + rewrite wrap_id; [|reflexivity|apply in_range_nn_i; [reflexivity|change (maxv int32) with 2147483647; clear - PL DL; lia]].
    set (tot := Z.of_nat (List.length pre) + Z.of_nat (List.length dg)).
    destruct (Z.ltb_spec tot (width_val st)) as [L|L].
    * rewrite (wrap_size (width_val st)) by (change (2 ^ 63) with 9223372036854775808; clear - F' P; lia).
      assert (0 <= tot) by (unfold tot; clear; lia).
      rewrite wrap_size by (change (2 ^ 63) with 9223372036854775808; clear - F' L H; lia).
      unfold fill_n. set (z := Z.to_nat (width_val st - tot)).
      assert (LE : Z.of_nat (List.length (pre ++ repeat 48 z ++ dg)) = width_val st).
      { rewrite !app_length, repeat_length. unfold z, tot in *. clear - L. lia. }
      unfold output_aligned. rewrite (wrap_size (width_val st)) by (change (2 ^ 63) with 9223372036854775808; clear - F' P; lia).
      rewrite LE, Z.leb_refl, orb_true_r. exists z. split; [reflexivity|]. rewrite LE. rewrite app_length. unfold tot in L. clear - L. lia.
    * unfold output_aligned. rewrite (wrap_size (width_val st)) by (change (2 ^ 63) with 9223372036854775808; clear - F' P; lia).
      replace (width_val st <=? Z.of_nat (List.length (pre ++ dg))) with true
        by (symmetry; apply Z.leb_le; rewrite app_length; unfold tot in L; clear - L; lia).
      rewrite orb_true_r. exists 0%nat. split; [reflexivity|]. rewrite app_length. unfold tot in L. clear - L. lia.
  + unfold output_aligned. replace (width_val st <=? 0) with true by (symmetry; apply Z.leb_le; exact P).
    cbn [orb]. exists 0%nat. split; [reflexivity|]. clear - P. lia.
Qed.

(** all other cases: the text is computed without looking at the width, then aligned *)
Lemma width_plain c st m : (zero_pad st = true -> is_radix (ftype st) = false) ->
  format_to c st m = (let* b := format_to c (with_width st 0) m in Ok (output_aligned st b)).
Proof.
  intros Z. unfold format_to. destruct (with_width_eq st 0) as (A1 & A2 & A3 & A4 & A5 & A6 & A7 & A8).
  rewrite A3, A4, A5, A6, A7.
  destruct (mode_of (ftype st)) as [[[io up] base]|] eqn:MO.
  - destruct (fx_signbit c m) as [neg| | |]; cbn [bind]; try reflexivity.
    destruct (integral_part c m) as [n| | |] eqn:EI; cbn [bind]; try reflexivity.
    destruct (int_to_string (ct c) n base up) as [ds| | |]; cbn [bind]; try reflexivity.
    change (append_sign (with_width st 0) [] neg) with (append_sign st [] neg).
    set (pre := if alt_form st && io && negb (base =? 10) then _ else _).
    destruct io.
    + assert (ZF : zero_pad st = false).
      { destruct (zero_pad st); [|reflexivity]. specialize (Z eq_refl). exfalso. clear - MO Z. unfold is_radix in Z. cbn [existsb] in Z.
        unfold mode_of in MO.
        destruct (ftype st =? 88); [discriminate|]. destruct (ftype st =? 120); [discriminate|]. destruct (ftype st =? 100); [discriminate|].
        destruct (ftype st =? 111); [discriminate|]. destruct (ftype st =? 66); [discriminate|]. destruct (ftype st =? 98); [discriminate|].
        destruct (ftype st =? 63); discriminate. }
      rewrite ZF. cbn [andb bind]. rewrite (aligned_0 (with_width st 0)) by reflexivity. reflexivity.
    + destruct (fractional_part c m) as [fv| | |]; cbn [bind]; try reflexivity.
      match goal with |- context [bind (if ?b then _ else _) _] => destruct (if b then _ else _) as [fr| | |]; cbn [bind]; try reflexivity end.
      match goal with |- context [bind (if ?b then fmt_frac _ _ _ _ _ _ _ else _) _] => destruct (if b then _ else _) as [[bd u]| | |]; cbn [bind]; try reflexivity end.
      match goal with |- context [bind (if ?b then trail_zeros _ _ _ _ else _) _] => destruct (if b then _ else _) as [bd2| | |]; cbn [bind]; try reflexivity end.
  - unfold format_debug_to. rewrite A3. change (append_sign (with_width st 0) [] (sgn (ct c) && c_lt (ct c) int32 m 0)) with (append_sign st [] (sgn (ct c) && c_lt (ct c) int32 m 0)).
    cbv zeta. destruct (magnitude (ct c) m) as [u| | |]; cbn [bind]; try reflexivity.
    match goal with |- context [bind (if ?b then _ else _) _] => destruct (if b then _ else _) as [bd| | |]; cbn [bind]; try reflexivity end.
Qed.

Lemma width_thm c st m : wf c = true -> fits 32 true (width_val st) ->
  match format_to c (with_width st 0) m with
  | Ok nat0 =>
    exists out, format_to c st m = Ok out /\
      Z.of_nat (List.length out) = Z.max (width_val st) (Z.of_nat (List.length nat0)) /\
      (zero_pad st = false -> padded (width_val st) (fill_ch st) (align_mode st) nat0 out) /\
      (zero_pad st = true -> is_radix (ftype st) = false -> padded (width_val st) 48 (align_mode st) nat0 out) /\
      (zero_pad st = true -> is_radix (ftype st) = true ->
        exists up base neg ds, radix_type (ftype st) up base /\ is_digits base ds /\ ds <> [] /\
          let pre := sign_text (sign_mode st) neg ++ base_text (alt_form st) up base in
          nat0 = pre ++ map (digit_char up) ds /\ zero_padded (width_val st) pre (map (digit_char up) ds) out)
  | r => format_to c st m = r
  end.
Proof.
  intros W F. destruct (zero_pad st && is_radix (ftype st)) eqn:ZR.
  - apply andb_true_iff in ZR. destruct ZR as [ZP RX].
    destruct (format_to c (with_width st 0) m) as [n0| | |] eqn:E0.
    + destruct (width_radix c st m n0 W F RX ZP E0) as (up & base & pre & ds & out & RT & EO & EN & DG & NE & [neg EP] & ZQ).
      exists out. split; [exact EO|]. split; [destruct ZQ as (z & _ & L); rewrite EN; exact L|].
      split; [intros X; congruence|]. split; [intros _ X; congruence|]. intros _ _. exists up, base, neg, ds.
      split; [exact RT|]. split; [exact DG|]. split; [exact NE|]. cbv zeta. rewrite <- EP. split; [exact EN|exact ZQ].
    + revert E0. unfold format_to. destruct (with_width_eq st 0) as (_ & _ & _ & _ & _ & _ & -> & _).
      assert (MO : exists up base, mode_of (ftype st) = Some (true, up, base)).
      { unfold is_radix in RX. cbn [existsb] in RX. unfold mode_of.
        destruct (ftype st =? 88); [eauto|]. destruct (ftype st =? 120); [eauto|]. destruct (ftype st =? 100); [eauto|].
        destruct (ftype st =? 111); [eauto|]. destruct (ftype st =? 66); [eauto|]. destruct (ftype st =? 98); [eauto|discriminate]. }
      destruct MO as (up & base & ->).
      destruct (fx_signbit c m) as [sg| | |]; cbn [bind]; auto. destruct (integral_part c m) as [n| | |]; cbn [bind]; auto.
      destruct (int_to_string (ct c) n base up); cbn [bind]; auto; discriminate.
    + revert E0. unfold format_to. destruct (with_width_eq st 0) as (_ & _ & _ & _ & _ & _ & -> & _).
      assert (MO : exists up base, mode_of (ftype st) = Some (true, up, base)).
      { unfold is_radix in RX. cbn [existsb] in RX. unfold mode_of.
        destruct (ftype st =? 88); [eauto|]. destruct (ftype st =? 120); [eauto|]. destruct (ftype st =? 100); [eauto|].
        destruct (ftype st =? 111); [eauto|]. destruct (ftype st =? 66); [eauto|]. destruct (ftype st =? 98); [eauto|discriminate]. }
      destruct MO as (up & base & ->).
      destruct (fx_signbit c m) as [sg| | |]; cbn [bind]; auto. destruct (integral_part c m) as [n| | |]; cbn [bind]; auto.
      destruct (int_to_string (ct c) n base up); cbn [bind]; auto; discriminate.
    + revert E0. unfold format_to. destruct (with_width_eq st 0) as (_ & _ & _ & _ & _ & _ & -> & _).
      assert (MO : exists up base, mode_of (ftype st) = Some (true, up, base)).
      { unfold is_radix in RX. cbn [existsb] in RX. unfold mode_of.
        destruct (ftype st =? 88); [eauto|]. destruct (ftype st =? 120); [eauto|]. destruct (ftype st =? 100); [eauto|].
        destruct (ftype st =? 111); [eauto|]. destruct (ftype st =? 66); [eauto|]. destruct (ftype st =? 98); [eauto|discriminate]. }
      destruct MO as (up & base & ->).
      destruct (fx_signbit c m) as [sg| | |]; cbn [bind]; auto. destruct (integral_part c m) as [n| | |]; cbn [bind]; auto.
      destruct (int_to_string (ct c) n base up); cbn [bind]; auto; discriminate.
  - assert (ZF : zero_pad st = true -> is_radix (ftype st) = false) by (intros Z; rewrite Z in ZR; exact ZR).
    rewrite (width_plain c st m ZF).
    destruct (format_to c (with_width st 0) m) as [n0| | |]; cbn [bind]; try reflexivity.
    pose proof (output_aligned_ok st n0 F) as O.
    exists (output_aligned st n0). split; [reflexivity|]. split; [destruct O as (l & r & _ & L & _); exact L|].
    split; [intros Z; rewrite Z in O; exact O|]. split; [intros Z _; rewrite Z in O; exact O|].
    intros Z X. rewrite (ZF Z) in X. discriminate.
Qed.

(** ** parsing *)
Lemma parse_empty rest : match rest with c :: _ => ~ In c [60; 62; 94] | [] => True end ->
  parse_spec (125 :: rest) = Ok (state0, 125 :: rest).
Proof.
  intros H. set (s := {| p_fill := None; p_align := None; p_sign := None; p_alt := false; p_zero := false; p_width := None; p_prec := None; p_type := None |}).
  assert (OK : spec_ok s) by (repeat split; unfold s; cbn; intros; discriminate).
  exact (parse_spec_ok s rest OK ltac:(discriminate) (fun _ => H)).
Qed.
Lemma format_empty c m rest : match rest with c :: _ => ~ In c [60; 62; 94] | [] => True end ->
  format_field c m (125 :: rest) = (let* s := format_to c state0 m in Ok (s, rest)).
Proof. intros H. unfold format_field. rewrite parse_empty by exact H. reflexivity. Qed.

(** "{}" followed by an alignment character: the brace is taken as the fill *)
Lemma swallow a st rest' rest : In a [60; 62; 94] -> parse_spec (125 :: a :: rest) = Ok (st, rest') ->
  fill_ch st = 125 /\ align_mode st = a /\ exists x, rest = x ++ rest'.
Proof.
  intros IA. assert (AL : is_align a = true) by (apply is_align_iff; cbn [In] in IA; lia).
  unfold parse_spec, parse_argid. cbn [skip_digits]. change (is_dig 125) with false. cbv iota. change (125 =? 58) with false. cbv iota.
  cbn [parse_align]. rewrite AL. set (s0 := with_align (with_fill state0 125) a).
  assert (F0 : fill_ch s0 = 125 /\ align_mode s0 = a) by (split; reflexivity). clearbody s0.
  assert (PS : forall s l, fill_ch (fst (parse_sign s l)) = fill_ch s /\ align_mode (fst (parse_sign s l)) = align_mode s /\ exists x, l = x ++ snd (parse_sign s l)).
  { intros s [|c l]; cbn [parse_sign]; [repeat split; exists []; reflexivity|]. destruct ((c =? 43) || (c =? 45) || (c =? 32)); repeat split; [exists [c]|exists []]; reflexivity. }
  assert (PA : forall s l, fill_ch (fst (parse_alt s l)) = fill_ch s /\ align_mode (fst (parse_alt s l)) = align_mode s /\ exists x, l = x ++ snd (parse_alt s l)).
  { intros s [|c l]; cbn [parse_alt]; [repeat split; exists []; reflexivity|]. destruct (c =? 35); repeat split; [exists [c]|exists []]; reflexivity. }
  assert (PZ : forall s l, fill_ch (fst (parse_zero s l)) = fill_ch s /\ align_mode (fst (parse_zero s l)) = align_mode s /\ exists x, l = x ++ snd (parse_zero s l)).
  { intros s [|c l]; cbn [parse_zero]; [repeat split; exists []; reflexivity|]. destruct (c =? 48); repeat split; [exists [c]|exists []]; reflexivity. }
  assert (RI : forall l v v' r, read_int l v = Ok (v', r) -> exists x, l = x ++ r).
  { induction l as [|c l IH]; intros v v' r; cbn [read_int]; [intros E; injection E as _ <-; exists []; reflexivity|].
    destruct (is_dig c).
    - destruct (c_mul int32 int32 v 10); cbn [bind]; try discriminate. destruct (c_add int32 int32 a0 (c - 48)); cbn [bind]; try discriminate.
      intros E. destruct (IH _ _ _ E) as [x ->]. exists (c :: x). reflexivity.
    - intros E; injection E as _ <-; exists []; reflexivity. }
  assert (PW : forall s l s' r, parse_width s l = Ok (s', r) -> fill_ch s' = fill_ch s /\ align_mode s' = align_mode s /\ exists x, l = x ++ r).
  { intros s [|c l] s' r; unfold parse_width; [intros E; injection E as <- <-; repeat split; exists []; reflexivity|].
    destruct (is_dig c).
    - destruct (read_int (c :: l) 0) as [[v r2]| | |] eqn:ER; cbn [bind]; try discriminate. intros E. injection E as <- <-.
      repeat split. apply (RI _ _ _ _ ER).
    - intros E; injection E as <- <-; repeat split; exists []; reflexivity. }
  assert (PP : forall s l s' r, parse_prec s l = Ok (s', r) -> fill_ch s' = fill_ch s /\ align_mode s' = align_mode s /\ exists x, l = x ++ r).
  { intros s [|c l] s' r; unfold parse_prec; [intros E; injection E as <- <-; repeat split; exists []; reflexivity|].
    destruct (c =? 46).
    - destruct (read_int l 0) as [[v r2]| | |] eqn:ER; cbn [bind]; try discriminate. intros E. injection E as <- <-.
      repeat split. destruct (RI _ _ _ _ ER) as [x ->]. exists (c :: x). reflexivity.
    - intros E; injection E as <- <-; repeat split; exists []; reflexivity. }
  assert (PT : forall s l s' r, parse_type s l = Ok (s', r) -> fill_ch s' = fill_ch s /\ align_mode s' = align_mode s /\ exists x, l = x ++ r).
  { intros s [|c l] s' r; unfold parse_type; [intros E; injection E as <- <-; repeat split; exists []; reflexivity|].
    destruct (is_type c); [intros E; injection E as <- <-; repeat split; exists [c]; reflexivity|].
    destruct (c =? 125); [|discriminate]. intros E; injection E as <- <-; repeat split; exists []; reflexivity. }
  pose proof (PS s0 rest) as P1. destruct (parse_sign s0 rest) as [s1 l1]. cbn [fst snd] in P1.
  pose proof (PA s1 l1) as P2. destruct (parse_alt s1 l1) as [s2 l2]. cbn [fst snd] in P2.
  pose proof (PZ s2 l2) as P3. destruct (parse_zero s2 l2) as [s3 l3]. cbn [fst snd] in P3.
  destruct (parse_width s3 l3) as [[s4 l4]| | |] eqn:E4; cbn [bind fst snd]; try discriminate. apply PW in E4.
  destruct (parse_prec s4 l4) as [[s5 l5]| | |] eqn:E5; cbn [bind fst snd]; try discriminate. apply PP in E5.
  intros E6. apply PT in E6.
  destruct F0 as [F0 G0], P1 as (F1 & G1 & x1 & X1), P2 as (F2 & G2 & x2 & X2), P3 as (F3 & G3 & x3 & X3), E4 as (F4 & G4 & x4 & X4),
    E5 as (F5 & G5 & x5 & X5), E6 as (F6 & G6 & x6 & X6).
  split; [congruence|]. split; [congruence|]. exists (x1 ++ x2 ++ x3 ++ x4 ++ x5 ++ x6).
  rewrite X1, X2, X3, X4, X5, X6. rewrite <- !app_assoc. reflexivity.
Qed.

(** a fill ':' is lost *)
Lemma colon_fill s rest : spec_ok s -> p_fill s = Some 58 ->
  exists st, parse_spec (spec_text s ++ 125 :: rest) = Ok (st, 125 :: rest) /\
    fill_ch st = 32 /\
    align_mode st = match p_align s with Some v => v | None => 0 end /\
    sign_mode st = match p_sign s with Some v => v | None => 45 end /\
    alt_form st = p_alt s /\ zero_pad st = p_zero s /\
    width_val st = match p_width s with Some ds => num 10 ds | None => 0 end /\
    precision st = match p_prec s with Some ds => num 10 ds | None => -1 end /\
    ftype st = match p_type s with Some v => v | None => 103 end.
Proof.
  intros H F.
  set (s' := {| p_fill := None; p_align := p_align s; p_sign := p_sign s; p_alt := p_alt s; p_zero := p_zero s;
     p_width := p_width s; p_prec := p_prec s; p_type := p_type s |}).
  assert (H' : spec_ok s').
  { destruct H as (A & B & C & D & E & G). unfold spec_ok, s'. cbn [p_fill p_align p_sign p_width p_prec p_type].
    split; [reflexivity|]. split; [exact B|]. split; [exact C|]. split; [exact D|]. split; [exact E|exact G]. }
  assert (AN : exists a, p_align s = Some a /\ In a [60; 62; 94]).
  { destruct H as (A & B & _). destruct (p_align s) as [a|] eqn:EA; [exists a; auto|]. rewrite (A eq_refl) in F. discriminate. }
  destruct AN as (a & EA & IA).
  assert (NE : spec_text s' = a :: tl (spec_text s')) by (unfold spec_text, s'; cbn [p_fill p_align opt app]; rewrite EA; reflexivity).
  assert (TX : spec_text s = 58 :: spec_text s') by (unfold spec_text, s'; cbn; rewrite F; reflexivity).
  exists (state_of s'). split; [|repeat split].
  assert (P : parse_spec (spec_text s' ++ 125 :: rest) = Ok (state_of s', 125 :: rest)).
  { apply parse_spec_ok; auto; [discriminate|]. rewrite NE. discriminate. }
  rewrite <- P, TX. cbn [app].
  assert (ND : is_dig a = false) by (unfold is_dig; cbn [In] in IA; lia).
  assert (NC : (a =? 58) = false) by (cbn [In] in IA; lia).
  rewrite NE. cbn [app]. unfold parse_spec. unfold parse_argid at 1. cbn [skip_digits]. change (is_dig 58) with false. cbv iota.
  change (58 =? 58) with true. cbv iota. unfold parse_argid. cbn [skip_digits]. rewrite ND, NC. reflexivity.
Qed.

(** a width that does not fit an int *)
Lemma read_int_over ds : is_digits 10 ds -> forall v t, 0 <= v <= 2147483647 -> 2147483647 < v * 10 ^ Z.of_nat (List.length ds) + num 10 ds ->
  read_int (dgs ds ++ t) v = UB.
Proof.
  induction 1 as [|d ds Hd H IH]; intros v t V L.
  - exfalso. cbn [List.length] in L. change (num 10 []) with 0 in L. change (10 ^ Z.of_nat 0) with 1 in L. lia.
  - rewrite dgs_cons. cbn [app read_int]. rewrite dchar by auto. replace (is_dig (d + 48)) with true by (unfold is_dig; lia).
    rewrite num_cons in L. cbn [List.length] in L. rewrite Nat2Z.inj_succ, Z.pow_succ_r in L by lia.
    rewrite (sg_mul int32 int32 v 10) by (try reflexivity; apply in_range_iff; unfold minv, maxv; cbn; lia).
    destruct (in_range (uac int32 int32) (v * 10)) eqn:R1; [|reflexivity]. cbn [bind]. replace (d + 48 - 48) with d by lia.
    rewrite (sg_add int32 int32 (v * 10) d) by (try reflexivity; try exact R1; apply in_range_iff; unfold minv, maxv; cbn; lia).
    destruct (in_range (uac int32 int32) (v * 10 + d)) eqn:R2; [|reflexivity]. cbn [bind].
    apply in_range_iff in R2. change (maxv (uac int32 int32)) with 2147483647 in R2. apply IH; [lia|].
    set (p := 10 ^ Z.of_nat (List.length ds)) in *. lia.
Qed.

Lemma width_over ds rest : is_digits 10 ds -> (exists d r, ds = d :: r /\ d <> 0) -> 2147483647 < num 10 ds ->
  match rest with c :: _ => (c < 48 \/ 57 < c) /\ ~ In c [58; 60; 62; 94] | [] => True end ->
  parse_spec (dgs ds ++ rest) = UB.
Proof.
  intros H (d & r & E & D0) L HR. assert (HD : 0 <= d < 10) by (rewrite E in H; inversion H; auto).
  assert (SK : skip_digits (dgs ds ++ rest) = rest).
  { clear - H HR. induction H as [|x xs Hx H IH]; cbn [dgs map app].
    - destruct rest as [|c rest]; [reflexivity|]. cbn [skip_digits]. replace (is_dig c) with false by (unfold is_dig; lia). reflexivity.
    - cbn [skip_digits]. rewrite dchar by auto. replace (is_dig (x + 48)) with true by (unfold is_dig; lia). exact IH. }
  assert (AR : parse_argid (dgs ds ++ rest) = dgs ds ++ rest).
  { unfold parse_argid. rewrite SK. destruct rest as [|c rest]; [reflexivity|]. replace (c =? 58) with false by (cbn [In] in HR; lia). reflexivity. }
  assert (HDG : dgs ds = (d + 48) :: dgs r) by (rewrite E, dgs_cons, dchar by auto; reflexivity).
  unfold parse_spec. rewrite AR. rewrite HDG. cbn [app].
  assert (PA : parse_align state0 ((d + 48) :: dgs r ++ rest) = (state0, (d + 48) :: dgs r ++ rest)).
  { cbn [parse_align]. replace (is_align (d + 48)) with false by (unfold is_align; lia).
    destruct (dgs r ++ rest) as [|n t] eqn:EN; [reflexivity|].
    assert (is_align n = false); [|rewrite H0; reflexivity].
    destruct r as [|d2 r2]; cbn [dgs map app] in EN.
    - subst rest. unfold is_align. cbn [In] in HR. lia.
    - assert (0 <= d2 < 10) by (rewrite E in H; inversion H as [|? ? _ H2]; inversion H2; auto). rewrite dchar in EN by auto.
      injection EN as <- _. unfold is_align. lia. }
  rewrite PA. cbn [parse_sign]. replace ((d + 48 =? 43) || (d + 48 =? 45) || (d + 48 =? 32)) with false by lia.
  cbn [parse_alt]. replace (d + 48 =? 35) with false by lia. cbn [parse_zero]. replace (d + 48 =? 48) with false by lia.
  unfold parse_width. replace (is_dig (d + 48)) with true by (unfold is_dig; lia).
  change ((d + 48) :: dgs r ++ rest) with (((d + 48) :: dgs r) ++ rest). rewrite <- HDG.
  rewrite read_int_over; auto; lia.
Qed.

Lemma prec_over ds rest : is_digits 10 ds -> 2147483647 < num 10 ds -> parse_spec (46 :: dgs ds ++ rest) = UB.
Proof.
  intros H L. destruct ds as [|d r] eqn:E; [exfalso; cbn in L; lia|]. assert (HD : 0 <= d < 10) by (inversion H; auto).
  unfold parse_spec, parse_argid. cbn [skip_digits]. change (is_dig 46) with false. cbv iota. change (46 =? 58) with false. cbv iota.
  rewrite dgs_cons, dchar by auto. cbn [app parse_align]. replace (is_align (d + 48)) with false by (unfold is_align; lia).
  change (is_align 46) with false. cbv iota. cbn [parse_sign]. change ((46 =? 43) || (46 =? 45) || (46 =? 32)) with false. cbv iota.
  cbn [parse_alt]. change (46 =? 35) with false. cbv iota. cbn [parse_zero]. change (46 =? 48) with false. cbv iota.
  unfold parse_width. change (is_dig 46) with false. cbn [bind fst snd parse_prec]. change (46 =? 46) with true. cbv iota.
  assert (R : read_int (dgs (d :: r) ++ rest) 0 = UB) by (apply read_int_over; auto; lia).
  rewrite dgs_cons, dchar in R by auto. cbn [app] in R. rewrite R. reflexivity.
Qed.

Lemma zero_pad_dec c st m natural : wf c = true -> fits 32 true (width_val st) -> zero_pad st = true ->
  is_radix (ftype st) = false -> format_to c (with_width st 0) m = Ok natural ->
  exists out, format_to c st m = Ok out /\ padded (width_val st) 48 (align_mode st) natural out.
Proof.
  intros W F Z R E. pose proof (width_thm c st m W F) as T. rewrite E in T.
  destruct T as (out & EO & _ & _ & P & _). exists out. auto.
Qed.
Lemma zero_pad_refuted : exists st m, zero_pad st = true /\ width_val st = 6 /\ align_mode st = 0 /\ valid F32 m = true /\
  format_to F32 (with_width st 0) m = Ok (txt "-2") /\ format_to F32 st m = Ok (txt "0000-2").
Proof. exists (with_zero (with_width state0 6) true), (-2 * 65536). vm_compute. repeat split. Qed.

(** formatting a value close to the minimum of a signed store type of at least 32 bits *)
Lemma format_min_ub c st m : wf c = true -> valid c m = true -> sgn (ct c) = true -> 32 <= bits (ct c) -> cf c <= bits (ct c) - 2 ->
  (qval (cf c) m < qval (cf c) (lo (bits (ct c)) true + 2 ^ cf c))%Q -> ftype st <> 63 ->
  format_to c st m = UB.
Proof.
  intros W V S B F L T. rewrite qval_lt in L. pose proof (cf_pos c W) as CP. pose proof (wf_pows c W) as P. cbv zeta in P.
  destruct P as (E & PP & PL & PL2 & _). unfold lo in L.
  assert (PL4 : 2 * 2 ^ cf c <= 2 ^ (bits (ct c) - 1)).
  { rewrite <- Z.pow_succ_r by (destruct (wf_bnd c W) as (_ & _ & _ & _ & _ & X); lia). apply Z.pow_le_mono_r; lia. }
  assert (N : m < 0) by lia.
  assert (MO : exists p, mode_of (ftype st) = Some p).
  { unfold mode_of. destruct (Z.eqb_spec (ftype st) 63) as [X|X]; [contradiction|].
    repeat match goal with |- context [if ?b then _ else _] => destruct b; try (eexists; reflexivity) end. }
  destruct MO as ([[io up] base] & MO). unfold format_to. rewrite MO, signbit_eq by auto. cbn [bind].
  assert (IU : integral_part c m = UB); [|rewrite IU; reflexivity].
  unfold integral_part. rewrite signbit_eq by auto. cbn [bind]. replace (m <? 0) with true by lia.
  rewrite one_shift_ok by auto. cbn [bind].
  assert (VN : valid c (- m - 1) = true).
  { unfold valid in *. rewrite in_range_iff in *. unfold minv, maxv in *. rewrite S in *. lia. }
  pose proof (sgn_promote_wide (ct c) B) as EP.
  assert (CN : c_not (ct c) m = - m - 1).
  { unfold c_not. rewrite EP. replace (Z.lnot m) with (- m - 1) by (unfold Z.lnot; lia). apply valid_wrap; auto. }
  rewrite CN, valid_wrap by auto. rewrite EP.
  assert (KU : uac (ct c) (ct c) = ct c) by (rewrite uac_refl; exact EP).
  rewrite sg_add; [|apply wf_ct; auto|apply wf_ct; auto|rewrite KU; exact S|exact VN|apply one_range; auto].
  rewrite KU. replace (in_range (ct c) (- m - 1 + 2 ^ cf c)) with false; [reflexivity|].
  symmetry. apply not_true_is_false. rewrite in_range_iff. unfold minv, maxv. rewrite S. lia.
Qed.

(** ** statement forms *)
Lemma C72_lemma c st m up base : wf c = true -> valid c m = true -> fits 32 true (width_val st) -> radix_type (ftype st) up base ->
  let x := qval (cf c) m in
  ((0 <= x)%Q \/ is_int x) ->
  ((x < 0)%Q -> cf c <= bits (ct c) - 2 /\ (qval (cf c) (lo (bits (ct c)) true + 2 ^ cf c) <= x)%Q) ->
  exists neg n ds out, format_to c st m = Ok out /\ canon base ds n /\ (neg = true <-> (x < 0)%Q) /\ is_floor 0 (Qabs x) n /\
    let pre := sign_text (sign_mode st) neg ++ base_text (alt_form st) up base in
    let digits := map (digit_char up) ds in
    (zero_pad st = true -> zero_padded (width_val st) pre digits out) /\
    (zero_pad st = false -> padded (width_val st) (fill_ch st) (align_mode st) (pre ++ digits) out).
Proof.
  intros W V F T x HX HN.
  destruct (format_int_thm c st m up base W V (neg_room_of c m W V HN) F T) as (neg & n & ds & out & EO & CA & NG & Q1 & Q2 & P).
  exists neg, n, ds, out. split; [exact EO|]. split; [exact CA|]. split; [exact NG|]. split; [|exact P].
  fold x in Q1, Q2. destruct (Qlt_le_dec x 0) as [L|L].
  - destruct HX as [HX|HX]; [exfalso; apply (Qlt_not_le _ _ L HX)|].
    assert (AB : (Qabs x == - x)%Q) by (apply Qabs_neg, Qlt_le_weak, L).
    destruct (Q2 L) as [C1 C2]. destruct HX as [k HK]. unfold is_floor. rewrite AB. clear - C1 C2 HK.
    unfold qval, pow2p in *. change (Z.to_pos (2 ^ 0)) with 1%positive in *. change (n # 1) with (inject_Z n) in *.
    change (n - 1 # 1) with (inject_Z (n - 1)) in *. change (n + 1 # 1) with (inject_Z (n + 1)).
    rewrite HK in *. rewrite <- !inject_Z_opp in *. rewrite <- ?Zle_Qle, <- ?Zlt_Qlt in *. split; lia.
  - assert (AB : (Qabs x == x)%Q) by (apply Qabs_pos, L). unfold is_floor. rewrite AB. apply Q1, L.
Qed.

Lemma C73_lemma c st m : wf c = true -> valid c m = true -> fits 32 true (width_val st) ->
  10 * (2 ^ cf c - 1) <= hi (bits (ct c)) (sgn (ct c)) -> dec_type (ftype st) ->
  let x := qval (cf c) m in
  let prec := if precision st <? 0 then 6 else precision st in
  ((0 <= x)%Q \/ is_int x) ->
  ((x < 0)%Q -> cf c <= bits (ct c) - 2 /\ (qval (cf c) (lo (bits (ct c)) true + 2 ^ cf c) <= x)%Q) ->
  exists neg ip fp dot out, format_to c st m = Ok out /\ is_digits 10 ip /\ is_digits 10 fp /\
    (ip = [0] \/ exists d r, ip = d :: r /\ d <> 0) /\
    (neg = true <-> (x < 0)%Q) /\
    (dot = [] /\ is_int x /\ fp = [] \/ dot = [46] /\ (~ is_int x \/ fp <> [])) /\
    (let k := Z.of_nat (List.length fp) in
     k <= prec /\
     dec_trunc k (Qabs x) (num 10 (ip ++ fp)) /\
     (In (ftype st) [103; 71] -> (k = prec \/ (dval k (num 10 (ip ++ fp)) == Qabs x)%Q) /\
        ((dval k (num 10 (ip ++ fp)) == Qabs x)%Q -> fp = [] \/ exists d r, fp = r ++ [d] /\ d <> 0)) /\
     (In (ftype st) [102; 70] -> k = prec)) /\
    padded (width_val st) (if zero_pad st then 48 else fill_ch st) (align_mode st)
      (sign_text (sign_mode st) neg ++ dgs ip ++ dot ++ dgs fp) out.
Proof.
  intros W V F T TY x prec HX HN.
  destruct (format_dec_gen c st m 0 W V (neg_room_of c m W V HN) F T TY (or_introl (conj eq_refl HX)))
    as (neg & ip & fp & dot & out & A1 & A2 & A3 & A4 & A5 & A6 & A7 & A8).
  exists neg, ip, fp, dot, out. repeat (split; [assumption|]). split; [|exact A8].
  cbv zeta in A7 |- *. unfold dec_trunc in *. change (inject_Z 0) with 0%Q in A7. setoid_rewrite Qplus_0_r in A7. exact A7.
Qed.

Lemma C94_int_lemma c st m up base : wf c = true -> valid c m = true -> fits 32 true (width_val st) -> radix_type (ftype st) up base ->
  let x := qval (cf c) m in
  (x < 0)%Q -> cf c <= bits (ct c) - 2 -> (qval (cf c) (lo (bits (ct c)) true + 2 ^ cf c) <= x)%Q ->
  exists n ds out, format_to c st m = Ok out /\ canon base ds n /\ is_ceil 0 (Qabs x) n /\
    let pre := 45 :: base_text (alt_form st) up base in
    let digits := map (digit_char up) ds in
    (zero_pad st = true -> zero_padded (width_val st) pre digits out) /\
    (zero_pad st = false -> padded (width_val st) (fill_ch st) (align_mode st) (pre ++ digits) out).
Proof.
  intros W V F T x L HN1 HN2.
  destruct (format_int_thm c st m up base W V (neg_room_of c m W V (fun _ => conj HN1 HN2)) F T) as (neg & n & ds & out & EO & CA & NG & Q1 & Q2 & P).
  exists n, ds, out. split; [exact EO|]. split; [exact CA|]. rewrite (proj2 NG L) in P. split; [|exact P].
  unfold is_ceil. assert (AB : (Qabs x == - x)%Q) by (apply Qabs_neg, Qlt_le_weak, L). rewrite AB. apply Q2, L.
Qed.
Lemma C94_dec_lemma c st m : wf c = true -> valid c m = true -> fits 32 true (width_val st) ->
  10 * (2 ^ cf c - 1) <= hi (bits (ct c)) (sgn (ct c)) -> dec_type (ftype st) ->
  let x := qval (cf c) m in
  let prec := if precision st <? 0 then 6 else precision st in
  (x < 0)%Q -> ~ is_int x -> cf c <= bits (ct c) - 2 -> (qval (cf c) (lo (bits (ct c)) true + 2 ^ cf c) <= x)%Q ->
  exists ip fp out, format_to c st m = Ok out /\ is_digits 10 ip /\ is_digits 10 fp /\
    (ip = [0] \/ exists d r, ip = d :: r /\ d <> 0) /\
    (let k := Z.of_nat (List.length fp) in
     k <= prec /\
     dec_trunc k (Qabs x + 1) (num 10 (ip ++ fp)) /\
     (In (ftype st) [103; 71] -> (k = prec \/ (dval k (num 10 (ip ++ fp)) == Qabs x + 1)%Q) /\
        ((dval k (num 10 (ip ++ fp)) == Qabs x + 1)%Q -> fp = [] \/ exists d r, fp = r ++ [d] /\ d <> 0)) /\
     (In (ftype st) [102; 70] -> k = prec)) /\
    padded (width_val st) (if zero_pad st then 48 else fill_ch st) (align_mode st) (45 :: dgs ip ++ 46 :: dgs fp) out.
Proof.
  intros W V F T TY x prec L NI HN1 HN2.
  destruct (format_dec_gen c st m 1 W V (neg_room_of c m W V (fun _ => conj HN1 HN2)) F T TY (or_intror (conj eq_refl (conj L NI))))
    as (neg & ip & fp & dot & out & A1 & A2 & A3 & A4 & A5 & A6 & A7 & A9).
  exists ip, fp, out. repeat (split; [assumption|]). rewrite (proj2 A5 L) in A9.
  destruct A6 as [(_ & X & _)|(-> & _)]; [contradiction|exact A9].
Qed.

Lemma C74_lemma c st m : wf c = true -> valid c m = true -> fits 32 true (width_val st) -> ftype st = 63 ->
  exists neg ds out, format_to c st m = Ok out /\ (neg = true <-> m < 0) /\ canon 16 ds (Z.abs m) /\
    padded (width_val st) (if zero_pad st then 48 else fill_ch st) (align_mode st)
      (sign_text (sign_mode st) neg ++ base_text (alt_form st) false 16 ++ dgs ds) out.
Proof.
  intros W V F T. destruct (format_debug_ok c st m W V F T) as (ds & out & E & C & P).
  exists (m <? 0), ds, out. split; [exact E|]. split; [lia|]. split; [exact C|exact P].
Qed.

Lemma C76_lemma s rest : spec_ok s -> p_fill s <> Some 58 ->
  (spec_text s = [] -> match rest with c :: _ => ~ In c [60; 62; 94] | [] => True end) ->
  exists st, parse_spec (spec_text s ++ 125 :: rest) = Ok (st, 125 :: rest) /\
    fill_ch st = match p_fill s with Some v => v | None => 32 end /\
    align_mode st = match p_align s with Some v => v | None => 0 end /\
    sign_mode st = match p_sign s with Some v => v | None => 45 end /\
    alt_form st = p_alt s /\ zero_pad st = p_zero s /\
    width_val st = match p_width s with Some ds => num 10 ds | None => 0 end /\
    precision st = match p_prec s with Some ds => num 10 ds | None => -1 end /\
    ftype st = match p_type s with Some v => v | None => 103 end.
Proof. intros H F C. exists (state_of s). split; [apply parse_spec_ok; auto|]. repeat split; reflexivity. Qed.

Lemma C98_lemma s rest : spec_ok s -> p_fill s = Some 58 ->
  exists st, parse_spec (spec_text s ++ 125 :: rest) = Ok (st, 125 :: rest) /\
    fill_ch st = 32 /\
    align_mode st = match p_align s with Some v => v | None => 0 end /\
    sign_mode st = match p_sign s with Some v => v | None => 45 end /\
    alt_form st = p_alt s /\ zero_pad st = p_zero s /\
    width_val st = match p_width s with Some ds => num 10 ds | None => 0 end /\
    precision st = match p_prec s with Some ds => num 10 ds | None => -1 end /\
    ftype st = match p_type s with Some v => v | None => 103 end.
Proof. exact (colon_fill s rest). Qed.

(** ** counterexamples *)
Definition st_d : fstate := with_type state0 100.
Definition st_f (p : Z) : fstate := with_prec (with_type state0 102) p.
Definition st_g : fstate := state0.
(* -1.5 with {:d} prints -2 *)
Lemma format_int_refuted : exists m, valid F32 m = true /\ (qval 16 m == (-3) # 2)%Q /\
  format_to F32 st_d m = Ok (txt "-2").
Proof. exists (-98304). vm_compute. repeat split. Qed.
(* -1.5 with {} prints -2.5; 3.25 with {:.0f} prints "3." *)
Lemma format_dec_refuted : exists m, valid F32 m = true /\ (qval 16 m == (-3) # 2)%Q /\
  format_to F32 st_g m = Ok (txt "-2.5").
Proof. exists (-98304). vm_compute. repeat split. Qed.
Lemma format_prec0_refuted : exists m, valid F32 m = true /\ (qval 16 m == 13 # 4)%Q /\
  format_to F32 (st_f 0) m = Ok (txt "3.").
Proof. exists 212992. vm_compute. repeat split. Qed.
(* the specification ":<8" (fill ':') *)
Definition colon_spec : fspec :=
  {| p_fill := Some 58; p_align := Some 60; p_sign := None; p_alt := false; p_zero := false;
     p_width := Some [8]; p_prec := None; p_type := None |}.
Lemma parse_refuted : spec_ok colon_spec /\ spec_text colon_spec = txt ":<8" /\
  exists st, parse_spec (spec_text colon_spec ++ txt "}") = Ok (st, txt "}") /\ fill_ch st <> 58.
Proof.
  split; [|split; [reflexivity|]].
  - unfold spec_ok, colon_spec. cbn [p_fill p_align p_sign p_width p_prec p_type].
    split; [discriminate|]. split; [intros a E; injection E as <-; cbn; auto|]. split; [discriminate|].
    split; [intros ds E; injection E as <-; split; [repeat constructor; lia|split; [vm_compute; discriminate|exists 8, []; split; [reflexivity|lia]]]|].
    split; discriminate.
  - eexists. split; [vm_compute; reflexivity|]. discriminate.
Qed.
(* format("{}< ", 1.0) *)
Lemma empty_refuted : exists rest, format_field F32 65536 (125 :: rest) = Throw format_error.
Proof. exists (txt "< "). vm_compute. reflexivity. Qed.
