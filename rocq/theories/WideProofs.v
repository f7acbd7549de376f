(** Proofs about reading from streams of wide characters (Wide). *)
From Coq Require Import ZArith Bool Lia List.
From Verif Require Import Base Fixed TextIn Wide Spec SpecText BaseLemmas CLemmas FixedLemmas SpecLemmas NumLemmas
  InLemmas InProofs StreamProofs.
Import ListNotations.
Open Scope Z_scope.

(** the generic model at char is the one of TextIn.v *)
Lemma g_int_narrow t fuel : forall st acc, g_int_loop fuel int8 t st acc = s_int_loop fuel t st acc.
Proof.
  induction fuel as [|k IH]; intros st acc; [reflexivity|]. cbn [g_int_loop s_int_loop].
  destruct (s_has_next st) as [h st1]. destruct h; [|reflexivity]. unfold g_peek, s_peek.
  destruct (is_peek st1) as [v st2]. destruct (wrap int8 v =? 46); [reflexivity|].
  destruct (is_peek st2) as [v2 st3]. destruct (isdigit (wrap int8 v2)); cbn [bind]; auto.
  destruct (negb a); [reflexivity|]. unfold g_next, s_next. destruct (is_get st3) as [v4 st4].
  destruct (push_digit t acc (wrap int8 v4)); cbn [bind]; auto.
Qed.
Lemma g_dec_narrow t tm lim fuel : forall st dec div, g_dec_loop fuel int8 t tm lim st dec div = s_dec_loop fuel t tm lim st dec div.
Proof.
  induction fuel as [|k IH]; intros st dec div; [reflexivity|]. cbn [g_dec_loop s_dec_loop].
  destruct (s_has_next st) as [h st1]. destruct h; [|reflexivity]. destruct (c_lt tm t lim dec); [reflexivity|].
  unfold g_peek, s_peek. destruct (is_peek st1) as [v st2]. destruct (isdigit (wrap int8 v)); cbn [bind]; auto.
  destruct (negb a); [reflexivity|]. unfold g_next, s_next. destruct (is_get st2) as [v4 st4].
  destruct (push_digit t dec (wrap int8 v4)); cbn [bind]; auto. destruct (c_mul t int32 div 10); cbn [bind]; auto.
Qed.
Lemma narrow c st fp : read_in int8 c st fp = stream_in c st fp.
Proof.
  unfold read_in, stream_in. destruct (s_has_next st) as [h st1]. destruct (negb h); [reflexivity|].
  unfold g_peek, s_peek, g_next, s_next. destruct (is_peek st1) as [v st2].
  destruct (if wrap int8 v =? 45
            then let '(_, st0) := let '(v0, st0) := is_get st2 in (wrap int8 v0, st0) in (true, st0)
            else (false, st2)) as [ng st3].
  rewrite g_int_narrow. destruct (s_int_loop (S (length (rest st))) (ct c) st3 0); cbn [bind]; auto.
  destruct a as [ip st4]. destruct (s_has_next st4) as [h2 st5].
  destruct (if h2 then let '(ch, st0) := let '(v0, st0) := is_peek st5 in (wrap int8 v0, st0) in (ch =? 46, st0) else (false, st5)) as [dot st6].
  destruct dot; [|reflexivity]. destruct (is_get st6) as [v7 st7].
  destruct (c_shl (ct c) 1 (cf c)); cbn [bind]; auto. destruct (c_sub (promote (ct c)) (ct c) a 1); cbn [bind]; auto.
  destruct (c_div (promote (ct c)) int32 a0 10); cbn [bind]; auto. rewrite g_dec_narrow. reflexivity.
Qed.

(** on ASCII text the character type does not matter *)
Definition same (w : ity) : Prop := forall ch, -1 <= ch < 128 -> wrap w ch = ch.
Lemma same8 : same int8.
Proof. intros ch H. destruct (Z.eq_dec ch (-1)) as [-> |]; [reflexivity|]. apply wrap8. lia. Qed.
Lemma same32 : same int32.
Proof. intros ch H. destruct (Z.eq_dec ch (-1)) as [-> |]; [reflexivity|]. apply nn_wrap; [reflexivity|]. cbn. lia. Qed.
Definition good_st (st : istream) : Prop := ascii (rest st).
Lemma peek_good st : good_st st -> -1 <= fst (is_peek st) < 128 /\ good_st (snd (is_peek st)).
Proof.
  unfold good_st, is_peek. intros A. destruct (good st); [|cbn; split; [lia|exact A]].
  destruct (rest st) as [|ch r] eqn:E; cbn; [split; [lia|constructor]|]. rewrite E. split; [inversion A; lia|exact A].
Qed.
Lemma get_good st : good_st st -> -1 <= fst (is_get st) < 128 /\ good_st (snd (is_get st)).
Proof.
  unfold good_st, is_get. intros A. destruct (good st); [|cbn; split; [lia|exact A]].
  destruct (rest st) as [|ch r] eqn:E; cbn; [split; [lia|constructor]|]. split; inversion A; [lia|assumption].
Qed.
Lemma has_good st : good_st st -> good_st (snd (s_has_next st)).
Proof. intros A. pose proof (peek_good st A) as [_ G]. unfold s_has_next. destruct (is_peek st); exact G. Qed.

Section Same.
Variables w1 w2 : ity.
Hypothesis (W1 : same w1) (W2 : same w2).
Lemma g_peek_same st : good_st st -> g_peek w1 st = g_peek w2 st /\ good_st (snd (g_peek w2 st)).
Proof using All. intros A. pose proof (peek_good st A) as [R G]. unfold g_peek. destruct (is_peek st) as [v s]. cbn in *. rewrite W1, W2 by auto. auto. Qed.
Lemma g_next_same st : good_st st -> g_next w1 st = g_next w2 st /\ good_st (snd (g_next w2 st)).
Proof using All. intros A. pose proof (get_good st A) as [R G]. unfold g_next. destruct (is_get st) as [v s]. cbn in *. rewrite W1, W2 by auto. auto. Qed.
Lemma g_int_same t fuel : forall st acc, good_st st ->
  g_int_loop fuel w1 t st acc = g_int_loop fuel w2 t st acc /\
  (forall p, g_int_loop fuel w2 t st acc = Ok p -> good_st (snd p)).
Proof using All.
  induction fuel as [|k IH]; intros st acc A; [split; [reflexivity|discriminate]|]. cbn [g_int_loop].
  pose proof (has_good st A) as A1. destruct (s_has_next st) as [h st1]. cbn in A1.
  destruct h; [|split; [reflexivity|intros p E; injection E as <-; exact A1]].
  destruct (g_peek_same st1 A1) as [-> A2]. destruct (g_peek w2 st1) as [ch st2]. cbn in A2.
  destruct (ch =? 46); [split; [reflexivity|intros p E; injection E as <-; exact A2]|].
  destruct (g_peek_same st2 A2) as [-> A3]. destruct (g_peek w2 st2) as [ch2 st3]. cbn in A3.
  destruct (isdigit ch2); cbn [bind]; try (split; [reflexivity|discriminate]).
  destruct (negb a); [split; [reflexivity|intros p E; injection E as <-; exact A3]|].
  destruct (g_next_same st3 A3) as [-> A4]. destruct (g_next w2 st3) as [ch4 st4]. cbn in A4.
  destruct (push_digit t acc ch4); cbn [bind]; try (split; [reflexivity|discriminate]). apply IH. exact A4.
Qed.
Lemma g_dec_same t tm lim fuel : forall st dec div, good_st st ->
  g_dec_loop fuel w1 t tm lim st dec div = g_dec_loop fuel w2 t tm lim st dec div.
Proof using All.
  induction fuel as [|k IH]; intros st dec div A; [reflexivity|]. cbn [g_dec_loop].
  pose proof (has_good st A) as A1. destruct (s_has_next st) as [h st1]. cbn in A1. destruct h; [|reflexivity].
  destruct (c_lt tm t lim dec); [reflexivity|].
  destruct (g_peek_same st1 A1) as [-> A2]. destruct (g_peek w2 st1) as [ch st2]. cbn in A2.
  destruct (isdigit ch); cbn [bind]; auto. destruct (negb a); [reflexivity|].
  destruct (g_next_same st2 A2) as [-> A4]. destruct (g_next w2 st2) as [ch4 st4]. cbn in A4.
  destruct (push_digit t dec ch4); cbn [bind]; auto. destruct (c_mul t int32 div 10); cbn [bind]; auto.
Qed.
Lemma read_same c st fp : good_st st -> read_in w1 c st fp = read_in w2 c st fp.
Proof using All.
  intros A. unfold read_in. pose proof (has_good st A) as A1. destruct (s_has_next st) as [h st1]. cbn in A1.
  destruct (negb h); [reflexivity|].
  destruct (g_peek_same st1 A1) as [-> A2]. destruct (g_peek w2 st1) as [ch st2]. cbn in A2.
  destruct (g_next_same st2 A2) as [-> A3]. 
  assert (A4 : good_st (snd (if ch =? 45 then let '(_, st0) := g_next w2 st2 in (true, st0) else (false, st2)))).
  { destruct (ch =? 45); [|exact A2]. destruct (g_next w2 st2); exact A3. }
  destruct (if ch =? 45 then let '(_, st0) := g_next w2 st2 in (true, st0) else (false, st2)) as [ng st3]. cbn [snd] in A4.
  destruct (g_int_same (ct c) (S (length (rest st))) st3 0 A4) as [-> K].
  destruct (g_int_loop (S (length (rest st))) w2 (ct c) st3 0) as [a| | |] eqn:EI; cbn [bind]; auto.
  specialize (K _ eq_refl). destruct a as [ip st4]. cbn [snd] in K.
  pose proof (has_good st4 K) as A5. destruct (s_has_next st4) as [h2 st5]. cbn [snd] in A5.
  destruct (g_peek_same st5 A5) as [-> A6].
  assert (A7 : good_st (snd (if h2 then let '(ch0, st0) := g_peek w2 st5 in (ch0 =? 46, st0) else (false, st5)))).
  { destruct h2; [|exact A5]. destruct (g_peek w2 st5); exact A6. }
  destruct (if h2 then let '(ch0, st0) := g_peek w2 st5 in (ch0 =? 46, st0) else (false, st5)) as [dot st6]. cbn [snd] in A7.
  destruct dot; [|reflexivity].
  destruct (g_next_same st6 A7) as [-> A8]. destruct (g_next w2 st6) as [ch8 st8]. cbn [snd] in A8.
  destruct (c_shl (ct c) 1 (cf c)); cbn [bind]; auto. destruct (c_sub (promote (ct c)) (ct c) a 1); cbn [bind]; auto.
  destruct (c_div (promote (ct c)) int32 a0 10); cbn [bind]; auto. rewrite g_dec_same by exact A8. reflexivity.
Qed.
End Same.

Lemma wide_same c s fp eof fail : ascii s ->
  wide_in c {| rest := s; eofbit := eof; failbit := fail |} fp = stream_in c {| rest := s; eofbit := eof; failbit := fail |} fp.
Proof. intros A. rewrite <- narrow. apply read_same; [apply same32|apply same8|exact A]. Qed.

Lemma peek_at w ch s : g_peek w (mk (ch :: s)) = (wrap w ch, mk (ch :: s)).
Proof. reflexivity. Qed.
(** a character isdigit may not be called with, after any digits *)
Section Foreign.
Variable w : ity.
Variable bad : Z.
Hypothesis (W : same w) (B : isdigit (wrap w bad) = UB).
Lemma pd_ub t acc ch : push_digit t acc ch = UB \/ exists a, push_digit t acc ch = Ok a.
Proof using All.
  unfold push_digit, c_mul, c_add, c_sub, arith.
  repeat match goal with |- context [if ?b then _ else _] => destruct b; cbn [bind] end; eauto.
Qed.
Lemma bad46 : (wrap w bad =? 46) = false.
Proof using All. apply Z.eqb_neq. intros E. rewrite E in B. discriminate B. Qed.
Lemma int_foreign t tail : forall ds, is_digits 10 ds -> forall fuel acc, (length ds < fuel)%nat ->
  g_int_loop fuel w t (mk (map (digit_char false) ds ++ bad :: tail)) acc = UB.
Proof using All.
  intros ds H. induction H as [|d ds Hd H IH]; intros fuel acc L; destruct fuel as [|fuel]; try (cbn in L; lia).
  - cbn [map app g_int_loop]. rewrite has_cons. cbv iota beta. rewrite peek_at. cbv iota beta. rewrite bad46.
    rewrite peek_at. cbv iota beta. rewrite B. reflexivity.
  - cbn [map app g_int_loop]. rewrite has_cons. cbv iota beta. rewrite peek_at. cbv iota beta.
    assert (D : digit_char false d = d + 48) by (unfold digit_char; replace (d <? 10) with true by lia; reflexivity).
    rewrite D. rewrite W by lia. replace (d + 48 =? 46) with false by lia. rewrite peek_at. cbv iota beta. rewrite W by lia.
    rewrite isdigit_ok by lia. unfold check_ch. replace ((48 <=? d + 48) && (d + 48 <=? 57)) with true by lia. cbn [negb bind].
    unfold g_next, is_get. cbn [good mk eofbit failbit negb andb rest]. rewrite W by lia.
    destruct (pd_ub t acc (d + 48)) as [E|[a E]]; rewrite E; cbn [bind]; [reflexivity|].
    apply (IH fuel a). cbn in L. lia.
Qed.
Lemma foreign c (neg : bool) ds tail fp : is_digits 10 ds -> wrap w bad <> 45 \/ neg = true \/ ds <> [] ->
  read_in w c (mk ((if neg then [45] else []) ++ map (digit_char false) ds ++ bad :: tail)) fp = UB.
Proof using All.
  intros H N. unfold read_in. cbn [rest mk].
  destruct neg.
  - cbn [app]. rewrite has_cons. cbv iota beta. cbn [negb]. cbv iota beta. rewrite peek_at. cbv iota beta.
    rewrite (W 45) by lia. cbn [Z.eqb Pos.eqb]. cbv iota. unfold g_next, is_get. cbn [good mk eofbit failbit negb andb rest].
    fold (mk (map (digit_char false) ds ++ bad :: tail)).
    rewrite int_foreign; [reflexivity|exact H|]. cbn [length]. rewrite app_length, map_length. lia.
  - cbn [app].
    assert (E : exists ch r, map (digit_char false) ds ++ bad :: tail = ch :: r /\ (wrap w ch =? 45) = false).
    { destruct ds as [|d ds]; cbn [map app]; eexists _, _; (split; [reflexivity|]).
      - apply Z.eqb_neq. intros E. rewrite E in B. discriminate B.
      - inversion H; subst. assert (D : digit_char false d = d + 48) by (unfold digit_char; replace (d <? 10) with true by lia; reflexivity).
        rewrite D, W by lia. lia. }
    destruct E as (ch & r & E & N1). pose proof (int_foreign (ct c) tail ds H (S (length (map (digit_char false) ds ++ bad :: tail))) 0) as I.
    rewrite E in *. rewrite has_cons. cbn [negb]. cbv iota beta. rewrite peek_at. cbv iota beta. rewrite N1.
    rewrite I; [reflexivity|]. rewrite <- E, app_length, map_length. lia.
Qed.
End Foreign.

Lemma foreign_wide c (neg : bool) ds ch tail fp : is_digits 10 ds -> 255 < ch < 2 ^ 31 ->
  wide_in c (mk ((if neg then [45] else []) ++ map (digit_char false) ds ++ ch :: tail)) fp = UB.
Proof.
  intros H R. assert (E : wrap int32 ch = ch) by (apply nn_wrap; [reflexivity|cbn; lia]).
  apply foreign; [apply same32| |exact H|].
  - rewrite E. unfold isdigit. replace ((-1 <=? ch) && (ch <=? 255)) with false by lia. reflexivity.
  - left. rewrite E. lia.
Qed.
Lemma foreign_narrow c (neg : bool) ds ch tail fp : is_digits 10 ds -> 128 <= ch < 255 ->
  stream_in c (mk ((if neg then [45] else []) ++ map (digit_char false) ds ++ ch :: tail)) fp = UB.
Proof.
  intros H R. rewrite <- narrow.
  assert (E : wrap int8 ch = ch - 256).
  { unfold wrap. cbn [sgn int8 bits]. change (2 ^ (8 - 1)) with 128. change (2 ^ 8) with 256.
    replace (ch + 128) with ((ch - 128) + 1 * 256) by lia. rewrite Z.mod_add, Z.mod_small by lia. lia. }
  apply foreign; [apply same8| |exact H|].
  - rewrite E. unfold isdigit. replace ((-1 <=? ch - 256) && (ch - 256 <=? 255)) with false by lia. reflexivity.
  - left. rewrite E. lia.
Qed.
(** characters 128..255 end a number in a wide stream *)
Lemma latin1_ends c ch tail fp : wf c = true -> 128 <= ch <= 255 -> wide_in c (mk (ch :: tail)) fp = Ok (0, mk (ch :: tail)).
Proof.
  intros W R. unfold wide_in, read_in. rewrite has_cons. cbn [negb]. cbv iota beta. rewrite peek_at. cbv iota beta.
  assert (E : wrap int32 ch = ch) by (apply nn_wrap; [reflexivity|cbn; lia]). rewrite E. replace (ch =? 45) with false by lia.
  cbn [g_int_loop rest mk length]. rewrite has_cons. cbv iota beta. rewrite peek_at. cbv iota beta. rewrite E.
  replace (ch =? 46) with false by lia. rewrite peek_at. cbv iota beta. rewrite E.
  unfold isdigit. replace ((-1 <=? ch) && (ch <=? 255)) with true by lia. cbn [bind].
  replace ((48 <=? ch) && (ch <=? 57)) with false by lia. cbn [negb bind]. rewrite has_cons. cbv iota beta. rewrite peek_at. cbv iota beta.
  rewrite E. replace (ch =? 46) with false by lia. cbv iota.
  destruct (wf_bnd c W) as (BB & K & KI & B2 & SE & F1). pose proof (maxv_pos _ K) as M7.
  rewrite (c_shl_nn (ct c) 0 (cf c) K); [|clear - F1; lia|clear; lia|clear - M7; lia]. cbn [bind].
  rewrite Z.mul_0_l, nn_wrap by (auto; clear - M7; lia). reflexivity.
Qed.
