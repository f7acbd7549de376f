(** Proofs about numeric literals. *)
From Coq Require Import ZArith QArith Bool List String Lia.
From Verif Require Import Base Fixed TextIn Literal Spec SpecText SpecLiteral BaseLemmas SpecLemmas FixedLemmas ArithProofs ConvProofs NumLemmas InLemmas InProofs MathThms.
Import ListNotations.
Open Scope Z_scope.

Lemma digit_char_rng b up d : 0 <= d < b -> b <= 16 -> 48 <= digit_char up d <= 57 \/ 65 <= digit_char up d <= 102.
Proof. intros H B. unfold digit_char. destruct (Z.ltb_spec d 10); [lia|]. destruct up; lia. Qed.

Lemma digit_char_10 up d : 0 <= d < 10 -> digit_char up d = digit_char false d.
Proof. intros H. unfold digit_char. destruct (Z.ltb_spec d 10); [reflexivity|lia]. Qed.

Definition wordy (ch : Z) : Prop := 48 <= ch <= 57 \/ 65 <= ch <= 120 \/ ch = 39.
Lemma seq_wordy b s ds : b <= 16 -> digit_seq b s ds -> Forall wordy s.
Proof.
  intros B H. induction H as [up d H|up d s ds H _ IH|up d s ds H _ IH]; pose proof (digit_char_rng b up d H B).
  - constructor; [unfold wordy; lia|constructor].
  - constructor; [unfold wordy; lia|exact IH].
  - constructor; [unfold wordy; lia|]. constructor; [unfold wordy; lia|exact IH].
Qed.
Lemma int_wordy s n : int_literal s n -> Forall wordy s.
Proof.
  intros [s' ds H _|s' ds H _|x s' ds X H|x s' ds X H]; pose proof (fun B => seq_wordy _ _ _ B H) as W.
  - apply W; lia. - apply W; lia.
  - constructor; [unfold wordy; lia|]. constructor; [unfold wordy; lia|]. apply W; lia.
  - constructor; [unfold wordy; lia|]. constructor; [unfold wordy; lia|]. apply W; lia.
Qed.

(** leading decimal digits *)
Lemma split_digits s : exists ds tail, is_digits 10 ds /\ s = map dch ds ++ tail /\
  (tail = [] \/ exists ch t, tail = ch :: t /\ check_ch ch = false).
Proof.
  induction s as [|ch s (ds & tail & H & -> & T)].
  - exists [], []. split; [constructor|]. auto.
  - destruct (check_ch ch) eqn:C.
    + destruct (check_ch_inv ch C) as (d & Hd & ->). exists (d :: ds), tail. split; [constructor; auto|]. auto.
    + exists [], (ch :: map dch ds ++ tail). split; [constructor|]. split; [reflexivity|]. right. eauto.
Qed.

Lemma num_lt_pow ds : is_digits 10 ds -> num 10 ds < 10 ^ Z.of_nat (List.length ds).
Proof.
  intros H. induction H as [|d ds Hd H IH]; [reflexivity|]. rewrite num_cons. cbn [List.length].
  rewrite Nat2Z.inj_succ, Z.pow_succ_r by lia. nia.
Qed.

Lemma unread s n u : int_literal s n -> ~ all_digits s -> Z.of_nat (List.length s) <= 38 -> f64_numeric_literal s u = Ok u.
Proof.
  intros L NA LEN. pose proof (int_wordy s n L) as WY. destruct (split_digits s) as (ds & tail & HD & -> & T).
  destruct T as [->|(ch & t & -> & CH)].
  { exfalso. apply NA. rewrite app_nil_r. unfold all_digits. apply Forall_map. eapply Forall_impl; [|exact HD].
    intros d Hd. cbv beta in Hd. unfold digit_char. destruct (Z.ltb_spec d 10); lia. }
  assert (WC : wordy ch) by (rewrite Forall_forall in WY; apply WY; apply in_or_app; right; left; reflexivity).
  unfold f64_numeric_literal, literal.
  pose proof (parse_bad_int F64 false ds ch t u) as PB. cbn [app] in PB. rewrite PB; auto.
  - unfold wordy in WC. lia.
  - intros _ _. unfold wordy in WC. lia.
  - pose proof (num_lt_pow ds HD) as N. rewrite app_length, map_length in LEN. cbn [List.length] in LEN.
    assert (P : 10 ^ Z.of_nat (List.length ds) <= 10 ^ 38) by (apply Z.pow_le_mono_r; lia).
    apply Z.le_trans with (10 ^ 38); [lia|]. vm_compute. congruence.
Qed.

Lemma seq_plain s ds : digit_seq 10 s ds -> all_digits s -> s = map dch ds /\ is_digits 10 ds.
Proof.
  intros H. induction H as [up d H|up d s ds H _ IH|up d s ds H _ IH]; intros A; inversion A as [|? ? A1 A2]; subst.
  - rewrite digit_char_10 by auto. split; [reflexivity|]. constructor; [auto|constructor].
  - destruct (IH A2) as [-> D]. cbn [map]. rewrite digit_char_10 by auto. split; [reflexivity|]. constructor; auto.
  - inversion A2; lia.
Qed.

Lemma plain_parse ds u : is_digits 10 ds -> num 10 ds < 2 ^ 31 -> exists m, f64_numeric_literal (map dch ds) u = Ok m /\
  valid F64 m = true /\ (qval 32 m == inject_Z (num 10 ds))%Q.
Proof.
  intros D N. assert (N0 : 0 <= num 10 ds) by (apply (num_nonneg 10 ds); auto; lia).
  assert (Q : (numeral 10 false ds [] == inject_Z (num 10 ds))%Q).
  { unfold numeral. change (Z.of_nat (List.length (@nil Z))) with 0. change (num 10 []) with 0. unfold Qeq, inject_Z; cbn [Qnum Qden].
    change (10 ^ 0) with 1. cbn [Z.to_pos]. ring. }
  destruct (parse_short F64 false ds None u) as (m & E & V & T);
    [reflexivity|vm_compute; congruence|exact D|constructor|discriminate| | |].
  - cbn [frac_of]. rewrite Q. unfold qval, Qlt, inject_Z; cbn [Qnum Qden]. change (hi (bits (ct F64)) (sgn (ct F64)) + 1) with (2 ^ 63).
    change (Zpos (pow2p (cf F64))) with (2 ^ 32). lia.
  - cbn. lia.
  - exists m. unfold f64_numeric_literal, literal. unfold dec_text in E. rewrite app_nil_r in E. cbn [app] in E. rewrite E.
    split; [reflexivity|]. split; [exact V|]. cbn [frac_of] in T.
    assert (T' : is_trunc 32 (qval 32 (num 10 ds * 2 ^ 32)) m).
    { eapply is_trunc_Qeq; [|exact T]. rewrite Q. symmetry. apply MathThms.qval_int; lia. }
    assert (m = num 10 ds * 2 ^ 32).
    { destruct T' as [T1 _]. assert (G : (0 <= qval 32 (num 10 ds * 2 ^ 32))%Q) by (apply qval_sgn; lia).
      specialize (T1 G). destruct T1 as [T1 T2].
      apply MathThms.qval_le in T1. apply MathThms.qval_lt in T2. clear - T1 T2. lia. }
    subst m. apply MathThms.qval_int; lia.
Qed.

Lemma plain_int s n u : int_literal s n -> all_digits s -> (hd 0 s <> 48 \/ s = [48]) -> n < 2 ^ 31 ->
  exists m, f64_numeric_literal s u = Ok m /\ valid F64 m = true /\ (qval 32 m == inject_Z n)%Q.
Proof.
  intros L A O N. inversion L as [s' ds H HN E1 E2|s' ds H HN E1 E2|x s' ds X H E1 E2|x s' ds X H E1 E2]; subst.
  - destruct (seq_plain _ _ H A) as [-> D]. apply plain_parse; auto.
  - assert (s = [48] /\ num 8 ds = 0) as [-> ->].
    { destruct O as [O| ->].
      - exfalso. apply O. clear - H HN. inversion H; subst; cbn in *; subst; unfold digit_char; reflexivity.
      - split; [reflexivity|]. clear - H HN. inversion H as [up d Hd E|up d s ds' Hd H' E|]; subst; cbn in HN; subst; [reflexivity|inversion H']. }
    exists 0. split; [reflexivity|]. split; reflexivity.
  - exfalso. inversion A as [|? ? A1 A2]; subst. inversion A2; subst; lia.
  - exfalso. inversion A as [|? ? A1 A2]; subst. inversion A2; subst; lia.
Qed.

Lemma octal ds u : is_digits 8 ds -> num 10 ds < 2 ^ 31 -> int_literal (map dch (0 :: ds)) (num 8 ds) /\
  exists m, f64_numeric_literal (map dch (0 :: ds)) u = Ok m /\ valid F64 m = true /\ (qval 32 m == inject_Z (num 10 ds))%Q.
Proof.
  intros D N. split.
  - assert (E : num 8 ds = num 8 (0 :: ds)) by reflexivity. rewrite E. apply il_oct; [|reflexivity].
    assert (G : forall d es, is_digits 8 (d :: es) -> digit_seq 8 (map dch (d :: es)) (d :: es)).
    { clear. intros d es; revert d. induction es as [|e es IH]; intros d H; inversion H as [|? ? H1 H2]; subst; [apply (ds_one 8 false); exact H1|].
      apply (ds_next 8 false d (map dch (e :: es)) (e :: es)); [exact H1|apply IH; exact H2]. }
    apply G. constructor; [lia|auto].
  - assert (E : num 10 ds = num 10 (0 :: ds)) by reflexivity. rewrite E in *. apply plain_parse; auto.
    constructor; [lia|]. eapply Forall_impl; [|exact D]. cbv beta. lia.
Qed.

Lemma octal_bad : int_literal (txt "010") 8 /\ forall u, exists m, f64_numeric_literal (txt "010") u = Ok m /\ (qval 32 m == 10)%Q.
Proof.
  split; [apply (octal [1; 0] 0); [repeat constructor; lia|vm_compute; reflexivity]|].
  intros u. exists 42949672960. split; reflexivity.
Qed.

Lemma exponent_bad : exists q, float_literal (txt "1.23456789012e3") q /\ (1234 < q)%Q /\
  forall u, exists m, f64_numeric_literal (txt "1.23456789012e3") u = Ok m /\ (qval 32 m < 2)%Q.
Proof.
  exists (Qmult (numeral 10 false [1] [2;3;4;5;6;7;8;9;0;1;2]) (inject_Z (10 ^ num 10 [3]))).
  split; [|split; [reflexivity|]].
  - apply (fl_exp [49] (map dch [2;3;4;5;6;7;8;9;0;1;2]) [51] [1] [2;3;4;5;6;7;8;9;0;1;2] 101 [3] []); auto.
    + apply (ds_one 10 false 1); lia.
    + cbn [map]. do 10 (apply (ds_next 10 false); [lia|]). apply (ds_one 10 false); lia.
    + apply (ds_one 10 false 3); lia.
  - intros u. eexists. split; [vm_compute; reflexivity|reflexivity].
Qed.

Lemma exponent_unread s t ip fp e tail u : digit_seq 10 s ip -> all_digits s -> digit_seq 10 t fp -> all_digits t ->
  e = 101 \/ e = 69 -> num 10 ip < 2 ^ 31 -> Z.of_nat (List.length fp) <= 9 ->
  f64_numeric_literal (s ++ 46 :: t ++ e :: tail) u = Ok u.
Proof.
  intros HS AS HT AT HE NI LF. destruct (seq_plain _ _ HS AS) as [-> DI]. destruct (seq_plain _ _ HT AT) as [-> DF].
  unfold f64_numeric_literal, literal. pose proof (parse_bad_frac F64 false ip fp e tail u) as PB. cbn [app] in PB. rewrite PB; auto.
  - vm_compute; congruence.
  - destruct HE as [-> | ->]; reflexivity.
  - intros r d ->. rewrite app_length in LF. cbn [List.length] in LF. apply Forall_app in DF. destruct DF as [DR _].
    pose proof (num_lt_pow r DR). assert (10 ^ Z.of_nat (List.length r) <= 10 ^ 8) by (apply Z.pow_le_mono_r; lia).
    apply Z.le_trans with (10 ^ 8); [lia|]. vm_compute. congruence.
  - apply Z.le_trans with (2 ^ 31); [lia|]. vm_compute. congruence.
  - apply Z.le_trans with (10 ^ 9); [apply Z.pow_le_mono_r; lia|]. vm_compute. congruence.
Qed.

Lemma f32_int s n : int_literal s n -> n < 2 ^ 15 -> exists m, f32_int_literal n = Ok m /\ valid F32 m = true /\ (qval 16 m == inject_Z n)%Q.
Proof.
  intros L N. assert (N0 : 0 <= n).
  { assert (G : forall b s ds, 2 <= b -> digit_seq b s ds -> 0 <= num b ds).
    { clear. intros b s ds B H. apply (num_nonneg b ds); auto. induction H; constructor; auto. }
    inversion L; subst; eapply G; try eassumption; lia. }
  unfold f32_int_literal. rewrite fx_of_int_eq by reflexivity. change (cf F32) with 16. change (ct F32) with int32.
  assert (V : valid F32 (n * 2 ^ 16) = true) by (apply in_range_iff; cbn; lia).
  exists (n * 2 ^ 16). rewrite (valid_wrap F32) by auto. split; [reflexivity|]. split; [exact V|]. apply MathThms.qval_int; lia.
Qed.
