(** Facts about the two predefined types, stated once for both. *)
From Coq Require Import ZArith Bool List Lia ZifyBool.
From Verif Require Import Base Fixed Math BaseLemmas FixedLemmas CLemmas MathProofs PowProofs.
Open Scope Z_scope.

Definition std (c : cfg) : Prop := c = F32 \/ c = F64.

Section STD.
Variable c : cfg.
Hypothesis HS : std c.
Let t := ct c.
Let i := ci c.
Let M := 2 ^ cf c.

Lemma std_wf : wf c = true. Proof. destruct HS as [-> | ->]; reflexivity. Qed.
Lemma std_nr : cr c = false. Proof. destruct HS as [-> | ->]; reflexivity. Qed.
Lemma std_t_ok : ity_ok t = true. Proof. unfold t; destruct HS as [-> | ->]; reflexivity. Qed.
Lemma std_i_ok : ity_ok i = true. Proof. unfold i; destruct HS as [-> | ->]; reflexivity. Qed.
Lemma std_pt : promote t = t. Proof. unfold t; destruct HS as [-> | ->]; reflexivity. Qed.
Lemma std_pi : promote i = i. Proof. unfold i; destruct HS as [-> | ->]; reflexivity. Qed.
Lemma std_utt : uac t t = t. Proof. unfold t; destruct HS as [-> | ->]; reflexivity. Qed.
Lemma std_uii : uac i i = i. Proof. unfold i; destruct HS as [-> | ->]; reflexivity. Qed.
Lemma std_uti : uac t i = i. Proof. unfold t, i; destruct HS as [-> | ->]; reflexivity. Qed.
Lemma std_f : 16 <= cf c <= 32. Proof. destruct HS as [-> | ->]; cbn; lia. Qed.
Lemma std_M : 65536 <= M <= 4294967296. Proof. unfold M; destruct HS as [-> | ->]; cbn; lia. Qed.
Lemma std_M2 : M = 2 * 2 ^ (cf c - 1). Proof. unfold M; destruct HS as [-> | ->]; reflexivity. Qed.
(** the range of the store is [-M^2/2, M^2/2) *)
Lemma std_range x : in_range t x = true <-> - (M * M) <= 2 * x < M * M.
Proof.
  rewrite in_range_iff. unfold t, M. destruct HS as [-> | ->]; cbn [ct F32 F64 cf].
  - change (minv int32) with (-2147483648). change (maxv int32) with 2147483647. change (2 ^ 16) with 65536. lia.
  - change (minv int64) with (-9223372036854775808). change (maxv int64) with 9223372036854775807. change (2 ^ 32) with 4294967296. lia.
Qed.
Lemma std_valid x : valid c x = true <-> - (M * M) <= 2 * x < M * M.
Proof. exact (std_range x). Qed.
Lemma std_irange x : - (M * M * (M * M)) <= 2 * x < M * M * (M * M) -> in_range i x = true.
Proof.
  rewrite in_range_iff. unfold i, M. destruct HS as [-> | ->]; cbn [ci F32 F64 cf].
  - change (minv int64) with (-9223372036854775808). change (maxv int64) with 9223372036854775807. change (2 ^ 16) with 65536. lia.
  - change (minv int128) with (-170141183460469231731687303715884105728). change (maxv int128) with 170141183460469231731687303715884105727.
    change (2 ^ 32) with 4294967296. lia.
Qed.
Lemma std_bits : bits t = 2 * cf c. Proof. unfold t; destruct HS as [-> | ->]; reflexivity. Qed.
Lemma std_ibits : bits i = 4 * cf c. Proof. unfold i; destruct HS as [-> | ->]; reflexivity. Qed.

(** operations on in-range operands *)
Lemma s_add x y : valid c x = true -> valid c y = true -> valid c (x + y) = true -> fx_add c x y = Ok (x + y).
Proof. intros. rewrite fx_add_eq by (auto using std_wf). apply ovf_valid; auto using std_wf. Qed.
Lemma s_sub x y : valid c x = true -> valid c y = true -> valid c (x - y) = true -> fx_sub c x y = Ok (x - y).
Proof. intros. rewrite fx_sub_eq by (auto using std_wf). apply ovf_valid; auto using std_wf. Qed.
Lemma s_neg x : valid c x = true -> valid c (- x) = true -> fx_neg c x = Ok (- x).
Proof. intros. rewrite fx_neg_eq by (auto using std_wf). apply ovf_valid; auto using std_wf. Qed.
Lemma s_mul x y : valid c x = true -> valid c y = true -> valid c (x * y / M) = true -> fx_mul c x y = Ok (x * y / M).
Proof. intros. rewrite fx_mul_eq by (auto using std_wf, std_nr). f_equal. apply valid_wrap; auto using std_wf. Qed.
Lemma s_div x y : valid c x = true -> valid c y = true -> y <> 0 -> valid c (Z.quot (x * M) y) = true ->
  fx_div c x y = Ok (Z.quot (x * M) y).
Proof. intros. rewrite fx_div_eq by (auto using std_wf, std_nr). f_equal. apply valid_wrap; auto using std_wf. Qed.
Lemma s_int n : valid c (n * M) = true -> fx_of_int c n = Ok (n * M).
Proof. intros. rewrite fx_of_int_eq by (auto using std_wf). f_equal. apply valid_wrap; auto using std_wf. Qed.
Lemma s_abs x : valid c x = true -> valid c (Z.abs x) = true -> fx_abs c x = Ok (Z.abs x).
Proof. intros. apply abs_ok; auto using std_wf. Qed.
Lemma s_lt x y : valid c x = true -> valid c y = true -> fx_lt c x y = (x <? y).
Proof. apply fx_lt_eq, std_wf. Qed.
Lemma s_gt x y : valid c x = true -> valid c y = true -> fx_gt c x y = (y <? x).
Proof. apply fx_gt_eq, std_wf. Qed.
Lemma s_le x y : valid c x = true -> valid c y = true -> fx_le c x y = (x <=? y).
Proof. apply fx_le_eq, std_wf. Qed.
Lemma s_ge x y : valid c x = true -> valid c y = true -> fx_ge c x y = (y <=? x).
Proof. apply fx_ge_eq, std_wf. Qed.
Lemma s_eq x y : valid c x = true -> valid c y = true -> fx_eq c x y = (x =? y).
Proof. apply fx_eq_eq, std_wf. Qed.
Lemma s_shl x n : 0 <= n < 2 * cf c -> valid c (x * 2 ^ n) = true -> c_shl t x n = Ok (x * 2 ^ n).
Proof.
  intros H V. unfold c_shl. rewrite std_pt, std_bits.
  replace ((0 <=? n) && (n <? 2 * cf c)) with true by (clear - H; lia).
  rewrite shiftl_mul by (clear - H; lia). rewrite wrap_id; auto. apply std_t_ok.
Qed.
Lemma s_shr x n : 0 <= n < 2 * cf c -> c_shr t x n = Ok (x / 2 ^ n).
Proof.
  intros H. unfold c_shr. rewrite std_pt, std_bits.
  replace ((0 <=? n) && (n <? 2 * cf c)) with true by (clear - H; lia).
  rewrite shiftr_div by (clear - H; lia). reflexivity.
Qed.
Lemma si_shr x n : 0 <= n < 4 * cf c -> c_shr i x n = Ok (x / 2 ^ n).
Proof.
  intros H. unfold c_shr. rewrite std_pi, std_ibits.
  replace ((0 <=? n) && (n <? 4 * cf c)) with true by (clear - H; lia).
  rewrite shiftr_div by (clear - H; lia). reflexivity.
Qed.
End STD.
