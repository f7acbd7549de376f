(** Canonical expansions are unique, so two printers of the canonical expansion agree. *)
From Coq Require Import ZArith Bool List QArith Qabs Lia.
From Verif Require Import Base Fixed Spec SpecText SpecFormat Format TextOut BaseLemmas SpecLemmas FixedLemmas NumLemmas FormatProofs FormatThms RefuteText.
Import ListNotations.
Open Scope Z_scope.

Lemma num_len_inj b : 2 <= b -> forall xs ys, is_digits b xs -> is_digits b ys -> length xs = length ys -> num b xs = num b ys -> xs = ys.
Proof.
  intros B. induction xs as [|x xs IH]; intros [|y ys] X Y L E; try discriminate; [reflexivity|].
  inversion X as [|? ? Hx X']; subst. inversion Y as [|? ? Hy Y']; subst. injection L as L. rewrite !num_cons, L in E.
  pose proof (num_nonneg b xs B X') as Nx. pose proof (num_nonneg b ys B Y') as Ny. rewrite L in Nx.
  set (p := b ^ Z.of_nat (length ys)) in *. assert (x = y) by nia. subst y. f_equal. apply IH; auto. lia.
Qed.
Lemma canon_len b ds : 2 <= b -> is_digits b ds -> (ds = [0] \/ exists d r, ds = d :: r /\ d <> 0) ->
  num b ds = 0 /\ length ds = 1%nat \/ b ^ (Z.of_nat (length ds) - 1) <= num b ds.
Proof.
  intros B D [->|(d & r & -> & N)].
  - left. split; reflexivity.
  - right. inversion D as [|? ? Hd Hr]; subst. rewrite num_cons. cbn [length]. rewrite Nat2Z.inj_succ.
    replace (Z.succ (Z.of_nat (length r)) - 1) with (Z.of_nat (length r)) by lia.
    pose proof (num_nonneg b r B Hr). pose proof (pow_len_pos b r B). nia.
Qed.
Lemma canon_inj b xs ys : 2 <= b -> is_digits b xs -> is_digits b ys -> (xs = [0] \/ exists d r, xs = d :: r /\ d <> 0) ->
  (ys = [0] \/ exists d r, ys = d :: r /\ d <> 0) -> num b xs = num b ys -> xs = ys.
Proof.
  intros B X Y CX CY E. apply (num_len_inj b); auto.
  pose proof (num_nonneg b xs B X) as NX. pose proof (num_nonneg b ys B Y) as NY.
  assert (LX : (1 <= length xs)%nat) by (destruct CX as [->|(d & r & -> & _)]; cbn [length]; lia).
  assert (LY : (1 <= length ys)%nat) by (destruct CY as [->|(d & r & -> & _)]; cbn [length]; lia).
  assert (Q : forall n m : nat, (1 <= m)%nat -> b ^ (Z.of_nat n - 1) < b ^ Z.of_nat m -> (n <= m)%nat).
  { intros n m M H. apply Z.pow_lt_mono_r_iff in H; lia. }
  assert (P1 : forall n : nat, (1 <= n)%nat -> 1 <= b ^ (Z.of_nat n - 1)).
  { intros n N. pose proof (Z.pow_pos_nonneg b (Z.of_nat n - 1)). lia. }
  destruct (canon_len b xs B X CX) as [[X0 X1]|X1]; destruct (canon_len b ys B Y CY) as [[Y0 Y1]|Y1].
  - congruence.
  - exfalso. specialize (P1 _ LY). lia.
  - exfalso. specialize (P1 _ LX). lia.
  - apply Nat.le_antisymm; apply Q; auto; lia.
Qed.
Lemma num_rep0 b k : num b (repeat 0 k) = 0.
Proof. induction k; [reflexivity|]. cbn [repeat]. rewrite num_cons, IHk. lia. Qed.
Lemma frac_inj_le b xs ys : 2 <= b -> is_digits b xs -> is_digits b ys -> (length xs <= length ys)%nat ->
  (ys = [] \/ exists d r, ys = r ++ [d] /\ d <> 0) ->
  num b xs * b ^ Z.of_nat (length ys) = num b ys * b ^ Z.of_nat (length xs) -> xs = ys.
Proof.
  intros B X Y L CY E. set (k := (length ys - length xs)%nat).
  assert (Z0 : xs ++ repeat 0 k = ys).
  { apply (num_len_inj b); auto.
    - apply is_digits_app. split; auto. clear - B. induction k; constructor; [lia|auto].
    - rewrite app_length, repeat_length. unfold k. lia.
    - rewrite num_app, num_rep0, repeat_length, Z.add_0_r.
      replace (Z.of_nat (length ys)) with (Z.of_nat (length xs) + Z.of_nat k) in E by (unfold k; lia).
      rewrite Z.pow_add_r in E by lia. pose proof (pow_len_pos b xs B). nia. }
  destruct k as [|k]; [cbn [repeat] in Z0; rewrite app_nil_r in Z0; exact Z0|].
  exfalso. destruct CY as [->|(d & r & -> & N)].
  - destruct xs; discriminate.
  - replace (repeat 0 (S k)) with (repeat 0 k ++ [0]) in Z0 by (clear; induction k; [reflexivity|cbn; rewrite IHk; reflexivity]).
    rewrite app_assoc in Z0. apply app_inj_tail in Z0. destruct Z0 as [_ Z0]. congruence.
Qed.
Lemma frac_inj b xs ys : 2 <= b -> is_digits b xs -> is_digits b ys ->
  (xs = [] \/ exists d r, xs = r ++ [d] /\ d <> 0) -> (ys = [] \/ exists d r, ys = r ++ [d] /\ d <> 0) ->
  num b xs * b ^ Z.of_nat (length ys) = num b ys * b ^ Z.of_nat (length xs) -> xs = ys.
Proof.
  intros B X Y CX CY E. destruct (Nat.le_ge_cases (length xs) (length ys)) as [L|L].
  - apply (frac_inj_le b); auto.
  - symmetry. apply (frac_inj_le b); auto.
Qed.

Lemma numeral_neg b neg ip fp : (numeral b neg ip fp == if neg then - numeral b false ip fp else numeral b false ip fp)%Q.
Proof. unfold numeral. destruct neg; reflexivity. Qed.
(** there is only one canonical expansion *)
Theorem expansion_fun b up s s' q q' : 2 <= b -> expansion b up s q -> expansion b up s' q' -> (q == q')%Q -> s = s'.
Proof.
  intros B (neg & ip & fp & DI & DF & -> & V & NG & CI & CF) (neg' & ip' & fp' & DI' & DF' & -> & V' & NG' & CI' & CF') EQ.
  assert (EN : neg = neg').
  { destruct neg, neg'; try reflexivity; exfalso.
    - assert (false = true); [|discriminate]. apply NG'. rewrite <- EQ. apply NG. reflexivity.
    - assert (false = true); [|discriminate]. apply NG. rewrite EQ. apply NG'. reflexivity. }
  subst neg'. assert (EV : (numeral b false ip fp == numeral b false ip' fp')%Q).
  { rewrite numeral_neg in V, V'. destruct neg.
    - rewrite <- (Qopp_involutive (numeral b false ip fp)), <- (Qopp_involutive (numeral b false ip' fp')), V, V', EQ. reflexivity.
    - rewrite V, V', EQ. reflexivity. }
  unfold numeral, Qeq in EV. cbn [Qnum Qden] in EV. rewrite !Z2Pos.id in EV by (apply pow_len_pos; auto).
  pose proof (num_nonneg b fp B DF) as F1. pose proof (num_nonneg b fp' B DF') as F2.
  assert (EI : num b ip = num b ip').
  { clear - EV F1 F2. set (p := b ^ Z.of_nat (length fp)) in *. set (p' := b ^ Z.of_nat (length fp')) in *.
    set (u := num b ip) in *. set (v := num b ip') in *. assert (0 < p * p') by nia.
    assert ((u - v) * (p * p') = num b fp' * p - num b fp * p') by nia.
    assert (num b fp' * p < p * p') by nia. assert (num b fp * p' < p * p') by nia.
    assert (0 <= num b fp' * p) by nia. assert (0 <= num b fp * p') by nia. nia. }
  assert (EF : num b fp * b ^ Z.of_nat (length fp') = num b fp' * b ^ Z.of_nat (length fp)) by (rewrite EI in EV; lia).
  rewrite (canon_inj b ip ip'), (frac_inj b fp fp'); auto.
Qed.

(** std::format with enough precision prints what operator<< prints *)
Lemma padded_none w fill al body out : w <= 0 -> padded w fill al body out -> out = body.
Proof.
  intros W (l & r & -> & L & _). rewrite !app_length, !repeat_length in L. assert (l = 0%nat /\ r = 0%nat) as [-> ->] by lia.
  cbn [repeat app]. apply app_nil_r.
Qed.
Theorem format_eq_stream c st m up : wf c = true -> valid c m = true -> sgn (ct c) = true -> cf c <= bits (ct c) - 2 ->
  10 * (2 ^ cf c - 1) <= hi (bits (ct c)) (sgn (ct c)) -> In (ftype st) [103; 71] -> cf c <= precision st ->
  fits 32 true (width_val st) -> width_val st <= 0 ->
  let x := qval (cf c) m in
  (0 <= x)%Q /\ sign_mode st <> 43 /\ sign_mode st <> 32 \/ is_int x /\ (x < 0)%Q /\ (qval (cf c) (lo (bits (ct c)) true + 2 ^ cf c) <= x)%Q ->
  exists s, format_to c st m = Ok s /\ stream_out c false true false up m = Ok s.
Proof.
  intros W V S F T TY PR FW W0 x HX. assert (F0 : 0 <= cf c) by (destruct (wf_bnd c W) as (_ & _ & _ & _ & _ & X); clear - X; lia).
  destruct (print_dec c m up W V S T F) as (s & ES & XS). exists s.
  assert (DT : dec_type (ftype st)) by (unfold dec_type; cbn [In] in TY |- *; tauto).
  destruct (C73_lemma c st m W V FW T DT) as (neg & ip & fp & dot & out & EO & DI & DF & CI & NG & DO & (K & TR & G & _) & PD).
  { destruct HX as [[H _]|[H _]]; [left|right]; exact H. }
  { intros _. split; [exact F|]. destruct HX as [[H _]|(_ & _ & H)]; [|exact H]. apply Qle_trans with 0%Q; [|exact H].
    unfold qval, Qle. cbn [Qnum Qden]. unfold lo. assert (2 ^ cf c <= 2 ^ (bits (ct c) - 1)) by (apply Z.pow_le_mono_r; lia). lia. }
  rewrite EO. split; [|exact ES]. f_equal. apply padded_none in PD; [|exact W0]. rewrite PD.
  replace (precision st <? 0) with false in * by (symmetry; apply Z.ltb_ge; lia).
  set (k := Z.of_nat (List.length fp)) in *. assert (K0 : 0 <= k) by (unfold k; lia).
  destruct (G TY) as [G1 G2]. assert (EX : (dval k (num 10 (ip ++ fp)) == Qabs x)%Q).
  { destruct G1 as [G1|G1]; [|exact G1]. unfold x in TR |- *. unfold dec_trunc in TR.
    change (Qabs (qval (cf c) m)) with (qval (cf c) (Z.abs m)) in TR |- *. apply dec_trunc_raw in TR; auto.
    unfold dval, qval, Qeq. cbn [Qnum Qden]. rewrite pow2p_pos by auto. rewrite Z2Pos.id by (apply Z.pow_pos_nonneg; lia).
    assert (PK : 10 ^ k = 2 ^ cf c * (5 ^ cf c * 10 ^ (k - cf c))).
    { rewrite Z.mul_assoc, <- Z.pow_mul_l. change (2 * 5) with 10. rewrite <- Z.pow_add_r by lia. f_equal. lia. }
    rewrite PK in TR |- *. set (w := 5 ^ cf c * 10 ^ (k - cf c)) in *. set (A := num 10 (ip ++ fp)) in *.
    assert (DP : 0 < 2 ^ cf c) by (apply Z.pow_pos_nonneg; lia). set (D := 2 ^ cf c) in *.
    assert (E1 : A = Z.abs m * w) by (clear - TR DP; nia). rewrite E1. ring. }
  assert (XO : expansion 10 up (sign_text (sign_mode st) neg ++ dgs ip ++ dot ++ dgs fp) x).
  { exists neg, ip, fp. split; [exact DI|]. split; [exact DF|]. split.
    - unfold render. rewrite !(dgs_up up) by auto. f_equal.
      + destruct neg; [reflexivity|]. destruct HX as [(_ & H1 & H2)|(_ & H & _)].
        * unfold sign_text. destruct (Z.eqb_spec (sign_mode st) 43); [contradiction|]. destruct (Z.eqb_spec (sign_mode st) 32); [contradiction|reflexivity].
        * apply NG in H. discriminate.
      + f_equal. destruct DO as [(-> & _ & ->)|(-> & DO)]; [reflexivity|]. destruct fp as [|d fp]; [|reflexivity].
        exfalso. destruct DO as [DO|DO]; [|apply DO; reflexivity]. apply DO. exists (if neg then - num 10 (ip ++ []) else num 10 (ip ++ [])).
        unfold k in EX. cbn [List.length] in EX. unfold dval in EX. change (Z.to_pos (10 ^ Z.of_nat 0)) with 1%positive in EX.
        destruct neg.
        * assert (L : (x < 0)%Q) by (apply NG; reflexivity). rewrite Qabs_neg in EX by (apply Qlt_le_weak, L).
          transitivity (- - x)%Q; [symmetry; apply Qopp_involutive|]. rewrite <- EX. reflexivity.
        * assert (L : (0 <= x)%Q) by (destruct (Qlt_le_dec x 0) as [L|L]; [apply NG in L; discriminate|exact L]).
          rewrite Qabs_pos in EX by exact L. symmetry. exact EX.
    - split; [|split; [exact NG|split; [exact CI|apply G2, EX]]].
      assert (NV : (numeral 10 false ip fp == Qabs x)%Q).
      { rewrite <- EX. unfold numeral, dval. rewrite num_app. reflexivity. }
      eapply Qeq_trans; [apply numeral_neg|]. destruct neg.
      + assert (L : (x < 0)%Q) by (apply NG; reflexivity). rewrite NV, Qabs_neg by (apply Qlt_le_weak, L). apply Qopp_involutive.
      + assert (L : (0 <= x)%Q) by (destruct (Qlt_le_dec x 0) as [L|L]; [apply NG in L; discriminate|exact L]).
        rewrite NV. apply Qabs_pos, L. }
  apply (expansion_fun 10 up _ _ x x); [lia|exact XO|exact XS|reflexivity].
Qed.
