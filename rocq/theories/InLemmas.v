(** Loop lemmas for the parsers (TextIn). *)
From Coq Require Import ZArith Bool Lia List QArith.
From Verif Require Import Base Fixed Spec SpecText TextIn BaseLemmas CLemmas FixedLemmas NumLemmas.
Import ListNotations.
Open Scope Z_scope.

Notation dch := (digit_char false).

Lemma dch_eq d : 0 <= d < 10 -> dch d = d + 48.
Proof. intros. unfold digit_char. destruct (Z.ltb_spec d 10); lia. Qed.
Lemma dch_check d : 0 <= d < 10 -> check_ch (dch d) = true /\ (dch d =? 46) = false /\ (dch d =? 45) = false.
Proof. intros. rewrite dch_eq by auto. unfold check_ch. lia. Qed.
Lemma check_ch_inv ch : check_ch ch = true -> exists d, 0 <= d < 10 /\ ch = dch d.
Proof. unfold check_ch. intros. exists (ch - 48). rewrite dch_eq; lia. Qed.

Lemma push_digit_ok t acc d : ity_ok t = true -> 0 <= acc -> 0 <= d < 10 -> acc * 10 + d <= maxv t ->
  push_digit t acc (dch d) = Ok (acc * 10 + d).
Proof.
  intros K A D M. rewrite dch_eq by auto. unfold push_digit.
  assert (K2 : ity_ok int32 = true) by reflexivity.
  pose proof (maxv_uac_l t int32 K K2) as L1.
  pose proof (uac_ok t int32 K K2) as K3.
  pose proof (maxv_uac_l (uac t int32) int32 K3 K2) as L2.
  rewrite nn_mul; auto; [ | clear - A D M; lia | cbn; lia | clear - A D M L1; lia].
  cbn [bind].
  replace (c_sub int32 int32 (d + 48) 48) with (Ok d).
  2:{ symmetry. rewrite nn_sub; auto; [f_equal; clear; lia | cbn; clear - D; lia | cbn; lia | clear - D; lia]. }
  cbn [bind].
  rewrite nn_add; auto; [ | clear - A D M L1; lia | cbn; clear - D; lia | clear - A D M L1 L2; lia].
  cbn [bind]. rewrite nn_wrap by (auto; clear - A D M; lia). reflexivity.
Qed.

Definition ends (tail : list Z) : Prop := tail = [] \/ exists r, tail = 46 :: r.

Lemma int_strict_digits t ds tail : ity_ok t = true -> ends tail -> is_digits 10 ds ->
  forall acc, 0 <= acc -> acc * 10 ^ Z.of_nat (length ds) + num 10 ds <= maxv t ->
  int_strict t (map dch ds ++ tail) acc = Ok (Some (acc * 10 ^ Z.of_nat (length ds) + num 10 ds, tail)).
Proof.
  intros K E H. induction H as [|d ds Hd H IH]; intros acc A M.
  - cbn [map app length]. change (num 10 []) with 0. change (10 ^ Z.of_nat 0) with 1.
    replace (acc * 1 + 0) with acc by ring.
    destruct E as [->|(r & ->)]; reflexivity.
  - cbn [map app int_strict]. destruct (dch_check d Hd) as (-> & -> & _). cbn [negb].
    rewrite num_cons in M |- *. cbn [length] in M |- *.
    rewrite Nat2Z.inj_succ, Z.pow_succ_r in M |- * by (clear; lia).
    pose proof (num_nonneg 10 ds ltac:(lia) H) as NN.
    set (p := 10 ^ Z.of_nat (length ds)) in *.
    rewrite push_digit_ok; auto; [|clear - A Hd M NN; nia]. cbn [bind].
    rewrite IH.
    + do 3 f_equal. fold p. ring.
    + clear - A Hd. lia.
    + fold p. replace ((acc * 10 + d) * p + num 10 ds) with (acc * (10 * p) + (d * p + num 10 ds)) by ring. exact M.
Qed.

Lemma int_strict_bad t ds ch tail : ity_ok t = true -> is_digits 10 ds -> ch <> 46 -> check_ch ch = false ->
  forall acc, 0 <= acc -> acc * 10 ^ Z.of_nat (length ds) + num 10 ds <= maxv t ->
  int_strict t (map dch ds ++ ch :: tail) acc = Ok None.
Proof.
  intros K H C1 C2. induction H as [|d ds Hd H IH]; intros acc A M.
  - cbn [map app int_strict]. apply Z.eqb_neq in C1. rewrite C1, C2. reflexivity.
  - cbn [map app int_strict]. destruct (dch_check d Hd) as (-> & -> & _). cbn [negb].
    rewrite num_cons in M. cbn [length] in M.
    rewrite Nat2Z.inj_succ, Z.pow_succ_r in M by (clear; lia).
    pose proof (num_nonneg 10 ds ltac:(lia) H) as NN.
    set (p := 10 ^ Z.of_nat (length ds)) in *.
    rewrite push_digit_ok; auto; [|clear - A Hd M NN; nia]. cbn [bind].
    apply IH.
    + clear - A Hd. lia.
    + fold p. replace ((acc * 10 + d) * p + num 10 ds) with (acc * (10 * p) + (d * p + num 10 ds)) by ring. exact M.
Qed.

(** what a successful integer part looks like *)
Lemma int_strict_inv t s : forall acc v tail, int_strict t s acc = Ok (Some (v, tail)) ->
  exists ds, is_digits 10 ds /\ s = map dch ds ++ tail /\ ends tail.
Proof.
  induction s as [|ch s IH]; intros acc v tail E; cbn [int_strict] in E.
  - injection E as _ <-. exists []. split; [constructor|]. split; [reflexivity|]. left; reflexivity.
  - destruct (Z.eqb_spec ch 46) as [->|N].
    + injection E as _ <-. exists []. split; [constructor|]. split; [reflexivity|]. right; eauto.
    + destruct (check_ch ch) eqn:C; cbn [negb] in E; [|discriminate].
      destruct (check_ch_inv ch C) as (d & Hd & ->).
      destruct (push_digit t acc (dch d)) as [a| | |]; try discriminate. cbn [bind] in E.
      destruct (IH _ _ _ E) as (ds & H1 & -> & H3). exists (d :: ds).
      split; [constructor; auto|]. split; [reflexivity|exact H3].
Qed.

(** fraction loop: [r] is read, [u] is cut off *)
Definition dec_result (lim : Z) (fp : list Z) (r u : list Z) : Prop :=
  fp = r ++ u /\ (u = [] \/ lim < num 10 r) /\
  (forall r1 r2, r = r1 ++ r2 -> r2 <> [] -> num 10 r1 <= lim).

Lemma dec_strict_digits t tm lim : ity_ok t = true -> ity_ok tm = true -> 0 <= lim <= maxv tm ->
  10 * lim + 9 <= maxv t ->
  forall fp, is_digits 10 fp -> forall r0 dec div, is_digits 10 r0 -> dec = num 10 r0 -> div = 10 ^ Z.of_nat (length r0) ->
  dec <= maxv t -> div <= maxv t ->
  (forall r1 r2, r0 = r1 ++ r2 -> r2 <> [] -> num 10 r1 <= lim) ->
  (forall r u, r0 ++ fp = (r0 ++ r) ++ u -> (forall r1 r2, r0 ++ r = r1 ++ r2 -> r2 <> [] -> num 10 r1 <= lim) ->
     10 ^ Z.of_nat (length (r0 ++ r)) <= maxv t) ->
  exists r u, dec_strict t tm lim (map dch fp) dec div =
     Ok (Some (num 10 (r0 ++ r), 10 ^ Z.of_nat (length (r0 ++ r)), map dch u)) /\
     dec_result lim (r0 ++ fp) (r0 ++ r) u.
Proof.
  intros K KM LM L9 fp H. induction H as [|d fp Hd H IH]; intros r0 dec div H0 -> -> MD MV PR HB.
  - exists [], []. rewrite !app_nil_r. split; [reflexivity|]. split; [rewrite app_nil_r; reflexivity|].
    split; [left; reflexivity|exact PR].
  - cbn [map dec_strict]. destruct (dch_check d Hd) as (-> & _ & _). cbn [negb].
    pose proof (num_nonneg 10 r0 ltac:(lia) H0) as NN.
    rewrite nn_lt by (auto; clear - NN MD; lia).
    destruct (Z.ltb_spec lim (num 10 r0)) as [L|L].
    + exists [], (d :: fp). rewrite !app_nil_r. split; [reflexivity|]. split; [reflexivity|].
      split; [right; exact L|exact PR].
    + rewrite push_digit_ok; auto; [|clear - NN; lia|clear - Hd L L9; lia]. cbn [bind].
      pose proof (pow_len_pos 10 r0 ltac:(lia)) as PP.
      assert (PR' : forall r1 r2, r0 ++ [d] = r1 ++ r2 -> r2 <> [] -> num 10 r1 <= lim).
      { intros r1 r2 E N. destruct r2 as [|x r2] using rev_ind; [congruence|]. clear IHr2.
        rewrite app_assoc in E. apply app_inj_tail in E. destruct E as [E _].
        destruct r2 as [|y r2]; [rewrite app_nil_r in E; subst; exact L|].
        apply (PR r1 (y :: r2)); [exact E|discriminate]. }
      assert (DB : 10 ^ Z.of_nat (length (r0 ++ [d])) <= maxv t).
      { apply (HB [d] fp); [rewrite <- app_assoc; reflexivity|exact PR']. }
      assert (LE : 10 ^ Z.of_nat (length (r0 ++ [d])) = 10 ^ Z.of_nat (length r0) * 10).
      { rewrite app_length. cbn [length]. rewrite Nat2Z.inj_add, Z.pow_add_r by (clear; lia). reflexivity. }
      rewrite nn_mul; auto; [ | clear - PP MV; lia | cbn; lia
        | pose proof (maxv_uac_l t int32 K eq_refl) as HU; clear - HU DB LE; lia].
      cbn [bind]. rewrite <- LE. rewrite nn_wrap by (auto; clear - DB LE PP; lia).
      destruct (IH (r0 ++ [d]) (num 10 r0 * 10 + d) (10 ^ Z.of_nat (length (r0 ++ [d])))) as (r & u & E & R).
      * apply is_digits_app. split; [exact H0|constructor; [exact Hd|constructor]].
      * rewrite num_snoc. reflexivity.
      * reflexivity.
      * clear - Hd L L9. lia.
      * exact DB.
      * exact PR'.
      * intros r u E X. specialize (HB (d :: r) u). rewrite <- !app_assoc in E. cbn [app] in E.
        rewrite <- app_assoc in X |- *. cbn [app] in X |- *. apply HB; [|exact X].
        rewrite <- app_assoc. exact E.
      * exists (d :: r), u. rewrite <- !app_assoc in E. cbn [app] in E.
        split; [exact E|]. rewrite <- !app_assoc in R. exact R.
Qed.

(** leading zeros bound the divisor *)
Lemma lz_nonneg ds : 0 <= leading_zeros ds <= Z.of_nat (length ds).
Proof. induction ds as [|d ds IH]; cbn [leading_zeros length]; [lia|]. destruct (d =? 0); lia. Qed.
Lemma lz_lower ds : is_digits 10 ds -> leading_zeros ds < Z.of_nat (length ds) ->
  10 ^ (Z.of_nat (length ds) - 1 - leading_zeros ds) <= num 10 ds.
Proof.
  intros H. induction H as [|d ds Hd H IH]; cbn [leading_zeros length]; intros L; [lia|].
  rewrite num_cons. pose proof (num_nonneg 10 ds ltac:(lia) H) as NN. pose proof (pow_len_pos 10 ds ltac:(lia)) as PP.
  destruct (Z.eqb_spec d 0) as [->|N].
  - replace (Z.of_nat (S (length ds)) - 1 - (1 + leading_zeros ds)) with (Z.of_nat (length ds) - 1 - leading_zeros ds) by lia.
    rewrite Z.mul_0_l, Z.add_0_l. apply IH. lia.
  - replace (Z.of_nat (S (length ds)) - 1 - 0) with (Z.of_nat (length ds)) by lia. nia.
Qed.
Lemma lz_app xs ys : leading_zeros xs < Z.of_nat (length xs) -> leading_zeros (xs ++ ys) = leading_zeros xs.
Proof.
  induction xs as [|x xs IH]; cbn [leading_zeros length app]; [lia|].
  destruct (x =? 0); [|reflexivity]. intros. f_equal. apply IH. lia.
Qed.
Lemma lz_app_ge xs ys : leading_zeros xs <= leading_zeros (xs ++ ys).
Proof.
  induction xs as [|x xs IH]; cbn [leading_zeros app].
  - apply lz_nonneg.
  - destruct (x =? 0); lia.
Qed.
(** if all proper prefixes of r denote at most lim <= M / 10, then 10^|r| <= 10^(z+1) * M *)
Lemma divisor_bound lim M fp r u : is_digits 10 fp -> 0 <= lim -> 10 * lim <= M -> 1 <= M -> fp = r ++ u ->
  (forall r1 r2, r = r1 ++ r2 -> r2 <> [] -> num 10 r1 <= lim) ->
  10 ^ Z.of_nat (length r) <= 10 ^ (leading_zeros fp + 1) * M.
Proof.
  intros H L LM M1 E PR. pose proof (lz_nonneg fp) as ZN.
  assert (PZ : 0 < 10 ^ (leading_zeros fp + 1)) by (apply Z.pow_pos_nonneg; lia).
  destruct r as [|d r1] using rev_ind.
  - cbn [length]. change (10 ^ Z.of_nat 0) with 1. nia.
  - clear IHr1. specialize (PR r1 [d] eq_refl ltac:(discriminate)).
    rewrite E in H. rewrite <- app_assoc in H. apply is_digits_app in H. destruct H as [H1 H2].
    rewrite app_length. cbn [length]. rewrite Nat2Z.inj_add. change (Z.of_nat 1) with 1.
    set (z := leading_zeros fp) in *.
    assert (ZE : leading_zeros r1 < Z.of_nat (length r1) -> leading_zeros r1 = z).
    { intros X. unfold z. rewrite E, <- app_assoc. symmetry. apply lz_app. exact X. }
    destruct (Z_lt_le_dec (leading_zeros r1) (Z.of_nat (length r1))) as [X|X].
    + pose proof (lz_lower r1 H1 X) as LL. pose proof (ZE X) as ZX. rewrite ZX in LL, X.
      replace (Z.of_nat (length r1) + 1) with ((z + 1) + 1 + (Z.of_nat (length r1) - 1 - z)) by lia.
      rewrite (Z.pow_add_r 10 (z + 1 + 1)), (Z.pow_add_r 10 (z + 1)) by lia. change (10 ^ 1) with 10.
      set (a := 10 ^ (Z.of_nat (length r1) - 1 - z)) in *. clear - LL PR LM PZ. nia.
    + assert (Z.of_nat (length r1) <= z).
      { pose proof (lz_app_ge r1 ([d] ++ u)) as G. rewrite app_assoc, <- E in G. fold z in G. lia. }
      apply Z.le_trans with (10 ^ (z + 1)).
      * apply Z.pow_le_mono_r; lia.
      * nia.
Qed.

Lemma c_shl_nn t x s : ity_ok t = true -> 0 <= s < bits t -> 0 <= x -> x * 2 ^ s <= maxv t ->
  c_shl t x s = Ok (x * 2 ^ s).
Proof.
  intros K S X M. pose proof (promote_bits t K) as [PB _]. unfold c_shl. cbv zeta.
  replace ((0 <=? s) && (s <? bits (promote t))) with true by (symmetry; clear - S PB; lia).
  rewrite Z.shiftl_mul_pow2 by (clear - S; lia).
  assert (0 < 2 ^ s) by (apply pow2_pos; clear - S; lia).
  assert (maxv t <= maxv (promote t)) by (rewrite <- uac_refl; apply maxv_uac_l; auto).
  rewrite nn_wrap; auto using promote_ok. clear - X M H H0. nia.
Qed.

Lemma combine_ok t f ip dec div : ity_ok t = true -> 0 <= f < bits t -> 0 <= ip -> 0 <= dec -> 0 < div <= maxv t ->
  dec * 2 ^ f <= maxv t -> ip * 2 ^ f + dec * 2 ^ f / div <= maxv t ->
  combine t f ip dec div = Ok (ip * 2 ^ f + dec * 2 ^ f / div).
Proof.
  intros K F I D V M1 M2. unfold combine.
  assert (P : 0 < 2 ^ f) by (apply pow2_pos; clear - F; lia).
  assert (Q : 0 <= dec * 2 ^ f / div) by (apply Z.div_pos; [clear - D P; nia|clear - V; lia]).
  assert (PM : maxv t <= maxv (promote t)) by (rewrite <- uac_refl; apply maxv_uac_l; auto).
  pose proof (promote_ok t K) as KP.
  set (q := dec * 2 ^ f / div) in *.
  rewrite c_shl_nn; auto; [|clear - Q M2; lia]. cbn [bind].
  rewrite c_shl_nn; auto. cbn [bind].
  rewrite nn_div; auto; [ | split; [clear - D P; nia|clear - M1 PM; lia] | clear - V; lia | clear - V; lia]. cbn [bind]. fold q.
  rewrite nn_add; auto.
  - split; [clear - I P; nia|clear - Q M2 PM; lia].
  - split; [exact Q|]. assert (0 <= ip * 2 ^ f) by (clear - I P; nia). clear - H M2 PM. lia.
  - rewrite uac_refl, promote_promote. clear - M2 PM. lia.
Qed.
