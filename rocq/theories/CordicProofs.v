(** The CORDIC loop over the integers: no undefined behaviour, and angle folding. *)
From Coq Require Import ZArith Bool List Lia.
From Verif Require Import Base BaseLemmas Fixed FixedLemmas Math Cordic.
Import ListNotations.
Open Scope Z_scope.

Definition big (t : ity) : Prop := ity_ok t = true /\ 32 <= bits t /\ sgn t = true.
Lemma big_promote t : big t -> promote t = t.
Proof. intros (_ & B & _). unfold promote. destruct (Z.ltb_spec (bits t) 32); [lia|reflexivity]. Qed.
Lemma big_uac t : big t -> uac t t = t.
Proof. intros B. rewrite uac_refl. apply big_promote, B. Qed.
Lemma big_wrap t x : big t -> minv t <= x <= maxv t -> wrap t x = x.
Proof. intros (K & _) R. apply wrap_id; auto. apply in_range_iff; auto. Qed.
Lemma big_add t x y : big t -> minv t <= x <= maxv t -> minv t <= y <= maxv t -> minv t <= x + y <= maxv t -> c_add t t x y = Ok (x + y).
Proof.
  intros B X Y S. unfold c_add. cbv zeta. rewrite big_uac by auto. rewrite !big_wrap by auto. unfold arith. destruct B as (_ & _ & ->).
  apply in_range_iff in S. rewrite S. reflexivity.
Qed.
Lemma big_sub t x y : big t -> minv t <= x <= maxv t -> minv t <= y <= maxv t -> minv t <= x - y <= maxv t -> c_sub t t x y = Ok (x - y).
Proof.
  intros B X Y S. unfold c_sub. cbv zeta. rewrite big_uac by auto. rewrite !big_wrap by auto. unfold arith. destruct B as (_ & _ & ->).
  apply in_range_iff in S. rewrite S. reflexivity.
Qed.
Lemma big_shr t x s : big t -> 0 <= s < bits t -> c_shr t x s = Ok (x / 2 ^ s).
Proof.
  intros B S. unfold c_shr. cbv zeta. rewrite big_promote by auto. replace ((0 <=? s) && (s <? bits t)) with true by lia.
  rewrite Z.shiftr_div_pow2 by lia. reflexivity.
Qed.
Lemma big_lt c x y : big (ct c) -> minv (ct c) <= x <= maxv (ct c) -> minv (ct c) <= y <= maxv (ct c) -> fx_lt c x y = (x <? y).
Proof. intros B X Y. unfold fx_lt, fx_cmp. cbv zeta. rewrite big_uac by auto. rewrite !big_wrap by auto. reflexivity. Qed.
Lemma big_gt c x y : big (ct c) -> minv (ct c) <= x <= maxv (ct c) -> minv (ct c) <= y <= maxv (ct c) -> fx_gt c x y = (y <? x).
Proof. intros B X Y. unfold fx_gt, fx_cmp. cbv zeta. rewrite big_uac by auto. rewrite !big_wrap by auto.
  rewrite (Z.compare_antisym y x). unfold Z.ltb. destruct (y ?= x); reflexivity. Qed.

(** the loop over the integers *)
Fixpoint crun (Q i : Z) (al : list Z) (x y q : Z) : Z * Z * Z :=
  match al with
  | [] => (x, y, q)
  | a :: al => if q <? Q then crun Q (i + 1) al (x - y / 2 ^ i) (y + x / 2 ^ i) (q + a)
               else crun Q (i + 1) al (x + y / 2 ^ i) (y - x / 2 ^ i) (q - a)
  end.
Definition sumz (l : list Z) := fold_right Z.add 0 l.
Lemma sumz_nonneg l : Forall (fun a => 0 <= a) l -> 0 <= sumz l.
Proof. induction 1; cbn [sumz fold_right]; [lia|]. fold (sumz l). lia. Qed.
Lemma div_abs x i : 0 <= i -> Z.abs (x / 2 ^ i) <= Z.abs x.
Proof.
  intros I. pose proof (Z.pow_pos_nonneg 2 i ltac:(lia) I). destruct (Z_le_gt_dec 0 x).
  - rewrite !Z.abs_eq by (try apply Z.div_pos; lia). apply Z.div_le_upper_bound; nia.
  - assert (x / 2 ^ i < 0) by (apply Z.div_lt_upper_bound; lia).
    rewrite (Z.abs_neq (x / _)), Z.abs_neq by lia. assert (x <= x / 2 ^ i) by (apply Z.div_le_lower_bound; nia). lia.
Qed.
Lemma loop_eq c : big (ct c) -> big (ci c) -> forall al Q i x y q B qb, Forall (fun a => 0 <= a) al ->
  0 <= i -> i + Z.of_nat (length al) <= bits (ci c) ->
  Z.abs x <= B -> Z.abs y <= B -> B * 2 ^ Z.of_nat (length al) <= maxv (ci c) ->
  Z.abs Q <= maxv (ct c) -> Z.abs q <= qb -> qb + sumz al <= maxv (ct c) ->
  cordic_loop c Q i al x y q = Ok (fst (crun Q i al x y q)).
Proof.
  intros BT BI. assert (MI : minv (ci c) = - maxv (ci c) - 1) by (unfold minv, maxv; destruct BI as (_ & _ & ->); lia).
  assert (MT : minv (ct c) = - maxv (ct c) - 1) by (unfold minv, maxv; destruct BT as (_ & _ & ->); lia).
  induction al as [|a al IH]; intros Q i x y q B qb FA I IL X Y BB QR q1 q2; [reflexivity|]. inversion_clear FA as [|? ? FA1 FA2].
  pose proof (sumz_nonneg _ FA2) as SN. cbn [sumz fold_right] in q2. fold (sumz al) in q2. cbn [length] in IL, BB.
  rewrite Nat2Z.inj_succ in IL, BB. rewrite Z.pow_succ_r in BB by lia.
  assert (P : 1 <= 2 ^ Z.of_nat (length al)) by (pose proof (Z.pow_pos_nonneg 2 (Z.of_nat (length al)) ltac:(lia) ltac:(lia)); lia).
  assert (B2 : 2 * B <= maxv (ci c)) by nia. pose proof (div_abs x i I). pose proof (div_abs y i I).
  cbn [cordic_loop crun]. rewrite !big_shr by (auto; lia). cbn [bind]. rewrite big_promote by auto. rewrite big_lt by (auto; lia).
  unfold fx_add_assign, fx_sub_assign.
  destruct (Z.ltb_spec q Q); rewrite ?big_sub, ?big_add by (auto; lia); cbn [bind]; rewrite ?big_sub, ?big_add by (auto; lia); cbn [bind];
  rewrite !big_wrap by (auto; lia); (apply (IH Q (i + 1) _ _ _ (2 * B) (qb + a)); auto; try lia; nia).
Qed.


(** angle folding for a non-negative raw angle, [p] the raw pi: folded angle, sine sign, cosine sign *)
Definition cfold (p m : Z) : Z * Z * Z :=
  let r := m mod (2 * p) in
  let q1 := if p <? r then r - p else r in
  let s := if p <? r then -1 else 1 in
  let q2 := if p / 2 <? q1 then p - q1 else q1 in
  let k := if p / 2 <? q1 then -1 else 1 in
  (q2, s, s * k).
Lemma cfold_range p m : 0 < p -> 0 <= fst (fst (cfold p m)) <= p - p / 2.
Proof.
  intros P. unfold cfold. cbv zeta. cbn [fst]. pose proof (Z.mod_pos_bound m (2 * p) ltac:(lia)).
  pose proof (Z.div_mod p 2 ltac:(lia)). pose proof (Z.mod_pos_bound p 2 ltac:(lia)).
  destruct (Z.ltb_spec p (m mod (2 * p))); [destruct (Z.ltb_spec (p / 2) (m mod (2 * p) - p))|destruct (Z.ltb_spec (p / 2) (m mod (2 * p)))]; lia.
Qed.
Lemma fold_eq c p m : big (ct c) -> bits (ct c) <= 64 -> 0 <= cf c < bits (ct c) -> 0 < p -> 2 * p <= maxv (ct c) -> pi_v c = Ok p -> in_range (ct c) m = true ->
  cordic_optimize_angel c m = Ok (let '(Q, s, k) := cfold p (m mod 2 ^ (bits (ct c) - 1)) in (Q, if m <? 0 then - s else s, k)).
Proof.
  intros B B64 CF P PM PI M. pose proof B as (K & B32 & SG).
  assert (MT : minv (ct c) = - maxv (ct c) - 1) by (unfold minv, maxv; rewrite SG; lia).
  assert (MX : maxv (ct c) = 2 ^ (bits (ct c) - 1) - 1) by (unfold maxv; rewrite SG; reflexivity).
  apply in_range_iff in M.
  assert (U : uac (ct c) int32 = ct c).
  { unfold uac. rewrite big_promote by auto. change (promote int32) with int32. rewrite SG. cbn [sgn bits int32 Bool.eqb].
    destruct (Z.ltb_spec (bits (ct c)) 32); [lia|reflexivity]. }
  unfold cordic_optimize_angel. rewrite PI. cbn [bind]. unfold int_mul_fx, fx_mul_assign_int, c_mul. cbv zeta. rewrite U.
  pose proof (Z.pow_le_mono_r 2 (32 - 1) (bits (ct c) - 1) ltac:(lia) ltac:(lia)) as PW. change (2 ^ (32 - 1)) with 2147483648 in PW.
  rewrite (big_wrap (ct c) p), (big_wrap (ct c) 2) by (auto; lia). unfold arith. rewrite SG.
  replace (in_range (ct c) (p * 2)) with true by (symmetry; apply in_range_iff; lia). cbn [bind]. rewrite (big_wrap (ct c) (p * 2)) by (auto; lia).
  unfold fx_div_int, fx_div_assign_int, c_div. cbv zeta. rewrite U. rewrite (big_wrap (ct c) p), (big_wrap (ct c) 2) by (auto; lia).
  cbn [Z.eqb]. unfold arith. rewrite SG. rewrite Z.quot_div_nonneg by lia.
  assert (H2 : 0 <= p / 2 <= p) by (split; [apply Z.div_pos; lia|apply Z.div_le_upper_bound; lia]).
  replace (in_range (ct c) (p / 2)) with true by (symmetry; apply in_range_iff; lia). cbn [bind]. rewrite (big_wrap (ct c) (p / 2)) by (auto; lia).
  assert (Z0 : fx_of_int c 0 = Ok 0).
  { unfold fx_of_int. rewrite big_wrap by (auto; lia). unfold c_shl. cbv zeta. rewrite big_promote by auto.
    replace ((0 <=? cf c) && (cf c <? bits (ct c))) with true by lia. cbn [bind]. rewrite Z.shiftl_0_l. rewrite !(big_wrap (ct c) 0) by (auto; lia).
    reflexivity. }
  rewrite Z0. cbn [bind]. rewrite big_lt by (auto; lia).
  assert (SM : signbit_mask c = Ok (minv (ct c))).
  { unfold signbit_mask, c_shl. cbv zeta. rewrite big_promote by auto. replace ((0 <=? _) && _) with true by lia. cbn [bind].
    rewrite Z.shiftl_1_l. f_equal. rewrite (wrap_unique (ct c) (2 ^ (bits (ct c) - 1)) (minv (ct c)) (-1)); auto.
    - apply big_wrap; auto; lia.
    - apply in_range_iff; lia.
    - replace (bits (ct c)) with (Z.succ (bits (ct c) - 1)) at 2 by lia. rewrite Z.pow_succ_r by lia. lia. }
  rewrite SM. cbn [bind]. unfold c_and, c_not. cbv zeta. rewrite big_promote by auto. rewrite big_uac by auto.
  assert (LN : Z.lnot (minv (ct c)) = maxv (ct c)) by (unfold Z.lnot; lia). rewrite LN. rewrite !(big_wrap (ct c) (maxv (ct c))) by (auto; lia).
  rewrite (big_wrap (ct c) m) by (auto; lia). replace (maxv (ct c)) with (Z.ones (bits (ct c) - 1)) by (rewrite Z.ones_equiv; lia).
  rewrite Z.land_ones by lia. set (a := m mod 2 ^ (bits (ct c) - 1)).
  pose proof (Z.mod_pos_bound m (2 ^ (bits (ct c) - 1)) ltac:(lia)) as AR. fold a in AR.
  rewrite (big_wrap (ct c) a) by (auto; lia). unfold fx_rem_assign, c_rem. cbv zeta. rewrite big_uac by auto.
  rewrite (big_wrap (ct c) a), (big_wrap (ct c) (p * 2)) by (auto; lia). destruct (Z.eqb_spec (p * 2) 0); [lia|].
  assert (QR : 0 <= a ÷ (p * 2) <= a) by (rewrite Z.quot_div_nonneg by lia; split; [apply Z.div_pos; lia|apply Z.div_le_upper_bound; nia]).
  replace (in_range (ct c) (a ÷ (p * 2))) with true by (symmetry; apply in_range_iff; lia). rewrite SG. cbn [andb negb bind].
  rewrite Z.rem_mod_nonneg by lia. rewrite (Z.mul_comm p 2). pose proof (Z.mod_pos_bound a (2 * p) ltac:(lia)) as RR.
  unfold cfold. cbv zeta. set (r := a mod (2 * p)) in *. rewrite (big_wrap (ct c) r) by (auto; lia). rewrite big_gt by (auto; lia).
  unfold fx_sub. destruct (Z.ltb_spec p r); rewrite ?big_sub by (auto; lia); cbn [bind]; rewrite ?(big_wrap (ct c) (r - p)) by (auto; lia); cbn [bind];
  rewrite big_gt by (auto; lia); match goal with |- context [p / 2 <? ?e] => destruct (Z.ltb_spec (p / 2) e) end; rewrite ?big_sub by (auto; lia); cbn [bind]; rewrite ?big_wrap by (auto; lia);
  destruct (m <? 0); reflexivity.
Qed.
