(** exp on fixed32: the reciprocal of a negative argument never divides by zero. *)
From Coq Require Import ZArith Lia Bool List.
From Verif Require Import Base Fixed Math Spec BaseLemmas FixedLemmas CLemmas MathProofs PowProofs StdProofs SinPoly ExpProofs.
Open Scope Z_scope.

Definition w32f (x : Z) : Z := let y := Z.land x 4294967295 in if y <? 2147483648 then y else y - 4294967296.
Definition mulf (u v : Z) : Z := w32f (Z.shiftr (u * v) 16).
(** no q in [65535, 145371] makes floor(p q / 2^16) a multiple of 2^32 *)
Definition pok (p : Z) : bool :=
  match p with
  | Z0 => false
  | Zpos _ => (2 <=? p) && ((p <=? 1930000000) ||
      (let q := (281474976710656 + p - 1) / p in 281474976710656 + 65536 <=? p * q))
  | Zneg _ => let a := - p in (a <=? 1930000000) || (let q := 281474976710656 / a in a * q <=? 281474976710656 - 65536)
  end.
Fixpoint chk (sq : list Z) (r : Z) : bool :=
  match sq with
  | nil => pok r
  | i :: sq' => if chk sq' r then chk sq' (mulf r i) else false
  end.
Fixpoint squares (n : nat) (i : Z) : list Z :=
  match n with O => nil | S n => i :: squares n (mulf i i) end.
Lemma tree_ok : chk (squares 15 178145) 65536 = true.
Proof. vm_cast_no_check (eq_refl true). Qed.

Lemma w32f_wrap x : w32f x = wrap int32 x.
Proof.
  assert (E : Z.land x 4294967295 = x mod 4294967296) by (change 4294967295 with (Z.ones 32); change 4294967296 with (2 ^ 32); apply Z.land_ones; discriminate).
  unfold w32f. cbv zeta. rewrite E. pose proof (Z.mod_pos_bound x 4294967296 ltac:(lia)) as B.
  pose proof (Z.div_mod x 4294967296 ltac:(lia)) as D.
  set (q := x / 4294967296) in *. set (y := x mod 4294967296) in *. clearbody q y.
  symmetry. destruct (Z.ltb_spec y 2147483648).
  - rewrite D. replace (4294967296 * q + y) with (y + q * 2 ^ bits int32) by (change (2 ^ bits int32) with 4294967296; lia). rewrite wrap_add_mult by reflexivity.
    apply wrap_id; [reflexivity|]. apply in_range_iff. unfold minv, maxv. cbn [sgn bits int32]. change (2 ^ (32 - 1)) with 2147483648. lia.
  - rewrite D. replace (4294967296 * q + y) with ((y - 4294967296) + (q + 1) * 2 ^ bits int32) by (change (2 ^ bits int32) with 4294967296; lia). rewrite wrap_add_mult by reflexivity.
    apply wrap_id; [reflexivity|]. apply in_range_iff. unfold minv, maxv. cbn [sgn bits int32]. change (2 ^ (32 - 1)) with 2147483648. lia.
Qed.
Lemma mulf_valid u v : valid F32 (mulf u v) = true.
Proof. unfold mulf. rewrite w32f_wrap. apply wrap_range. reflexivity. Qed.
Lemma mulf_eq u v : valid F32 u = true -> valid F32 v = true -> fx_mul_assign F32 u v = Ok (mulf u v).
Proof.
  intros. change (fx_mul_assign F32 u v) with (fx_mul F32 u v). rewrite fx_mul_eq by (first [assumption|reflexivity]).
  unfold mulf. rewrite w32f_wrap. rewrite Z.shiftr_div_pow2 by lia. reflexivity.
Qed.
Lemma ok_inj (a b : Z) : Ok a = Ok b -> a = b.
Proof. congruence. Qed.
Lemma chk_weak n : forall i r, chk (squares n i) r = true -> pok r = true.
Proof.
  induction n as [|n IH]; intros i r H; cbn [squares chk] in H; auto.
  destruct (chk (squares n (mulf i i)) r) eqn:E; [|discriminate]. eapply IH; eauto.
Qed.
Lemma chk_loop n : forall fuel i r e p, (n <= fuel)%nat -> valid F32 i = true -> valid F32 r = true -> in_range int32 e = true ->
  0 <= e < 2 ^ Z.of_nat n ->
  chk (squares n i) r = true -> pow_loop fuel F32 int32 false r i e = Ok p -> pok p = true.
Proof.
  induction n as [|n IH]; intros fuel i r e p Hf Vi Vr Re B H L.
  - change (2 ^ Z.of_nat 0) with 1 in B. assert (e = 0) by lia. subst e. rewrite pow_loop_0 in L by reflexivity.
    apply ok_inj in L. subst p. exact H.
  - destruct (Z.eq_dec e 0) as [->|N].
    + rewrite pow_loop_0 in L by reflexivity. apply ok_inj in L. subst p. apply chk_weak in H. exact H.
    + destruct fuel as [|fuel]; [lia|]. rewrite pow_loop_step in L by (auto; reflexivity).
      cbn [squares chk] in H. destruct (chk (squares n (mulf i i)) r) eqn:E; [|discriminate H].
      assert (HB : 0 <= Z.quot e 2 < 2 ^ Z.of_nat n).
      { rewrite Nat2Z.inj_succ, Z.pow_succ_r in B by lia. rewrite Z.quot_div_nonneg by lia.
        split; [apply Z.div_pos; lia|apply Z.div_lt_upper_bound; lia]. }
      assert (RQ : in_range int32 (Z.quot e 2) = true).
      { apply in_range_iff in Re. apply in_range_iff. cbn in Re |- *. rewrite Z.quot_div_nonneg by lia.
        split; [|eapply Z.le_trans; [apply Z.div_le_upper_bound with (q := e); lia|lia]].
        pose proof (Z.div_pos e 2 ltac:(lia) ltac:(lia)). lia. }
      rewrite !mulf_eq in L by assumption.
      destruct (Z.rem e 2 =? 0); cbn [bind] in L.
      * eapply (IH fuel (mulf i i) r (Z.quot e 2) p); auto; try lia; try apply mulf_valid.
      * eapply (IH fuel (mulf i i) (mulf r i) (Z.quot e 2) p); auto; try lia; try apply mulf_valid.
Qed.
Lemma pow_pok n p : 0 <= n < 32768 -> fx_pow_int F32 int32 178145 n = Ok p -> pok p = true.
Proof.
  intros Hn H. unfold fx_pow_int in H. change (fx_of_int F32 0) with (@Ok Z 0) in H. cbn [bind] in H.
  change (fx_eq F32 178145 0) with false in H. cbn iota in H. change (fx_of_int F32 1) with (@Ok Z 65536) in H. cbn [bind] in H.
  assert (R : in_range int32 n = true) by (apply in_range_iff; cbn; lia).
  rewrite ex_lt0 in H by (auto; reflexivity). replace (n <? 0) with false in H by lia.
  refine (chk_loop 15 130 178145 65536 n p _ _ _ R _ tree_ok H).
  - lia.
  - reflexivity.
  - reflexivity.
  - change (2 ^ Z.of_nat 15) with 32768. exact Hn.
Qed.
Lemma pok_nonzero p q : pok p = true -> valid F32 p = true -> 65535 <= q <= 145371 -> wrap int32 (fm 65536 p q) <> 0.
Proof.
  intros H V Q Z0.
  assert (B : -2147483648 <= p < 2147483648) by (apply in_range_iff in V; cbn in V; lia).
  assert (E : exists k, fm 65536 p q = k * 4294967296).
  { destruct (wrap_cong int32 (fm 65536 p q) eq_refl) as [k K]. rewrite Z0 in K. exists (- k). cbn in K. lia. }
  destruct E as [k E]. unfold fm in E. pose proof (Z.div_mod (p * q) 65536 ltac:(lia)) as D. rewrite E in D.
  pose proof (Z.mod_pos_bound (p * q) 65536 ltac:(lia)) as MB. set (m := (p * q) mod 65536) in *. clearbody m. clear E Z0 V.
  unfold pok in H. destruct p as [|a|a]; [discriminate| |].
  - apply andb_true_iff in H. destruct H as [H1 H2]. apply Z.leb_le in H1. set (p := Z.pos a) in *. clearbody p.
    assert (K0 : 0 <= k) by nia.
    assert (K1 : k <> 0) by nia.
    apply orb_true_iff in H2. destruct H2 as [H2|H2]; apply Z.leb_le in H2.
    + nia.
    + assert (KK : k = 1) by nia. subst k.
      pose proof (Z.div_mod (281474976710656 + p - 1) p ltac:(lia)) as QD.
      pose proof (Z.mod_pos_bound (281474976710656 + p - 1) p ltac:(lia)) as QM.
      set (q0 := (281474976710656 + p - 1) / p) in *. set (r0 := (281474976710656 + p - 1) mod p) in *. clearbody q0 r0.
      assert (q0 <= q) by nia. nia.
  - set (p := Z.neg a) in *. assert (PN : p < 0) by (unfold p; lia). clearbody p.
    apply orb_true_iff in H. destruct H as [H2|H2]; apply Z.leb_le in H2.
    + assert (k < 0) by nia. nia.
    + assert (K0 : k < 0) by nia. assert (KK : k = -1) by nia. subst k.
      pose proof (Z.div_mod 281474976710656 (- p) ltac:(lia)) as QD.
      pose proof (Z.mod_pos_bound 281474976710656 (- p) ltac:(lia)) as QM.
      set (q0 := 281474976710656 / - p) in *. set (r0 := 281474976710656 mod - p) in *. clearbody q0 r0.
      assert (q <= q0) by nia. nia.
Qed.
