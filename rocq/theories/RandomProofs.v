(** Proofs about the random engine and distribution adapters (C79-C85, C100-C104). *)
From Coq Require Import ZArith Bool List Lia Znumtheory Zpow_facts.
From Verif Require Import Base BaseLemmas Fixed FixedLemmas PowProofs SpecText SpecFormat NumLemmas Random.
Import ListNotations.
Open Scope Z_scope.

Definition pow2 (p : pcg) := 2 ^ bits (pu p).
Definition key (p : pcg) (e : engine) := (m_state e * pmul p + m_seed e) mod pow2 p.
Definition next (p : pcg) (e : engine) := {| m_seed := m_seed e; m_state := (m_state e + 1) mod pow2 p |}.

Lemma pok p : pcg_ok p = true -> ity_ok (pu p) = true /\ sgn (pu p) = false /\ 0 < pow2 p /\ 0 <= pstate p < pow2 p /\
  0 <= pmul p < pow2 p /\ 0 <= pinc p < pow2 p /\ 0 <= pmix p < pow2 p /\ 0 <= pxor p < pow2 p.
Proof.
  unfold pcg_ok, pow2. rewrite !andb_true_iff, negb_true_iff. intros ((((((O & S) & A) & B) & C) & D) & E).
  assert (0 < 2 ^ bits (pu p)) by (apply Z.pow_pos_nonneg; [lia|]; unfold ity_ok in O; lia).
  unfold in_range, minv, maxv in *. rewrite S in *. repeat split; auto; lia.
Qed.
Lemma eok p e : pcg_ok p = true -> eng_ok p e = true <-> 0 <= m_seed e < pow2 p /\ 0 <= m_state e < pow2 p.
Proof.
  intros H. destruct (pok p H) as (_ & S & P & _). unfold eng_ok, in_range, minv, maxv. rewrite S. unfold pow2 in *. lia.
Qed.
Lemma uwrap p x : pcg_ok p = true -> wrap (pu p) x = x mod pow2 p.
Proof. intros H. destruct (pok p H) as (_ & S & _). unfold wrap. rewrite S. reflexivity. Qed.

(** UIntType of 32 bits or more is its own promoted type *)
Lemma upromote p : 32 <= bits (pu p) -> promote (pu p) = pu p.
Proof. intros H. unfold promote. destruct (Z.ltb_spec (bits (pu p)) 32); [lia|reflexivity]. Qed.
Lemma uuac p : 32 <= bits (pu p) -> uac (pu p) (pu p) = pu p.
Proof. intros H. unfold uac. rewrite upromote by auto. rewrite eqb_reflx. destruct (_ <? _); reflexivity. Qed.
Lemma uuac_i p : pcg_ok p = true -> 32 <= bits (pu p) -> uac (pu p) int32 = pu p /\ uac int32 (pu p) = pu p.
Proof.
  intros K H. destruct (pok p K) as (_ & S & _). unfold uac. rewrite upromote by auto. change (promote int32) with int32.
  rewrite S. cbn [sgn int32 Bool.eqb]. change (bits int32) with 32. destruct (Z.leb_spec 32 (bits (pu p))); [auto|lia].
Qed.
Lemma uarith p x : pcg_ok p = true -> arith (pu p) x = Ok (x mod pow2 p).
Proof. intros H. unfold arith. destruct (pok p H) as (_ & S & _). rewrite S, uwrap by auto. reflexivity. Qed.
Lemma umul p x y : pcg_ok p = true -> 32 <= bits (pu p) -> c_mul (pu p) (pu p) x y = Ok ((x * y) mod pow2 p).
Proof.
  intros H L. unfold c_mul. rewrite uuac, uarith, !uwrap by auto. rewrite <- Z.mul_mod; [reflexivity|].
  destruct (pok p H) as (_ & _ & P & _). lia.
Qed.
Lemma uadd p x y : pcg_ok p = true -> 32 <= bits (pu p) -> c_add (pu p) (pu p) x y = Ok ((x + y) mod pow2 p).
Proof.
  intros H L. unfold c_add. rewrite uuac, uarith, !uwrap by auto. rewrite <- Z.add_mod; [reflexivity|].
  destruct (pok p H) as (_ & _ & P & _). lia.
Qed.

(** what a draw does after the key *)
Definition tail (pl : platform) (p : pcg) (val : Z) : res Z :=
  let u := pu p in
  let* v1 := mix_first pl p val in
  let* v2 := xor_step p v1 in
  let* v3 := mix_second pl p v2 in
  let l := c_and u int32 v3 0x7FFFFFFE in
  let* r := c_shr u v3 8 in
  Ok (wrap u (c_xor (uac u int32) (promote u) l r)).

Lemma gen_key pl p e : pcg_ok p = true -> 32 <= bits (pu p) ->
  generate pl p e = let* v := tail pl p (key p e) in Ok (v, next p e).
Proof.
  intros H L. unfold generate, tail. rewrite umul by auto. cbn [bind]. rewrite uuac, uadd by auto. cbn [bind]. rewrite !uwrap by auto.
  assert (P : pow2 p <> 0) by (destruct (pok p H) as (_ & _ & P & _); lia).
  replace (((m_state e * pmul p) mod pow2 p + m_seed e) mod pow2 p mod pow2 p) with (key p e)
    by (unfold key; rewrite Z.mod_mod, Zplus_mod_idemp_l by auto; reflexivity).
  destruct (mix_first pl p (key p e)); cbn [bind]; [|reflexivity..]. destruct (xor_step p a); cbn [bind]; [|reflexivity..].
  destruct (mix_second pl p a0); cbn [bind]; [|reflexivity..]. destruct (c_shr (pu p) a1 8); cbn [bind]; reflexivity.
Qed.

(** the state after a draw, for any platform and any width *)
Lemma draw_state pl p e v e' : pcg_ok p = true -> draw pl p e = Ok (v, e') -> e' = next p e.
Proof.
  intros H. unfold draw, generate. 
  destruct (c_mul _ _ _ _); cbn [bind]; [|discriminate..]. destruct (c_add _ _ _ _); cbn [bind]; [|discriminate..].
  destruct (mix_first _ _ _); cbn [bind]; [|discriminate..]. destruct (xor_step _ _); cbn [bind]; [|discriminate..].
  destruct (mix_second _ _ _); cbn [bind]; [|discriminate..]. destruct (c_shr _ _ _); cbn [bind]; [|discriminate..].
  intros E. injection E as _ <-. unfold next. rewrite uwrap by auto. reflexivity.
Qed.
Lemma next_ok p e : pcg_ok p = true -> eng_ok p e = true -> eng_ok p (next p e) = true.
Proof.
  intros H K. apply eok in K; auto. apply eok; auto. cbn. split; [tauto|]. apply Z.mod_pos_bound. destruct (pok p H) as (_ & _ & P & _). lia.
Qed.
Lemma draws_state pl p n : pcg_ok p = true -> forall e vs e', eng_ok p e = true -> draws pl p n e = Ok (vs, e') ->
  e' = {| m_seed := m_seed e; m_state := (m_state e + Z.of_nat n) mod pow2 p |} /\ List.length vs = n.
Proof.
  intros H. induction n; intros e vs e' K E.
  - cbn in E. injection E as <- <-. split; [|reflexivity]. apply eok in K; auto. rewrite Z.add_0_r, Z.mod_small by tauto. destruct e; reflexivity.
  - cbn [draws] in E. destruct (draw pl p e) as [[v e1]| | |] eqn:D; cbn [bind] in E; try discriminate E. cbn [fst snd] in E.
    destruct (draws pl p n e1) as [[ws e2]| | |] eqn:D2; cbn [bind] in E; try discriminate E. injection E as <- <-.
    apply draw_state in D; auto. subst e1. destruct (IHn _ _ _ (next_ok p e H K) D2) as [-> L]. cbn. rewrite L. split; [|reflexivity].
    f_equal. rewrite Zplus_mod_idemp_l. f_equal. lia.
Qed.

Lemma discard_eq p e z : pcg_ok p = true -> 0 <= z -> bits (pu p) <= 64 \/ z < 2 ^ 64 ->
  eng_ok p e = true ->
  discard p e z = Ok {| m_seed := m_seed e; m_state := (m_state e + z) mod pow2 p |}.
Proof.
  intros H Z0 ZR K. destruct (pok p H) as (O & S & P & _). apply eok in K; auto. unfold discard.
  assert (U : exists t, uac (pu p) uint64 = t /\ sgn t = false /\ bits t = Z.max 64 (bits (pu p))).
  { unfold ity_ok in O. unfold uac, promote. change (bits uint64 <? 32) with false. cbv iota.
    destruct (Z.ltb_spec (bits (pu p)) 32).
    - cbn. eexists; split; [reflexivity|]. cbn. lia.
    - rewrite S. cbn [sgn uint64 Bool.eqb]. change (bits uint64) with 64. destruct (Z.ltb_spec (bits (pu p)) 64); eexists; (split; [reflexivity|]).
      + cbn. lia.
      + rewrite S. lia. }
  destruct U as (t & U & US & UB). unfold c_add. rewrite U. unfold arith. rewrite US. cbn [bind]. rewrite uwrap by auto.
  do 2 f_equal. unfold wrap. rewrite US. rewrite <- Zplus_mod.
  assert (D : (pow2 p | 2 ^ bits t)).
  { exists (2 ^ (bits t - bits (pu p))). unfold pow2. rewrite <- Z.pow_add_r; [f_equal; lia| |]; unfold ity_ok in O; lia. }
  symmetry. apply Zmod_div_mod; auto. apply Z.pow_pos_nonneg; lia.
Qed.

Lemma C80_lemma pl p n e vs e' : pcg_ok p = true -> eng_ok p e = true -> Z.of_nat n < 2 ^ 64 ->
  draws pl p n e = Ok (vs, e') -> discard p e (Z.of_nat n) = Ok e'.
Proof.
  intros H K N E. destruct (draws_state pl p n H _ _ _ K E) as [-> _]. apply discard_eq; auto; lia.
Qed.

(** ---- C79 ---- *)
Lemma lxor_big x : 32 <= x -> 32 <= Z.lxor 8 x.
Proof.
  intros H. assert (E : Z.shiftr (Z.lxor 8 x) 5 = Z.shiftr x 5) by (rewrite Z.shiftr_lxor; reflexivity).
  rewrite !Z.shiftr_div_pow2 in E by lia. change (2 ^ 5) with 32 in E.
  assert (1 <= x / 32) by (apply Z.div_le_lower_bound; lia). rewrite <- E in H0.
  destruct (Z_le_gt_dec 32 (Z.lxor 8 x)); auto.
  assert (Z.lxor 8 x / 32 <= 0). { apply Z.lt_succ_r. apply Z.div_lt_upper_bound; lia. } lia.
Qed.
Definition is_ub {A} (r : res A) : bool := match r with UB => true | _ => false end.
Lemma is_ub_iff {A} (r : res A) : is_ub r = true -> r = UB.
Proof. destruct r; try discriminate; auto. Qed.

Lemma lxor_lt n x y : 0 <= n -> 0 <= x < 2 ^ n -> 0 <= y < 2 ^ n -> 0 <= Z.lxor x y < 2 ^ n.
Proof.
  intros N X Y. assert (0 <= Z.lxor x y) by (apply Z.lxor_nonneg; lia). split; [auto|].
  destruct (Z.eq_dec (Z.lxor x y) 0) as [E|E]; [rewrite E; apply Z.pow_pos_nonneg; lia|].
  apply Z.log2_lt_pow2; [lia|]. eapply Z.le_lt_trans; [apply Z.log2_lxor; lia|].
  apply Z.max_lub_lt.
  - destruct (Z.eq_dec x 0) as [->|]; [destruct (Z.eq_dec n 0) as [->|]; [|cbn; lia]|apply Z.log2_lt_pow2; lia].
    change (2 ^ 0) with 1 in *. assert (x0 : y = 0) by lia. subst. cbn in E. lia.
  - destruct (Z.eq_dec y 0) as [->|]; [destruct (Z.eq_dec n 0) as [->|]; [|cbn; lia]|apply Z.log2_lt_pow2; lia].
    change (2 ^ 0) with 1 in *. assert (x = 0) by lia. subst. cbn in E. lia.
Qed.
Lemma c_xor_8 p x : pcg_ok p = true -> 32 <= bits (pu p) -> 0 <= x < pow2 p -> c_xor int32 (pu p) 8 x = Z.lxor 8 x.
Proof.
  intros H L X. unfold c_xor. destruct (uuac_i p H L) as [_ ->]. rewrite !uwrap by auto.
  assert (8 < pow2 p). { unfold pow2. apply Z.lt_le_trans with (2 ^ 32); [lia|]. apply Z.pow_le_mono_r; lia. }
  rewrite (Z.mod_small 8), (Z.mod_small x) by lia. apply Z.mod_small. unfold pow2 in *. apply lxor_lt; lia.
Qed.

Lemma strict_ub p : pcg_ok p = true -> 32 <= bits (pu p) -> bits (pu p) <= 64 ->
  forallb (fun x => is_ub (tail strict p (Z.of_nat x))) (seq 0 64) = true ->
  forall e, draw strict p e = UB.
Proof.
  intros H L LM F e. unfold draw. rewrite gen_key by auto.
  assert (K : 0 <= key p e < pow2 p) by (apply Z.mod_pos_bound; destruct (pok p H) as (_ & _ & P & _); lia).
  destruct (Z_lt_ge_dec (key p e) 64) as [S|B].
  - rewrite forallb_forall in F. specialize (F (Z.to_nat (key p e))). rewrite Z2Nat.id in F by lia.
    rewrite (is_ub_iff _ (F ltac:(apply in_seq; lia))). reflexivity.
  - unfold tail, mix_first. rewrite c_xor_8 by auto. unfold pl_shr, c_shr. rewrite upromote by auto.
    assert (64 <= Z.lxor 8 (key p e)).
    { assert (E : Z.shiftr (Z.lxor 8 (key p e)) 6 = Z.shiftr (key p e) 6) by (rewrite Z.shiftr_lxor; reflexivity).
      rewrite !Z.shiftr_div_pow2 in E by lia. change (2 ^ 6) with 64 in E.
      assert (1 <= key p e / 64) by (apply Z.div_le_lower_bound; lia).
      destruct (Z_le_gt_dec 64 (Z.lxor 8 (key p e))); auto.
      assert (Z.lxor 8 (key p e) / 64 <= 0). { apply Z.lt_succ_r. apply Z.div_lt_upper_bound; lia. } lia. }
    replace (Z.lxor 8 (key p e) <? bits (pu p)) with false by lia. rewrite andb_false_r. reflexivity.
Qed.
Lemma pcg_ub : (forall e, draw strict pcg2014 e = UB) /\ (forall e, draw strict pcg2014_64 e = UB).
Proof.
  split; apply strict_ub; try (vm_compute; reflexivity); cbn; lia.
Qed.
Lemma pcg_not_portable : exists e v w, eng_ok pcg2014 e = true /\ res_map fst (draw mask_shift pcg2014 e) = Ok v /\
  res_map fst (draw zero_shift pcg2014 e) = Ok w /\ v <> w.
Proof.
  exists (new_default pcg2014). vm_compute. do 2 eexists. split; [reflexivity|]. split; [reflexivity|]. split; [reflexivity|]. discriminate.
Qed.

(** a draw is defined, and in range, on any platform that gives oversized shifts some meaning *)
Lemma tail_ok pl p x : pcg_ok p = true -> 32 <= bits (pu p) -> (forall t a s, exists v, pl t a s = Ok v) ->
  exists v, tail pl p x = Ok v.
Proof.
  intros H L T. assert (SH : forall x s, exists v, pl_shr pl (pu p) x s = Ok v).
  { intros y s. unfold pl_shr, c_shr. destruct (_ && _); [eauto|apply T]. }
  unfold tail, mix_first, xor_step, mix_second.
  destruct (SH x (c_xor int32 (pu p) 8 x)) as [a ->]. cbn [bind]. rewrite uadd by auto. cbn [bind].
  assert (M : forall y, c_mul (pu p) int32 y 256 = Ok ((y * 256) mod pow2 p)).
  { intros y. unfold c_mul. rewrite (proj1 (uuac_i p H L)), uarith, !uwrap by auto. rewrite <- Z.mul_mod; [reflexivity|].
    destruct (pok p H) as (_ & _ & P & _). lia. }
  rewrite M. cbn [bind]. rewrite umul by auto. cbn [bind].
  match goal with |- context [pl_shr pl (pu p) ?y ?s] => destruct (SH y s) as [b ->] end. cbn [bind]. rewrite umul by auto. cbn [bind].
  unfold c_shr. rewrite upromote by auto. replace ((0 <=? 8) && (8 <? bits (pu p))) with true by lia. cbn [bind]. eauto.
Qed.
Lemma draw_defined pl p e : pcg_ok p = true -> 32 <= bits (pu p) -> eng_ok p e = true -> (forall t a s, exists v, pl t a s = Ok v) ->
  exists v e', draw pl p e = Ok (v, e') /\ eng_min p <= v <= eng_max p /\ eng_ok p e' = true.
Proof.
  intros H L K T. unfold draw. rewrite gen_key by auto. destruct (tail_ok pl p (key p e) H L T) as [v E]. rewrite E. cbn [bind].
  exists v, (next p e). split; [reflexivity|]. split; [|apply next_ok; auto].
  assert (R : exists y, v = wrap (pu p) y).
  { clear - E. unfold tail in E. destruct (mix_first _ _ _); cbn [bind] in E; try discriminate E. destruct (xor_step _ _); cbn [bind] in E; try discriminate E.
    destruct (mix_second _ _ _); cbn [bind] in E; try discriminate E. destruct (c_shr _ _ _); cbn [bind] in E; try discriminate E. injection E as <-. eauto. }
  destruct R as [y ->]. rewrite uwrap by auto. destruct (pok p H) as (_ & S & P & _). unfold eng_min, eng_max, minv, maxv. rewrite S.
  pose proof (Z.mod_pos_bound y (pow2 p) P). unfold pow2 in *. lia.
Qed.

(** ---- C81 ---- *)
Lemma eng_eq_iff p a b : pcg_ok p = true -> eng_ok p a = true -> eng_ok p b = true -> (eng_eq p a b = true <-> a = b).
Proof.
  intros H KA KB. pose proof (pok p H) as (O & S & P & _). unfold eng_eq, c_eq.
  assert (W : forall x, 0 <= x < pow2 p -> wrap (uac (pu p) (pu p)) x = x).
  { intros x X. destruct (Z_le_gt_dec 32 (bits (pu p))).
    - rewrite uuac, uwrap by auto. apply Z.mod_small; auto.
    - replace (uac (pu p) (pu p)) with int32.
      + unfold wrap. cbn [sgn int32 bits]. unfold pow2 in X. assert (2 ^ bits (pu p) <= 2 ^ 16) by (apply Z.pow_le_mono_r; unfold ity_ok in O; lia).
        rewrite Z.mod_small; lia.
      + unfold uac, promote. replace (bits (pu p) <? 32) with true by lia. reflexivity. }
  apply eok in KA; auto. apply eok in KB; auto. rewrite !W by tauto. rewrite andb_true_iff, !Z.eqb_eq. destruct a, b; cbn. split.
  - intros [-> ->]. reflexivity.
  - intros E. injection E. auto.
Qed.
Lemma C81_lemma p a b : pcg_ok p = true -> eng_ok p a = true -> eng_ok p b = true ->
  (eng_eq p a b = true <-> m_seed a = m_seed b /\ m_state a = m_state b) /\
  (eng_ne p a b = negb (eng_eq p a b)) /\
  (eng_eq p a b = true -> forall pl n, draws pl p n a = draws pl p n b).
Proof.
  intros H KA KB. pose proof (eng_eq_iff p a b H KA KB) as I. split; [|split; [reflexivity|]].
  - rewrite I. destruct a, b; cbn. split; [intros E; injection E; auto|intros [-> ->]; reflexivity].
  - intros E pl n. apply I in E. subst. reflexivity.
Qed.

(** ---- C82 ---- *)
Lemma C82_lemma pl p s0 s n vs e : pcg_ok p = true -> in_range (pu p) s0 = true -> in_range (pu p) s = true ->
  draws pl p n (new_seeded p s0) = Ok (vs, e) ->
  eng_eq p (reseed e s) (new_seeded p s) = true <-> (Z.of_nat n) mod 2 ^ bits (pu p) = 0.
Proof.
  intros H R0 R D. pose proof (pok p H) as (O & S & P & PS & _).
  assert (K : forall t, in_range (pu p) t = true -> eng_ok p (new_seeded p t) = true).
  { intros t T. unfold eng_ok. cbn. rewrite T. cbn. unfold pcg_ok in H. rewrite !andb_true_iff in H. tauto. }
  destruct (draws_state pl p n H _ _ _ (K s0 R0) D) as [-> _]. rewrite eng_eq_iff; auto.
  - cbn. unfold new_seeded, reseed. cbn. fold (pow2 p). split.
    + intros E. injection E as E. assert (D2 : (pstate p + Z.of_nat n) mod pow2 p = pstate p mod pow2 p) by (rewrite (Z.mod_small (pstate p)); auto).
      replace (Z.of_nat n) with (pstate p + Z.of_nat n - pstate p) by lia. rewrite Zminus_mod, D2, Z.sub_diag. reflexivity.
    + intros E. f_equal. rewrite Zplus_mod, E, Z.add_0_r, Z.mod_mod by lia. apply Z.mod_small; auto.
  - apply eok; auto. cbn. pose proof (Z.mod_pos_bound (pstate p + Z.of_nat n) (pow2 p) P). unfold in_range, minv, maxv in R. rewrite S in R. unfold pow2 in *. lia.
Qed.
Lemma reseed_refuted : exists e vs s, draws mask_shift pcg2014 1 (new_default pcg2014) = Ok (vs, e) /\
  eng_eq pcg2014 (reseed e s) (new_seeded pcg2014 s) = false /\
  res_map fst (draw mask_shift pcg2014 (reseed e s)) <> res_map fst (draw mask_shift pcg2014 (new_seeded pcg2014 s)).
Proof.
  do 3 eexists. split; [vm_compute; reflexivity|]. instantiate (1 := 1). vm_compute. split; [reflexivity|discriminate].
Qed.

(** ---- C100, C101: one cycle ---- *)
Lemma key_next p e : pcg_ok p = true -> key p (next p e) = (key p e + pmul p) mod pow2 p.
Proof.
  intros H. destruct (pok p H) as (_ & _ & P & _). unfold key, next. cbn. rewrite Zplus_mod_idemp_l.
  rewrite <- (Zplus_mod_idemp_l ((m_state e + 1) mod pow2 p * pmul p)), Zmult_mod_idemp_l, Zplus_mod_idemp_l. f_equal. lia.
Qed.
Lemma draws_key pl p n : pcg_ok p = true -> 32 <= bits (pu p) -> forall a b, key p a = key p b ->
  res_map fst (draws pl p n a) = res_map fst (draws pl p n b).
Proof.
  intros H L. induction n; intros a b K; [reflexivity|]. cbn [draws]. unfold draw. rewrite !gen_key, K by auto.
  destruct (tail pl p (key p b)); cbn [bind]; [|reflexivity..]. cbn [fst snd].
  assert (K2 : key p (next p a) = key p (next p b)) by (rewrite !key_next, K by auto; reflexivity).
  specialize (IHn _ _ K2). unfold res_map in *. destruct (draws pl p n (next p a)), (draws pl p n (next p b)); cbn [bind] in *; try congruence.
  injection IHn as ->. reflexivity.
Qed.
Lemma C100_lemma p s1 s2 : pcg_ok p = true -> 32 <= bits (pu p) <= 64 -> Z.odd (pmul p) = true ->
  in_range (pu p) s1 = true -> in_range (pu p) s2 = true ->
  exists k e, 0 <= k < 2 ^ bits (pu p) /\ discard p (new_seeded p s1) k = Ok e /\
    forall pl n, res_map fst (draws pl p n (new_seeded p s2)) = res_map fst (draws pl p n e).
Proof.
  intros H L OD R1 R2. pose proof (pok p H) as (O & S & P & PS & _).
  assert (K1 : eng_ok p (new_seeded p s1) = true).
  { unfold eng_ok. cbn. rewrite R1. cbn. unfold pcg_ok in H. rewrite !andb_true_iff in H. tauto. }
  assert (RP : rel_prime (pmul p) (pow2 p)).
  { unfold pow2. apply rel_prime_Zpower_r; [lia|]. apply rel_prime_sym. apply prime_rel_prime; [apply prime_2|].
    intros D. apply Zdivide_mod in D. rewrite Zmod_odd, OD in D. discriminate. }
  destruct (rel_prime_bezout _ _ RP) as [u v B].
  set (k := ((s2 - s1) * u) mod pow2 p). assert (KR : 0 <= k < pow2 p) by (apply Z.mod_pos_bound; lia).
  assert (Hk : bits (pu p) <= 64 \/ k < 2 ^ 64) by lia.
  pose proof (discard_eq p _ k H (proj1 KR) Hk K1) as D.
  do 2 eexists. split; [exact KR|]. split; [exact D|]. intros pl n. apply draws_key; auto; [lia|]. unfold key. cbn.
  rewrite <- (Zplus_mod_idemp_l ((pstate p + k) mod pow2 p * pmul p)), Zmult_mod_idemp_l, Zplus_mod_idemp_l.
  rewrite Z.mul_add_distr_r, <- Z.add_assoc, <- (Zplus_mod_idemp_r (k * pmul p + s1)). 
  rewrite <- (Zplus_mod_idemp_r s2). f_equal. f_equal.
  unfold k. rewrite <- (Zplus_mod_idemp_l _ s1), Zmult_mod_idemp_l, Zplus_mod_idemp_l.
  replace ((s2 - s1) * u * pmul p + s1) with (s2 + (- (s2 - s1) * v) * pow2 p)
    by (symmetry; transitivity ((s2 - s1) * (u * pmul p) + s1); [ring|]; replace (u * pmul p) with (1 - v * pow2 p) by lia; ring). rewrite Z.mod_add by lia. reflexivity.
Qed.
Lemma C101_lemma pl p n e vs e' : pcg_ok p = true -> eng_ok p e = true -> Z.of_nat n = 2 ^ bits (pu p) ->
  draws pl p n e = Ok (vs, e') -> e' = e.
Proof.
  intros H K N D. destruct (draws_state pl p n H _ _ _ K D) as [-> _]. rewrite N. fold (pow2 p).
  rewrite <- (Z.mul_1_l (pow2 p)) at 1. rewrite Z.mod_add by (destruct (pok p H) as (_ & _ & P & _); lia).
  apply eok in K; auto. rewrite Z.mod_small by tauto. destruct e; reflexivity.
Qed.

(** ---- C102: the top of the advertised range is never drawn ---- *)
Lemma land_bound a b n : 0 <= n -> 0 <= b < 2 ^ n -> 0 <= Z.land a b < 2 ^ n.
Proof.
  intros N B. assert (0 <= Z.land a b) by (apply Z.land_nonneg; lia). split; [auto|].
  destruct (Z.eq_dec (Z.land a b) 0) as [E|E]; [rewrite E; lia|]. apply Z.log2_lt_pow2; [lia|].
  assert (LB : Z.log2 b < n) by (apply Z.log2_lt_pow2; [|lia]; destruct (Z.eq_dec b 0); [subst; rewrite Z.land_0_r in E|]; lia).
  destruct (Z_lt_ge_dec (Z.log2 (Z.land a b)) n) as [Q|Q]; [auto|]. exfalso.
  assert (T : Z.testbit (Z.land a b) (Z.log2 (Z.land a b)) = true) by (apply Z.bit_log2; lia).
  rewrite Z.land_spec in T. apply andb_true_iff in T. destruct T as [_ T].
  rewrite Z.bits_above_log2 in T by lia. discriminate.
Qed.
Lemma draw_bound pl p e v e' : pcg_ok p = true -> 32 <= bits (pu p) -> draw pl p e = Ok (v, e') ->
  0 <= v < 2 ^ Z.max 31 (bits (pu p) - 8).
Proof.
  intros H L. unfold draw. rewrite gen_key by auto. unfold tail.
  destruct (mix_first _ _ _); cbn [bind]; [|discriminate..]. destruct (xor_step _ _); cbn [bind]; [|discriminate..].
  destruct (mix_second pl p a0) as [x| | |] eqn:M; cbn [bind]; [|discriminate..].
  assert (X : 0 <= x < pow2 p).
  { unfold mix_second in M. destruct (pl_shr _ _ _ _); cbn [bind] in M; try discriminate M. destruct (c_mul _ _ _ _); cbn [bind] in M; try discriminate M.
    injection M as <-. rewrite uwrap by auto. apply Z.mod_pos_bound. destruct (pok p H) as (_ & _ & P & _). lia. }
  unfold c_shr. rewrite upromote by auto. replace ((0 <=? 8) && (8 <? bits (pu p))) with true by lia. cbn [bind].
  intros E. injection E as <- _.
  unfold c_xor, c_and. rewrite (proj1 (uuac_i p H L)). rewrite uuac by auto. rewrite !uwrap by auto.
  set (N := Z.max 31 (bits (pu p) - 8)).
  assert (PN : 2 ^ N <= pow2 p) by (apply Z.pow_le_mono_r; lia).
  assert (A : 0 <= Z.land (x mod pow2 p) (2147483646 mod pow2 p) < 2 ^ N).
  { rewrite (Z.mod_small 2147483646).
    - pose proof (land_bound (x mod pow2 p) 2147483646 31 ltac:(lia) ltac:(lia)).
      assert (2 ^ 31 <= 2 ^ N) by (apply Z.pow_le_mono_r; lia). lia.
    - split; [lia|]. apply Z.lt_le_trans with (2 ^ 32); [lia|]. apply Z.pow_le_mono_r; lia. }
  assert (B : 0 <= Z.shiftr x 8 < 2 ^ N).
  { rewrite Z.shiftr_div_pow2 by lia. split; [apply Z.div_pos; lia|]. apply Z.div_lt_upper_bound; [lia|].
    rewrite <- Z.pow_add_r by lia. unfold pow2 in X. assert (2 ^ bits (pu p) <= 2 ^ (8 + N)) by (apply Z.pow_le_mono_r; lia). lia. }
  rewrite (Z.mod_small (Z.land _ _)), (Z.mod_small (Z.shiftr _ _)) by lia.
  pose proof (lxor_lt N _ _ ltac:(lia) A B) as X2. clear - X2 PN. rewrite (Z.mod_small (Z.lxor _ _)), Z.mod_small by lia. lia.
Qed.

(** ---- C103: the fixed-point adapter ---- *)
Lemma from_same c v : wf c = true -> valid c v = true -> from_fixed_num_value c (cf c) (ct c) v = Ok v.
Proof.
  intros W V. unfold from_fixed_num_value. rewrite Z.gtb_ltb, Z.ltb_irrefl, Z.sub_diag.
  destruct (wf_bnd c W) as (Hb & _). pose proof (wf_ct c W) as CT. rewrite c_shl_ct by (auto; lia). cbn [bind]. rewrite Z.mul_1_l.
  assert (OP : ity_ok (promote (ct c)) = true) by (apply promote_ok; auto).
  assert (R1 : in_range (promote (ct c)) 1 = true) by (unfold in_range, minv, maxv, promote; unfold ity_ok in CT; destruct (_ <? _); [reflexivity|];
    assert (2 ^ 8 <= 2 ^ bits (ct c)) by (apply Z.pow_le_mono_r; lia); assert (2 ^ 7 <= 2 ^ (bits (ct c) - 1)) by (apply Z.pow_le_mono_r; lia); destruct (sgn _); lia).
  rewrite wrap_id by auto.
  assert (U : uac (ct c) (promote (ct c)) = promote (ct c)).
  { unfold uac. assert (PP : promote (promote (ct c)) = promote (ct c)) by (unfold promote; destruct (bits (ct c) <? 32) eqn:E; [reflexivity|rewrite E; reflexivity]).
    rewrite PP, eqb_reflx. destruct (_ <? _); reflexivity. }
  assert (RV : in_range (promote (ct c)) v = true) by (apply promote_range; auto).
  unfold c_mul. rewrite U, !wrap_id by auto. rewrite Z.mul_1_r. unfold arith. rewrite RV. rewrite wrap_id by auto.
  destruct (sgn (promote (ct c))); cbn [bind]; rewrite valid_wrap by auto; reflexivity.
Qed.
Lemma adapter_nonneg pl e v e' : eng_ok pcg2014 e = true -> adapter_draw pl F32 pcg2014 e = Ok (v, e') ->
  0 <= v <= adapter_max F32.
Proof.
  intros K. unfold adapter_draw. destruct (draw pl pcg2014 e) as [[r e1]| | |] eqn:D; cbn [bind]; try discriminate. cbn [fst snd].
  apply draw_bound in D; [|reflexivity|cbn; lia]. change (2 ^ Z.max 31 (bits (pu pcg2014) - 8)) with 2147483648 in D.
  assert (V : valid F32 r = true) by (unfold valid, in_range; cbn; lia).
  rewrite valid_wrap, from_same by (auto; reflexivity). cbn [bind]. intros E. injection E as <- _. change (adapter_max F32) with 2147483647. lia.
Qed.
Lemma adapter_nonneg64 pl e v e' : eng_ok pcg2014_64 e = true -> adapter_draw pl F64 pcg2014_64 e = Ok (v, e') ->
  0 <= v < 2 ^ 56.
Proof.
  intros K. unfold adapter_draw. destruct (draw pl pcg2014_64 e) as [[r e1]| | |] eqn:D; cbn [bind]; try discriminate. cbn [fst snd].
  apply draw_bound in D; [|reflexivity|cbn; lia]. change (2 ^ Z.max 31 (bits (pu pcg2014_64) - 8)) with 72057594037927936 in D.
  assert (V : valid F64 r = true) by (unfold valid, in_range; cbn; lia).
  rewrite valid_wrap, from_same by (auto; reflexivity). cbn [bind]. intros E. injection E as <- _. change (2 ^ 56) with 72057594037927936. lia.
Qed.
(** any configuration, any engine at least as wide: the adapter returns the engine's bits, reinterpreted *)
Lemma adapter_eq pl c p e r e' : wf c = true -> draw pl p e = Ok (r, e') ->
  adapter_draw pl c p e = Ok (wrap (ct c) r, e').
Proof.
  intros W D. unfold adapter_draw. rewrite D. cbn [bind fst snd]. rewrite from_same; [reflexivity|auto|].
  apply valid_wrap_valid; auto.
Qed.

(** ---- C83-C85 ---- *)
Fixpoint set_all (c : cfg) (dt : ity) (d : dist) (qs : list dparam) : res dist :=
  match qs with [] => Ok d | q :: r => let* d := dist_set_param c dt d q in set_all c dt d r end.

Definition sampler_ok {G} (sample : Z -> Z -> G -> Z * G) := forall a b g, a <= b -> a <= fst (sample a b g) <= b.
Definition q_ok (c : cfg) (q : dparam) := valid c (q_a q) = true /\ valid c (q_b q) = true /\ q_a q <= q_b q.
Definition holds (dt t : ity) := minv dt <= minv t /\ maxv t <= maxv dt.

Lemma wrap_hold c dt v : wf c = true -> ity_ok dt = true -> holds dt (ct c) -> valid c v = true -> wrap dt (wrap (ct c) v) = v.
Proof.
  intros W O [H1 H2] V. rewrite valid_wrap by auto. apply wrap_id; auto. unfold valid, in_range in *. lia.
Qed.
Lemma new_param c dt q : wf c = true -> ity_ok dt = true -> holds dt (ct c) -> q_ok c q ->
  sdist_new (wrap dt (wrap (ct c) (q_a q))) (wrap dt (wrap (ct c) (q_b q))) = Ok {| d_a := q_a q; d_b := q_b q |}.
Proof.
  intros W O H (VA & VB & L). rewrite !wrap_hold by auto. unfold sdist_new. replace (q_a q <=? q_b q) with true by lia. reflexivity.
Qed.
Lemma set_all_ok c dt qs : wf c = true -> ity_ok dt = true -> holds dt (ct c) -> Forall (q_ok c) qs ->
  forall q0, set_all c dt {| m_dist := {| d_a := q_a q0; d_b := q_b q0 |}; m_param := q0 |} qs =
    Ok (let q := last qs q0 in {| m_dist := {| d_a := q_a q; d_b := q_b q |}; m_param := q |}).
Proof.
  intros W O H F. induction F as [|q r Q F IH]; intros q0; [reflexivity|]. cbn [set_all]. unfold dist_set_param.
  rewrite new_param by auto. cbn [bind]. rewrite IH. cbn [last]. destruct r; [reflexivity|].
  do 2 f_equal; (replace (last (d :: r) q0) with (last (d :: r) q) by (clear; revert d; induction r; intros; cbn in *; auto)); reflexivity.
Qed.
Lemma dist_new_ok nd c dt a b : wf c = true -> ity_ok dt = true -> holds dt (ct c) -> valid c a = true -> valid c b = true -> a <= b ->
  dist_new nd c dt a b = Ok {| m_dist := {| d_a := a; d_b := b |}; m_param := {| q_a := a; q_b := b |} |}.
Proof.
  intros W O H VA VB L. unfold dist_new. pose proof (new_param c dt {| q_a := a; q_b := b |} W O H ltac:(split; auto)) as E. cbn [q_a q_b] in E.
  rewrite E. cbn [bind].
  unfold dparam_new. replace (nd || fx_le c a b) with true; [reflexivity|]. symmetry. apply orb_true_iff. right.
  rewrite fx_le_eq by auto. lia.
Qed.
Lemma draw_in {G} (sample : Z -> Z -> G -> Z * G) c q g : wf c = true -> sampler_ok sample -> q_ok c q ->
  exists v g', dist_draw sample c {| m_dist := {| d_a := q_a q; d_b := q_b q |}; m_param := q |} g = Ok (v, g') /\ q_a q <= v <= q_b q.
Proof.
  intros W S (VA & VB & L). unfold dist_draw, dist_draw_with. cbn [m_dist d_a d_b]. pose proof (S _ _ g L) as B.
  assert (V : valid c (fst (sample (q_a q) (q_b q) g)) = true) by (unfold valid, in_range in *; lia).
  rewrite valid_wrap, from_same by auto. cbn [bind]. eauto.
Qed.
Lemma C83_lemma nd c dt a b qs : wf c = true -> ity_ok dt = true -> holds dt (ct c) ->
  Forall (q_ok c) ({| q_a := a; q_b := b |} :: qs) ->
  exists d0 d, dist_new nd c dt a b = Ok d0 /\ set_all c dt d0 qs = Ok d /\
    dist_param d = last qs {| q_a := a; q_b := b |} /\ dist_min d = q_a (dist_param d) /\ dist_max d = q_b (dist_param d) /\
    forall G (sample : Z -> Z -> G -> Z * G) g, sampler_ok sample ->
      exists v g', dist_draw sample c d g = Ok (v, g') /\ dist_min d <= v <= dist_max d.
Proof.
  intros W O H F. inversion F as [|? ? (VA & VB & L) F2]. subst. cbn in VA, VB, L.
  do 2 eexists. split; [apply dist_new_ok; auto|]. split; [apply (set_all_ok c dt qs W O H F2 {| q_a := a; q_b := b |})|].
  cbv zeta. cbn. split; [reflexivity|]. split; [reflexivity|]. split; [reflexivity|].
  intros G sample g S. apply draw_in; auto.
  assert (Q : Forall (q_ok c) ({| q_a := a; q_b := b |} :: qs)) by auto. clear - Q.
  revert Q. generalize {| q_a := a; q_b := b |}. induction qs; intros q F; [inversion F; auto|]. inversion F; subst. inversion H2; subst.
  cbn [last]. destruct qs; [auto|]. apply IHqs. constructor; auto.
Qed.
Lemma param_ignored {G} (sample : Z -> Z -> G -> Z * G) c d q1 q2 g : dist_draw_with sample c d q1 g = dist_draw_with sample c d q2 g.
Proof. reflexivity. Qed.
(** a sampler returning the lower bound *)
Definition lowest (a b : Z) (g : unit) : Z * unit := (a, g).
Lemma param_refuted : exists d q v, dist_new false F32 int32 0 65536 = Ok d /\ q_ok F32 q /\
  sampler_ok lowest /\ dist_draw_with lowest F32 d q tt = Ok (v, tt) /\ v < q_a q.
Proof.
  eexists. exists {| q_a := 131072; q_b := 196608 |}, 0. split; [reflexivity|]. split; [repeat split; try reflexivity; cbn; lia|].
  split; [intros a b g; cbn; lia|]. split; [reflexivity|cbn; lia].
Qed.
Lemma default32 nd : exists d, dist_default nd F32 int32 = Ok d /\ d_a (m_dist d) = minv int32 /\ d_b (m_dist d) = maxv int32.
Proof. eexists. split; [unfold dist_default; apply (dist_new_ok nd F32 int32); try reflexivity; try (split; reflexivity); vm_compute; discriminate|]. split; reflexivity. Qed.
Lemma default64_refuted nd : dist_default nd F64 int32 = UB.
Proof. reflexivity. Qed.
Lemma narrow_refuted : exists a b d v, valid F64 a = true /\ valid F64 b = true /\ a <= b /\ dist_new false F64 int32 a b = Ok d /\
  sampler_ok lowest /\ dist_draw lowest F64 d tt = Ok (v, tt) /\ v < a.
Proof.
  exists (2 ^ 31), (2 ^ 31 + 5). eexists. exists (- 2 ^ 31). split; [reflexivity|]. split; [reflexivity|]. split; [lia|].
  split; [reflexivity|]. split; [intros a b g; cbn; lia|]. split; [reflexivity|]. lia.
Qed.

(** ---- C104: the textual form identifies the engine ---- *)
Lemma dgs_app_inj a b a' b' : is_digits 10 a -> is_digits 10 a' -> dgs a ++ 32 :: dgs b = dgs a' ++ 32 :: dgs b' -> dgs a = dgs a' /\ dgs b = dgs b'.
Proof.
  assert (N : forall d l, is_digits 10 (d :: l) -> digit_char false d <> 32).
  { intros d l H. inversion H. unfold digit_char. destruct (d <? 10); [lia|]. lia. }
  revert a'. induction a as [|d a IH]; intros [|d' a'] H H' E; cbn in E.
  - injection E as E. auto.
  - injection E as E _. exfalso. exact (N _ _ H' (eq_sym E)).
  - injection E as E _. exfalso. exact (N _ _ H E).
  - injection E as E1 E2. destruct (IH a') as [A B]; [inversion H; auto|inversion H'; auto|exact E2|]. split; [unfold dgs in *; cbn; congruence|auto].
Qed.
Lemma dgs_inj a b : is_digits 10 a -> is_digits 10 b -> dgs a = dgs b -> a = b.
Proof.
  revert b. induction a as [|x a IH]; intros [|y b] H H' E; cbn in E; try discriminate; [reflexivity|]. injection E as E1 E2.
  inversion H; inversion H'; subst. rewrite (IH b) by auto. f_equal. unfold digit_char in E1. 
  replace (x <? 10) with true in E1 by lia. replace (y <? 10) with true in E1 by lia. lia.
Qed.
Definition decimal (show : Z -> list Z) := forall n, 0 <= n -> exists ds, canon 10 ds n /\ show n = dgs ds.
Lemma C104_lemma show p a b : decimal show -> pcg_ok p = true -> eng_ok p a = true -> eng_ok p b = true ->
  stream_engine show a = stream_engine show b -> eng_eq p a b = true.
Proof.
  intros D H KA KB E. apply eng_eq_iff; auto. apply eok in KA; auto. apply eok in KB; auto. unfold stream_engine in E.
  destruct (D (m_seed a) ltac:(lia)) as (x & CX & EX). destruct (D (m_seed b) ltac:(lia)) as (y & CY & EY).
  destruct (D (m_state a) ltac:(lia)) as (z & CZ & EZ). destruct (D (m_state b) ltac:(lia)) as (w & CW & EW).
  rewrite EX, EY, EZ, EW in E. destruct CX as (X1 & X2 & _). destruct CY as (Y1 & Y2 & _). destruct CZ as (Z1 & Z2 & _). destruct CW as (W1 & W2 & _).
  apply dgs_app_inj in E; auto. destruct E as [E1 E2]. apply dgs_inj in E1; auto. apply dgs_inj in E2; auto.
  destruct a, b; cbn in *. congruence.
Qed.
Lemma not_full pl e v e' : draw pl pcg2014 e = Ok (v, e') -> v < 2 ^ 31 /\ 2 ^ 31 < eng_max pcg2014.
Proof.
  intros D. apply draw_bound in D; [|reflexivity|cbn; lia]. change (2 ^ Z.max 31 (bits (pu pcg2014) - 8)) with (2 ^ 31) in D. split; [lia|]. vm_compute. reflexivity.
Qed.
(** a decimal printer *)
Fixpoint dec10 (fuel : nat) (n : Z) : list Z :=
  match fuel with O => [n] | S k => if n <? 10 then [n] else dec10 k (n / 10) ++ [n mod 10] end.
Definition show10 (n : Z) : list Z := dgs (dec10 (Z.to_nat n) n).
Lemma dec10_ok k : forall n, 0 <= n <= Z.of_nat k -> canon 10 (dec10 k n) n.
Proof.
  induction k; intros n H.
  - assert (n = 0) by lia. subst. cbn. split; [repeat constructor; lia|]. split; [reflexivity|auto].
  - cbn [dec10]. destruct (Z.ltb_spec n 10).
    + split; [repeat constructor; lia|]. split; [cbn; lia|]. destruct (Z.eq_dec n 0); [subst; auto|right; eauto].
    + destruct (IHk (n / 10)) as (D & N & L); [split; [apply Z.div_pos; lia|]; apply Z.lt_succ_r; apply Z.div_lt_upper_bound; lia|].
      split; [|split].
      * apply Forall_app. split; [exact D|]. constructor; [apply Z.mod_pos_bound; lia|constructor].
      * rewrite num_app, N. change (Z.of_nat (length [n mod 10])) with 1. rewrite Z.pow_1_r. change (num 10 [n mod 10]) with (0 * 10 + n mod 10). pose proof (Z.div_mod n 10 ltac:(lia)). lia.
      * right. destruct L as [L|(d & r & L & ND)].
        -- rewrite L in N. cbn in N. assert (1 <= n / 10) by (apply Z.div_le_lower_bound; lia). lia.
        -- rewrite L. exists d, (r ++ [n mod 10]). auto.
Qed.
Lemma show10_ok : decimal show10.
Proof. intros n H. exists (dec10 (Z.to_nat n) n). split; [apply dec10_ok; lia|reflexivity]. Qed.
