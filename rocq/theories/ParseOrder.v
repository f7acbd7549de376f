(** detail::parse keeps the order of decimal numerals. *)
From Coq Require Import ZArith Bool Lia List QArith.
From Verif Require Import Base Fixed Spec SpecText TextIn BaseLemmas CLemmas FixedLemmas SpecLemmas NumLemmas InLemmas InProofs.
Import ListNotations.
Open Scope Z_scope.

Definition p10 (ds : list Z) : Z := 10 ^ Z.of_nat (length ds).
Lemma p10_pos ds : 0 < p10 ds. Proof. unfold p10. apply Z.pow_pos_nonneg; lia. Qed.
Lemma p10_app xs ys : p10 (xs ++ ys) = p10 xs * p10 ys.
Proof. unfold p10. rewrite app_length, Nat2Z.inj_add, Z.pow_add_r by lia. reflexivity. Qed.

Lemma split_len (ds : list Z) k : (k <= length ds)%nat -> exists a b, ds = a ++ b /\ length a = k.
Proof.
  intros H. exists (firstn k ds), (skipn k ds). split; [symmetry; apply firstn_skipn|].
  rewrite firstn_length. lia.
Qed.

(** cutting the fraction digits keeps the order *)
Lemma cut_order lim f1 f2 r1 u1 r2 u2 : is_digits 10 f1 -> is_digits 10 f2 ->
  dec_result lim f1 r1 u1 -> dec_result lim f2 r2 u2 ->
  num 10 f1 * p10 f2 <= num 10 f2 * p10 f1 -> num 10 r1 * p10 r2 <= num 10 r2 * p10 r1.
Proof.
  intros H1 H2 (E1 & C1 & P1) (E2 & C2 & P2) L. subst f1 f2.
  apply is_digits_app in H1, H2. destruct H1 as [HR1 HU1], H2 as [HR2 HU2].
  pose proof (num_nonneg 10 r1 ltac:(lia) HR1) as N1. pose proof (num_nonneg 10 r2 ltac:(lia) HR2) as N2.
  pose proof (num_nonneg 10 u1 ltac:(lia) HU1) as M1. pose proof (num_nonneg 10 u2 ltac:(lia) HU2) as M2.
  rewrite !num_app, !p10_app in L. fold (p10 r1) in N1. fold (p10 r2) in N2. fold (p10 u1) in M1, L. fold (p10 u2) in M2, L.
  pose proof (p10_pos r1) as Q1. pose proof (p10_pos r2) as Q2. pose proof (p10_pos u1) as V1. pose proof (p10_pos u2) as V2.
  (* x >= R1 / D1, so R1 * D2 * L2 <= (R2 * L2 + U2) * D1 *)
  assert (A : num 10 r1 * (p10 r2 * p10 u2) <= (num 10 r2 * p10 u2 + num 10 u2) * p10 r1).
  { apply Z.mul_le_mono_pos_r with (p := p10 u1); [exact V1|].
    assert (0 <= num 10 u1 * (p10 r2 * p10 u2)) by (clear - M1 Q2 V2; nia). clear - L H. nia. }
  destruct C2 as [->|C2].
  { change (num 10 []) with 0 in A. change (p10 []) with 1 in A. clear - A. nia. }
  destruct (Nat.le_gt_cases (length r1) (length r2)) as [K|K].
  - (* same cut or a later one *)
    destruct (split_len r2 (length r1) K) as (a & b & E & KA).
    assert (PA : p10 a = p10 r1) by (unfold p10; rewrite KA; reflexivity).
    assert (PR : p10 r2 = p10 r1 * p10 b) by (rewrite E, p10_app, PA; reflexivity).
    rewrite PR in A |- *. pose proof (p10_pos b) as Vb.
    assert (X : num 10 r1 * p10 b <= num 10 r2).
    { assert (B : num 10 r1 * p10 b * p10 u2 * p10 r1 < (num 10 r2 + 1) * p10 u2 * p10 r1).
      { assert (num 10 u2 * p10 r1 < p10 u2 * p10 r1) by (clear - M2 Q1; nia). clear - A H. nia. }
      apply Z.mul_lt_mono_pos_r in B; [|exact Q1]. apply Z.mul_lt_mono_pos_r in B; [|exact V2]. clear - B; lia. }
    clear - X Q1. nia.
  - destruct (split_len r1 (length r2) ltac:(lia)) as (a & b & E & KA).
    assert (PA : p10 a = p10 r2) by (unfold p10; rewrite KA; reflexivity).
    assert (NB : b <> []) by (intros ->; rewrite app_nil_r in E; subst a; clear - K KA; lia).
    specialize (P1 a b E NB).
    rewrite E in HR1. apply is_digits_app in HR1. destruct HR1 as [_ HB].
    pose proof (num_nonneg 10 b ltac:(lia) HB) as Nb. fold (p10 b) in Nb.
    rewrite E, num_app, p10_app. fold (p10 b). rewrite PA.
    assert (num 10 a * p10 b + num 10 b <= num 10 r2 * p10 b) by (clear - Nb P1 C2; nia).
    clear - H Q2. nia.
Qed.

(** the stored magnitude *)
Definition mag (f : Z) (ip r : list Z) : Z := num 10 ip * 2 ^ f + num 10 r * 2 ^ f / p10 r.

Lemma mag_order f i1 i2 f1 f2 r1 u1 r2 u2 lim : 0 <= f -> is_digits 10 f1 -> is_digits 10 f2 ->
  dec_result lim f1 r1 u1 -> dec_result lim f2 r2 u2 ->
  (numeral 10 false i1 f1 <= numeral 10 false i2 f2)%Q -> mag f i1 r1 <= mag f i2 r2.
Proof.
  intros F H1 H2 D1 D2 L.
  pose proof (num_nonneg 10 f1 ltac:(lia) H1) as N1. pose proof (num_nonneg 10 f2 ltac:(lia) H2) as N2.
  fold (p10 f1) in N1. fold (p10 f2) in N2.
  unfold numeral, Qle in L; cbn [Qnum Qden] in L. fold (p10 f1) in L. fold (p10 f2) in L.
  pose proof (p10_pos f1) as Q1. pose proof (p10_pos f2) as Q2. rewrite !Z2Pos.id in L by assumption.
  assert (P : 0 < 2 ^ f) by (apply pow2_pos; lia).
  assert (R1 : is_digits 10 r1 /\ is_digits 10 r2).
  { destruct D1 as (E & _), D2 as (E' & _). rewrite E in H1. rewrite E' in H2. apply is_digits_app in H1, H2. tauto. }
  destruct R1 as [R1 R2].
  pose proof (num_nonneg 10 r1 ltac:(lia) R1) as M1. pose proof (num_nonneg 10 r2 ltac:(lia) R2) as M2.
  fold (p10 r1) in M1. fold (p10 r2) in M2.
  pose proof (p10_pos r1) as V1. pose proof (p10_pos r2) as V2.
  assert (B1 : 0 <= num 10 r1 * 2 ^ f / p10 r1 < 2 ^ f).
  { split; [apply Z.div_pos; [clear - M1 P; nia|exact V1]|]. apply Z.div_lt_upper_bound; [exact V1|]. clear - M1 P. nia. }
  assert (B2 : 0 <= num 10 r2 * 2 ^ f / p10 r2).
  { apply Z.div_pos; [clear - M2 P; nia|exact V2]. }
  assert (I : num 10 i1 <= num 10 i2).
  { destruct (Z.le_gt_cases (num 10 i1) (num 10 i2)) as [X|X]; [exact X|exfalso].
    assert (num 10 i2 * p10 f2 + num 10 f2 < num 10 i1 * p10 f2) by (clear - X N2; nia).
    assert (0 <= num 10 f1 * p10 f2) by (clear - N1 Q2; nia).
    assert ((num 10 i2 * p10 f2 + num 10 f2) * p10 f1 < num 10 i1 * p10 f2 * p10 f1) by (clear - H Q1; nia).
    clear - L H0 H3. nia. }
  unfold mag. apply Zle_lt_or_eq in I. destruct I as [I|I].
  - assert ((num 10 i1 + 1) * 2 ^ f <= num 10 i2 * 2 ^ f) by (clear - I P; nia). clear - H B1 B2. lia.
  - rewrite I in L |- *. apply Z.add_le_mono_l.
    assert (FL : num 10 f1 * p10 f2 <= num 10 f2 * p10 f1) by (clear - L; nia).
    pose proof (cut_order lim f1 f2 r1 u1 r2 u2 H1 H2 D1 D2 FL) as C.
    apply Z.div_le_lower_bound; [exact V2|].
    pose proof (Z.mul_div_le (num 10 r1 * 2 ^ f) (p10 r1) V1) as DL.
    set (q := num 10 r1 * 2 ^ f / p10 r1) in *.
    apply Z.mul_le_mono_pos_r with (p := p10 r1); [exact V1|].
    assert (num 10 r1 * 2 ^ f * p10 r2 <= num 10 r2 * 2 ^ f * p10 r1) by (clear - C P; nia).
    assert (p10 r1 * q * p10 r2 <= num 10 r1 * 2 ^ f * p10 r2) by (clear - DL V2; nia).
    clear - H H0. nia.
Qed.

(** conditions under which a numeral is in range and can be read without overflow *)
Definition readable (c : cfg) (neg : bool) (ip fp : list Z) : Prop :=
  is_digits 10 ip /\ is_digits 10 fp /\ (neg = true -> sgn (ct c) = true) /\
  (numeral 10 false ip fp < qval (cf c) (hi (bits (ct c)) (sgn (ct c)) + 1))%Q /\
  10 ^ (leading_zeros fp + 1) * 2 ^ cf c <= hi (bits (ci c)) (sgn (ci c)).

Lemma parse_mag c neg ip fp old : wf c = true -> cf c <= 62 -> readable c neg ip (frac_of fp) ->
  exists r u, dec_result (lim_of c) (frac_of fp) r u /\ 0 <= mag (cf c) ip r /\
    (qval (cf c) (mag (cf c) ip r) <= numeral 10 false ip (frac_of fp))%Q /\
    detail_parse c (dec_text neg ip fp) old = Ok (true, if neg then - mag (cf c) ip r else mag (cf c) ip r).
Proof.
  intros W F (HI & HF & S & RG & MZ). change (hi (bits (ci c)) (sgn (ci c))) with (maxv (ci c)) in MZ.
  pose proof (cf_pos c W) as P. pose proof (lim_bounds c W) as (L0 & L1 & L2).
  destruct (wf_bnd c W) as (BB & K & KI & B2 & SE & F1).
  destruct (in_range_int c ip (frac_of fp) W HF RG) as [M1 M2].
  destruct (parse_eval c neg ip fp old W F HI HF M2 (or_introl MZ)) as (r & u & DR & E).
  destruct (cut_value (cf c) (lim_of c) ip (frac_of fp) r u ltac:(clear - F1; lia) HF DR L2) as (C1 & C2 & _).
  exists r, u. fold (p10 r) in E, C1. cbv zeta in C1. fold (mag (cf c) ip r) in E, C1.
  split; [exact DR|].
  pose proof (num_nonneg 10 ip ltac:(lia) HI) as NI.
  destruct DR as (EF & _ & _). rewrite EF in HF. apply is_digits_app in HF. destruct HF as [HR _].
  pose proof (num_nonneg 10 r ltac:(lia) HR) as NR.
  assert (V0 : 0 <= mag (cf c) ip r).
  { unfold mag. assert (0 <= num 10 r * 2 ^ cf c / p10 r).
    { apply Z.div_pos; [clear - NR P; nia|apply p10_pos]. }
    clear - H NI P. nia. }
  assert (VM : mag (cf c) ip r <= maxv (ct c)).
  { pose proof (Qle_lt_trans _ _ _ C1 RG) as X. apply qval_lt in X.
    change (hi (bits (ct c)) (sgn (ct c))) with (maxv (ct c)) in X. clear - X. lia. }
  split; [exact V0|]. split; [exact C1|]. rewrite E. apply finish_ok; auto.
Qed.

Lemma numeral_neg ip fp : numeral 10 true ip fp = (- numeral 10 false ip fp)%Q.
Proof. reflexivity. Qed.

Lemma numeral_nn ip fp : is_digits 10 ip -> is_digits 10 fp -> (0 <= numeral 10 false ip fp)%Q.
Proof.
  intros A B. pose proof (num_nonneg 10 ip ltac:(lia) A). pose proof (num_nonneg 10 fp ltac:(lia) B).
  unfold numeral, Qle; cbn [Qnum Qden]. nia.
Qed.

Lemma qval_nn0 f m : (qval f m <= 0)%Q -> m <= 0.
Proof. unfold qval, Qle; cbn [Qnum Qden]. nia. Qed.

Lemma parse_order c n1 i1 p1 n2 i2 p2 o1 o2 : wf c = true -> cf c <= 62 ->
  readable c n1 i1 (frac_of p1) -> readable c n2 i2 (frac_of p2) ->
  (numeral 10 n1 i1 (frac_of p1) <= numeral 10 n2 i2 (frac_of p2))%Q ->
  exists m1 m2, detail_parse c (dec_text n1 i1 p1) o1 = Ok (true, m1) /\
    detail_parse c (dec_text n2 i2 p2) o2 = Ok (true, m2) /\ m1 <= m2.
Proof.
  intros W F R1 R2 L. destruct (wf_bnd c W) as (BB & K & KI & B2 & SE & F1).
  destruct (parse_mag c n1 i1 p1 o1 W F R1) as (r1 & u1 & D1 & V1 & C1 & E1).
  destruct (parse_mag c n2 i2 p2 o2 W F R2) as (r2 & u2 & D2 & V2 & C2 & E2).
  destruct R1 as (HI1 & HF1 & _), R2 as (HI2 & HF2 & _).
  pose proof (numeral_nn i1 (frac_of p1) HI1 HF1) as N1. pose proof (numeral_nn i2 (frac_of p2) HI2 HF2) as N2.
  eexists _, _. split; [exact E1|]. split; [exact E2|].
  destruct n1, n2; try rewrite !numeral_neg in L; try rewrite numeral_neg in L.
  - apply Qopp_le_compat in L. rewrite !Qopp_involutive in L.
    pose proof (mag_order (cf c) i2 i1 _ _ r2 u2 r1 u1 (lim_of c) ltac:(clear - F1; lia) HF2 HF1 D2 D1 L). lia.
  - lia.
  - assert (Z1 : (numeral 10 false i1 (frac_of p1) <= 0)%Q).
    { apply (Qle_trans _ _ _ L). apply Qopp_le_compat in N2. exact N2. }
    assert (Z2 : (numeral 10 false i2 (frac_of p2) <= 0)%Q).
    { apply (Qle_trans _ _ _ N1) in L. apply Qopp_le_compat in L. rewrite Qopp_involutive in L. exact L. }
    pose proof (qval_nn0 _ _ (Qle_trans _ _ _ C1 Z1)). pose proof (qval_nn0 _ _ (Qle_trans _ _ _ C2 Z2)). lia.
  - exact (mag_order (cf c) i1 i2 _ _ r1 u1 r2 u2 (lim_of c) ltac:(clear - F1; lia) HF1 HF2 D1 D2 L).
Qed.

Lemma parse_same c n1 i1 p1 n2 i2 p2 o1 o2 : wf c = true -> cf c <= 62 ->
  readable c n1 i1 (frac_of p1) -> readable c n2 i2 (frac_of p2) ->
  (numeral 10 n1 i1 (frac_of p1) == numeral 10 n2 i2 (frac_of p2))%Q ->
  detail_parse c (dec_text n1 i1 p1) o1 = detail_parse c (dec_text n2 i2 p2) o2.
Proof.
  intros W F R1 R2 E.
  destruct (parse_order c n1 i1 p1 n2 i2 p2 o1 o2 W F R1 R2 (proj2 (Qle_lteq _ _) (or_intror E))) as (a & b & A & B & L).
  destruct (parse_order c n2 i2 p2 n1 i1 p1 o2 o1 W F R2 R1 (proj2 (Qle_lteq _ _) (or_intror (Qeq_sym _ _ E)))) as (a' & b' & A' & B' & L').
  rewrite A, B. rewrite B in A'. rewrite A in B'. injection A' as <-. injection B' as <-.
  replace b with a by lia. reflexivity.
Qed.

Lemma from_cstring_order c n1 i1 p1 n2 i2 p2 o1 o2 : wf c = true -> cf c <= 62 ->
  cf c <= bits (ct c) - (if sgn (ct c) then 2 else 1) ->
  readable c n1 i1 (frac_of p1) -> readable c n2 i2 (frac_of p2) ->
  (numeral 10 n1 i1 (frac_of p1) <= numeral 10 n2 i2 (frac_of p2))%Q ->
  exists m1 m2, fixed_from_cstring c (dec_text n1 i1 p1) o1 = Ok (true, m1) /\
    fixed_from_cstring c (dec_text n2 i2 p2) o2 = Ok (true, m2) /\ m1 <= m2.
Proof.
  intros W F K R1 R2 L. rewrite !from_cstring_agrees by (auto; try apply R1; apply R2). apply parse_order; auto.
Qed.
Lemma literal_order c n1 i1 p1 n2 i2 p2 o1 o2 : wf c = true -> cf c <= 62 ->
  readable c n1 i1 (frac_of p1) -> readable c n2 i2 (frac_of p2) ->
  (numeral 10 n1 i1 (frac_of p1) <= numeral 10 n2 i2 (frac_of p2))%Q ->
  exists m1 m2, literal c (dec_text n1 i1 p1) o1 = Ok m1 /\ literal c (dec_text n2 i2 p2) o2 = Ok m2 /\ m1 <= m2.
Proof.
  intros W F R1 R2 L. destruct (parse_order c n1 i1 p1 n2 i2 p2 o1 o2 W F R1 R2 L) as (a & b & E1 & E2 & H).
  exists a, b. unfold literal. rewrite E1, E2. auto.
Qed.
