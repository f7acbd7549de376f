(** Ties of the integer-to-float rounding go to the number with the even significand. *)
From Coq Require Import ZArith Bool Lia QArith Qabs.
From Verif Require Import Base Fixed Float Spec SpecFp BaseLemmas SpecLemmas FixedLemmas ConvProofs FloatProofs FloatThms.
Open Scope Z_scope.

Lemma tie_eq w q z n r : 0 < w -> n = w * q + r -> 0 <= r < w ->
  z <> (if 2 * r <? w then q else if w <? 2 * r then q + 1 else if Z.even q then q else q + 1) ->
  Z.abs (z * w - n) = Z.abs ((if 2 * r <? w then q else if w <? 2 * r then q + 1 else if Z.even q then q else q + 1) * w - n) ->
  2 * r = w.
Proof.
  intros W -> R N E. destruct (2 * r <? w) eqn:E1; [|destruct (w <? 2 * r) eqn:E2; [|lia]]; exfalso.
  - assert (z < q \/ q < z) as [H|H] by lia.
    + assert (z * w + w <= q * w) by nia. lia.
    + assert (q * w + w <= z * w) by nia. lia.
  - assert (z < q + 1 \/ q + 1 < z) as [H|H] by lia.
    + assert (z * w <= q * w) by nia. lia.
    + assert ((q + 1) * w + w <= z * w) by nia. lia.
Qed.

Lemma tie_pos p n z : 2 <= p -> 0 < n -> irep p z -> z <> rne_pos p n -> Z.abs (z - n) = Z.abs (rne_pos p n - n) ->
  irep (p - 1) (rne_pos p n).
Proof.
  intros P N I NE E. destruct (Z_le_gt_dec (Z.log2 n + 1 - p) 0) as [S|S].
  { rewrite rne_small in * by lia. exfalso. lia. }
  pose proof (logb n N) as LB. pose proof (L0 n) as L0.
  assert (G : exists q, z = q * 2 ^ (Z.log2 n + 1 - p)).
  { destruct I as (a & t & T & A & ->). pose proof (p2 t T).
    destruct (Z_le_gt_dec (2 ^ Z.log2 n) (a * 2 ^ t)) as [C|C].
    - pose proof (p2 (Z.log2 n) L0). apply (grid p n ltac:(lia) N a t T ltac:(nia) C ltac:(lia)).
    - exfalso. destruct (pow_mult p n ltac:(lia) N ltac:(lia)) as (q & E1). pose proof (rne_best p n ltac:(lia) N q ltac:(lia)) as B. rewrite <- E1 in B. lia. }
  destruct G as (j & ->). clear I.
  destruct (rne_round p n ltac:(lia) N ltac:(lia)) as (q' & E' & B').
  unfold rne_pos in *. set (s := Z.log2 n + 1 - p) in *. replace (s <=? 0) with false in * by lia. cbv zeta in *.
  pose proof (p2 s ltac:(lia)) as W.
  pose proof (Z.div_mod n (2 ^ s) ltac:(lia)) as D. pose proof (Z.mod_pos_bound n (2 ^ s) W) as M.
  set (q := n / 2 ^ s) in *. set (r := n mod 2 ^ s) in *.
  assert (HT : 2 * r = 2 ^ s).
  { apply (tie_eq (2 ^ s) q j n r); auto. intros C. apply NE. rewrite C. reflexivity. }
  replace (2 * r <? 2 ^ s) with false in * by lia. replace (2 ^ s <? 2 * r) with false in * by lia.
  set (q1 := if Z.even q then q else q + 1) in *.
  assert (EV : exists h, q1 = 2 * h).
  { unfold q1. destruct (Z.even q) eqn:EQ.
    - apply Z.even_spec in EQ. exact EQ.
    - assert (O : Z.odd q = true) by (rewrite <- Z.negb_even, EQ; reflexivity). apply Z.odd_spec in O. destruct O as (h & ->). exists (h + 1). ring. }
  destruct EV as (h & EV). rewrite EV.
  assert (LE : 2 ^ Z.log2 n = 2 ^ (p - 1) * 2 ^ s) by (rewrite <- Z.pow_add_r by lia; f_equal; lia).
  assert (LE1 : 2 ^ (Z.log2 n + 1) = 2 * 2 ^ (p - 1) * 2 ^ s).
  { replace (Z.log2 n + 1) with (Z.succ (Z.log2 n)) by lia. rewrite Z.pow_succ_r, LE by lia. ring. }
  rewrite LE1 in LB. rewrite EV in E'. assert (Q : 0 <= h <= 2 ^ (p - 1)).
  { assert (q' = 2 * h) by (apply (Z.mul_reg_r _ _ (2 ^ s)); lia). subst q'. pose proof (p2 (p - 1) ltac:(lia)) as H1.
    clear - LB B' W H1. set (g := 2 ^ (p - 1)) in *. set (w := 2 ^ s) in *. clearbody g w. nia. }
  destruct (Z.eq_dec h (2 ^ (p - 1))) as [-> |NQ].
  - exists 1, (p + s). split; [lia|]. split.
    + change (Z.abs 1) with (2 ^ 0). apply Z.pow_lt_mono_r; lia.
    + replace (p + s) with (1 + (p - 1) + s) by ring. rewrite !Z.pow_add_r by lia. change (2 ^ 1) with 2. ring.
  - exists h, (s + 1). split; [lia|]. split; [lia|]. rewrite Z.pow_add_r by lia. change (2 ^ 1) with 2. ring.
Qed.
Lemma tie_all p n z : 2 <= p -> irep p z -> z <> rne p n -> Z.abs (z - n) = Z.abs (rne p n - n) -> irep (p - 1) (rne p n).
Proof.
  intros P I NE E. destruct (Z.eq_dec n 0) as [-> |N]; [rewrite rne_0 in *; exfalso; lia|].
  unfold rne in *. destruct (n <? 0) eqn:S.
  - apply irep_opp. apply (tie_pos p (- n) (- z)); auto; try lia. apply irep_opp. exact I.
  - apply (tie_pos p n z); auto; lia.
Qed.

Theorem cast_ties p c m n : 2 <= p -> wf c = true -> valid c m = true -> is_trunc 0 (qval (cf c) m) n ->
  exists r, fx_to_fval p c m = Ok (Fin r 0) /\
    forall r', fp_rep p r' -> ~ (r' == inject_Z r)%Q -> (Qabs (r' - inject_Z n) == Qabs (inject_Z r - inject_Z n))%Q -> fp_rep (p - 1) (inject_Z r).
Proof.
  intros P W V T. exists (rne p n). split; [unfold fx_to_fval; rewrite (float_cast_trunc c m n W V T); reflexivity|].
  intros r' R NE D.
  assert (Z : exists z, (r' == inject_Z z)%Q /\ Z.abs (z - n) = Z.abs (rne p n - n)).
  { set (d := Z.abs (rne p n - n)) in *.
    assert (DE : (Qabs (inject_Z (rne p n) - inject_Z n) == inject_Z d)%Q).
    { unfold d, Qabs, Qminus, Qplus, Qopp, inject_Z, Qeq. cbn [Qnum Qden]. lia. }
    rewrite DE in D. destruct (Qlt_le_dec (r' - inject_Z n) 0) as [L|G].
    - exists (n - d). split.
      + rewrite Qabs_neg in D by (apply Qlt_le_weak; exact L). unfold Z.sub. rewrite inject_Z_plus, inject_Z_opp. rewrite <- D. ring.
      + assert (0 <= d) by (unfold d; lia). lia.
    - exists (n + d). split.
      + rewrite Qabs_pos in D by exact G. rewrite inject_Z_plus. rewrite <- D. ring.
      + assert (0 <= d) by (unfold d; lia). lia. }
  destruct Z as (z & Ez & Dz).
  assert (I : irep p z).
  { apply (fp_irep p z 0); [lia|]. destruct R as (a & t & k & H1 & H2 & H3 & H4). exists a, t, k. repeat split; auto. rewrite <- H4, Ez. reflexivity. }
  assert (J : irep (p - 1) (rne p n)).
  { apply (tie_all p n z); auto. intros C. apply NE. rewrite Ez, C. reflexivity. }
  apply (irep_fp (p - 1) (rne p n) 0) in J; [|lia]. destruct J as (a & t & k & H1 & H2 & H3 & H4). exists a, t, k. repeat split; auto.
Qed.
