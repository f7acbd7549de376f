(** Accuracy of the CORDIC loop. *)
From Coq Require Import ZArith Bool List Reals Lra Lia.
From Interval Require Import Tactic.
From Verif Require Import Base Fixed SpecReal RealLemmas Cordic CordicProofs.
Import ListNotations.
Open Scope R_scope.

Definition U := 1048576.
Lemma Rabs_le_between a b : Rabs a <= b <-> - b <= a <= b.
Proof. split; [intros H; unfold Rabs in H; destruct (Rcase_abs a); lra|apply Rabs_le]. Qed.
Lemma div_near x i : (0 <= i)%Z -> exists d, IZR (x / 2 ^ i) = IZR x * / IZR (2 ^ i) - d /\ 0 <= d < 1 /\ (i = 0%Z -> d = 0).
Proof.
  intros I. pose proof (Z.pow_pos_nonneg 2 i ltac:(lia) I) as P. apply IZR_lt in P as PR.
  pose proof (Z.div_mod x (2 ^ i) ltac:(lia)) as D. pose proof (Z.mod_pos_bound x (2 ^ i) P) as M. destruct M as [M1 M2]. apply IZR_le in M1. apply IZR_lt in M2.
  exists (IZR (x mod 2 ^ i) * / IZR (2 ^ i)). split; [|split; [split|]].
  - rewrite D at 2. rewrite plus_IZR, mult_IZR. field. lra.
  - apply Rmult_le_pos; [lra|]. apply Rlt_le, Rinv_0_lt_compat; lra.
  - apply (Rmult_lt_reg_r (IZR (2 ^ i))); [lra|]. rewrite Rmult_assoc, Rinv_l by lra. lra.
  - intros ->. rewrite Z.mod_1_r. lra.
Qed.

(** one exact rotation step *)
Lemma rot_cos P th t d : (d = 1 \/ d = -1) -> P * cos th - d * (P * sin th * t) = P * sqrt (1 + t²) * cos (th + d * atan t).
Proof.
  intros D. assert (S : 0 < sqrt (1 + t²)) by (apply sqrt_lt_R0; pose proof (Rle_0_sqr t); lra).
  destruct D as [-> | ->].
  - rewrite !Rmult_1_l, cos_plus, cos_atan, sin_atan. field. lra.
  - replace (th + -1 * atan t) with (th - atan t) by ring. rewrite cos_minus, cos_atan, sin_atan. field. lra.
Qed.
Lemma rot_sin P th t d : (d = 1 \/ d = -1) -> P * sin th + d * (P * cos th * t) = P * sqrt (1 + t²) * sin (th + d * atan t).
Proof.
  intros D. assert (S : 0 < sqrt (1 + t²)) by (apply sqrt_lt_R0; pose proof (Rle_0_sqr t); lra).
  destruct D as [-> | ->].
  - rewrite !Rmult_1_l, sin_plus, cos_atan, sin_atan. field. lra.
  - replace (th + -1 * atan t) with (th - atan t) by ring. rewrite sin_minus, cos_atan, sin_atan. field. lra.
Qed.

Fixpoint tab (S i : Z) (al tl : list Z) : Prop :=
  match al, tl with
  | [], [] => True
  | a :: al, t :: tl => Rabs (IZR a - IZR S * atan (/ IZR (2 ^ i))) <= IZR t / U /\ tab S (i + 1) al tl
  | _, _ => False
  end.
Fixpoint ef (i : Z) (al : list Z) (e : Z) : Z :=
  match al with [] => e | _ :: al => ef (i + 1) al (e + (e / 2 ^ i + 1) + (if i =? 0 then 0 else 1048576))%Z end.
Fixpoint rf (al : list Z) (r : Z) : Z := match al with [] => r | a :: al => rf al (Z.max (r - a) a) end.
Fixpoint gain (i : Z) (al : list Z) : R :=
  match al with [] => 1 | _ :: al => sqrt (1 + (/ IZR (2 ^ i))²) * gain (i + 1) al end.

(** rounding of one coordinate *)
Lemma step_err i e a b A B d : (0 <= i)%Z -> (0 <= e)%Z -> (d = 1 \/ d = -1) ->
  Rabs (IZR a - A) <= IZR e / U -> Rabs (IZR b - B) <= IZR e / U ->
  Rabs (IZR a + d * IZR (b / 2 ^ i) - (A + d * (B * / IZR (2 ^ i)))) <=
    IZR (e + (e / 2 ^ i + 1) + (if i =? 0 then 0 else 1048576))%Z / U.
Proof.
  intros I E D HA HB. destruct (div_near b i I) as (fr & -> & F & F0). destruct (div_near e i I) as (fe & EE & Fe & _).
  pose proof (Z.pow_pos_nonneg 2 i ltac:(lia) I) as P. apply IZR_lt in P. set (t := / IZR (2 ^ i)) in *.
  assert (T : 0 < t) by (apply Rinv_0_lt_compat, P).
  assert (HT : Rabs ((IZR b - B) * t) <= IZR e / U * t).
  { rewrite Rabs_mult, (Rabs_right t) by lra. apply Rmult_le_compat_r; lra. }
  rewrite !plus_IZR, EE. unfold U in *. apply Rabs_le_between in HA, HB, HT. apply Rabs_le_between.
  replace ((IZR e + (IZR e * t - fe + 1) + IZR (if (i =? 0)%Z then 0 else 1048576)) / 1048576)
    with (IZR e / 1048576 + IZR e / 1048576 * t + (1 - fe) / 1048576 + IZR (if (i =? 0)%Z then 0 else 1048576) / 1048576) by field.
  assert (G : fr <= IZR (if (i =? 0)%Z then 0 else 1048576) / 1048576).
  { destruct (Z.eqb_spec i 0); [rewrite F0 by auto; lra|lra]. }
  destruct D as [-> | ->]; split; lra.
Qed.
Lemma e_pos i e : (0 <= i)%Z -> (0 <= e)%Z -> (0 <= e + (e / 2 ^ i + 1) + (if i =? 0 then 0 else 1048576))%Z.
Proof. intros I E. pose proof (Z.pow_pos_nonneg 2 i ltac:(lia) I). assert (0 <= e / 2 ^ i)%Z by (apply Z.div_pos; lia). destruct (i =? 0)%Z; lia. Qed.

Lemma run_acc S Q : forall al tl i x y q th P e r t, (0 <= i)%Z -> (0 <= e)%Z -> tab S i al tl ->
  Rabs (IZR x - P * cos th) <= IZR e / U -> Rabs (IZR y - P * sin th) <= IZR e / U ->
  Rabs (IZR q - IZR S * th) <= IZR t / U -> (Z.abs (Q - q) <= r)%Z ->
  exists x' y' q' th', crun Q i al x y q = (x', y', q') /\
    Rabs (IZR x' - P * gain i al * cos th') <= IZR (ef i al e) / U /\
    Rabs (IZR y' - P * gain i al * sin th') <= IZR (ef i al e) / U /\
    Rabs (IZR q' - IZR S * th') <= IZR (t + sumz tl) / U /\ (Z.abs (Q - q') <= rf al r)%Z.
Proof.
  induction al as [|a al IH]; intros tl i x y q th P e r t I E TB HX HY HQ HR.
  - destruct tl; [|destruct TB]. exists x, y, q, th. cbn [crun gain ef rf sumz fold_right]. rewrite Rmult_1_r, Z.add_0_r. auto.
  - destruct tl as [|t1 tl]; [destruct TB|]. cbn [tab] in TB. destruct TB as [TA TB].
    assert (STEP : forall d x' y' q', (d = 1 \/ d = -1) ->
       IZR x' = IZR x - d * IZR (y / 2 ^ i) -> IZR y' = IZR y + d * IZR (x / 2 ^ i) -> IZR q' = IZR q + d * IZR a ->
       (Z.abs (Q - q') <= Z.max (r - a) a)%Z ->
       exists x2 y2 q2 th', crun Q (i + 1) al x' y' q' = (x2, y2, q2) /\
         Rabs (IZR x2 - P * gain i (a :: al) * cos th') <= IZR (ef i (a :: al) e) / U /\
         Rabs (IZR y2 - P * gain i (a :: al) * sin th') <= IZR (ef i (a :: al) e) / U /\
         Rabs (IZR q2 - IZR S * th') <= IZR (t + sumz (t1 :: tl)) / U /\ (Z.abs (Q - q2) <= rf (a :: al) r)%Z).
    { intros d x' y' q' D EX EY EQ RR. set (tt := / IZR (2 ^ i)) in *.
      pose proof (step_err i e x y (P * cos th) (P * sin th) (- d) I E ltac:(destruct D as [-> | ->]; lra) HX HY) as SX.
      pose proof (step_err i e y x (P * sin th) (P * cos th) d I E D HY HX) as SY. fold tt in SX, SY.
      replace (P * cos th + - d * (P * sin th * tt)) with (P * cos th - d * (P * sin th * tt)) in SX by ring.
      rewrite (rot_cos P th tt d D) in SX. rewrite (rot_sin P th tt d D) in SY.
      destruct (IH tl (i + 1)%Z x' y' q' (th + d * atan tt) (P * sqrt (1 + tt²)) _ (Z.max (r - a) a) (t + t1)%Z ltac:(lia) (e_pos i e I E) TB) as (x2 & y2 & q2 & th' & C & C1 & C2 & C3 & C4).
      - rewrite EX. replace (IZR x - d * IZR (y / 2 ^ i)) with (IZR x + - d * IZR (y / 2 ^ i)) by ring. exact SX.
      - rewrite EY. exact SY.
      - rewrite EQ. rewrite plus_IZR. apply Rabs_le_between in HQ, TA. apply Rabs_le_between. unfold U in *. destruct D as [-> | ->]; split; lra.
      - exact RR.
      - exists x2, y2, q2, th'. cbn [gain ef rf]. fold tt. rewrite <- !Rmult_assoc. split; [exact C|]. split; [exact C1|]. split; [exact C2|]. split; [|exact C4].
        cbn [sumz fold_right]. fold (sumz tl). replace (t + (t1 + sumz tl))%Z with (t + t1 + sumz tl)%Z by lia. exact C3. }
    cbn [crun]. destruct (Z.ltb_spec q Q).
    + apply (STEP 1); rewrite ?minus_IZR, ?plus_IZR; try lra; auto; lia.
    + apply (STEP (-1)); rewrite ?minus_IZR, ?plus_IZR; try lra; auto; lia.
Qed.
