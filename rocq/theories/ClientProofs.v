From Coq Require Import ZArith QArith Qabs Lia Lqa Bool List Permutation.
From Verif Require Import Base Fixed Spec SpecClient Client BaseLemmas SpecLemmas FixedLemmas ArithProofs ArithProofs2 PowAcc.
Import ListNotations.
Open Scope Z_scope.

Lemma qval_add f x y : (qval f (x + y) == qval f x + qval f y)%Q.
Proof. unfold qval, Qeq, Qplus. cbn [Qnum Qden]. rewrite Pos2Z.inj_mul. ring. Qed.
Lemma qval_le f x y : (qval f x <= qval f y)%Q <-> x <= y.
Proof. unfold qval, Qle. cbn [Qnum Qden]. split; nia. Qed.
Lemma qval_abs f x : (Qabs (qval f x) == qval f (Z.abs x))%Q.
Proof. reflexivity. Qed.

Section CL.
Variable c : cfg.
Hypotheses (W : wf c = true).
Let f := cf c.
Let M := 2 ^ cf c.

Lemma add_ok x y : valid c x = true -> valid c y = true -> valid c (x + y) = true -> fx_add_assign c x y = Ok (x + y).
Proof using All. intros A B C. change (fx_add_assign c x y) with (fx_add c x y). rewrite fx_add_eq by auto. apply ovf_valid; auto. Qed.

Fixpoint zsum (l : list Z) : Z := match l with [] => 0 | x :: l => x + zsum l end.
Lemma qsum_z l : (qsum f l == qval f (zsum l))%Q.
Proof using All. induction l as [|x l IH]; cbn [qsum zsum]; [reflexivity|]. rewrite IH, qval_add. reflexivity. Qed.

(** a sum is exact whenever it is never out of range on the way *)
Theorem sum_exact : forall l acc, valid c acc = true -> Forall (fun x => valid c x = true) l ->
  (forall k, representable (bits (ct c)) (sgn (ct c)) f (qval f acc + qsum f (firstn k l))) ->
  exists r, sum_loop c acc l = Ok r /\ valid c r = true /\ (qval f r == qval f acc + qsum f l)%Q.
Proof using All.
  induction l as [|x l IH]; intros acc Va Fl H; cbn [sum_loop qsum].
  - exists acc. repeat split; auto. ring.
  - inversion Fl as [|? ? Vx Fl']; subst. specialize (H 1%nat) as H1. cbn [firstn qsum] in H1.
    assert (V : valid c (acc + x) = true).
    { destruct H1 as (m & Fm & Qm). replace (acc + x) with m; [apply fits_valid; auto|].
      assert (E : (qval f m == qval f (acc + x))%Q) by (rewrite Qm, qval_add; ring).
      unfold qval, Qeq in E. cbn [Qnum Qden] in E. nia. }
    rewrite add_ok by auto. cbn [bind].
    destruct (IH (acc + x) V Fl') as (r & E1 & V1 & Q1).
    { intros k. specialize (H (S k)). cbn [firstn qsum] in H. destruct H as (m & Fm & Qm). exists m. split; auto.
      rewrite Qm, qval_add. ring. }
    exists r. repeat split; auto. rewrite Q1, qval_add. ring.
Qed.

(** the result does not depend on the order, wherever both orders are defined *)
Lemma sum_wraps : forall l acc r, valid c acc = true -> Forall (fun x => valid c x = true) l -> sum_loop c acc l = Ok r ->
  valid c r = true /\ cong (bits (ct c)) r (acc + zsum l).
Proof using All.
  induction l as [|x l IH]; intros acc r Va Fl H; cbn [sum_loop zsum] in *.
  - injection H as <-. split; auto. exists 0. ring.
  - inversion Fl as [|? ? Vx Fl']; subst. change (fx_add_assign c acc x) with (fx_add c acc x) in H.
    destruct (fx_add c acc x) as [s| | |] eqn:E; try discriminate. cbn [bind] in H.
    assert (Vs : valid c s = true /\ cong (bits (ct c)) s (acc + x)).
    { rewrite fx_add_eq in E by auto. unfold ovf in E.
      destruct (sgn (ct c) && (32 <=? bits (ct c))).
      - destruct (valid c (acc + x)) eqn:B; [|discriminate]. injection E as <-. split; auto. exists 0. ring.
      - injection E as <-. split; [apply valid_wrap_valid; auto|].
        destruct (wrap_cong (ct c) (acc + x) (wf_ct c W)) as [k K]. exists k. exact K. }
    destruct Vs as [Vs [k K]]. destruct (IH s r Vs Fl' H) as [Vr [k' K']]. split; auto. exists (k + k'). rewrite K', K. ring.
Qed.
Lemma zsum_perm l l' : Permutation l l' -> zsum l = zsum l'.
Proof using All. induction 1; cbn [zsum]; lia. Qed.
Theorem sum_order : forall l l' acc r r', valid c acc = true -> Forall (fun x => valid c x = true) l -> Permutation l l' ->
  sum_loop c acc l = Ok r -> sum_loop c acc l' = Ok r' -> r = r'.
Proof using All.
  intros l l' acc r r' Va Fl P E E'.
  assert (Fl' : Forall (fun x => valid c x = true) l') by (eapply Permutation_Forall; eauto).
  destruct (sum_wraps _ _ _ Va Fl E) as [V [k K]]. destruct (sum_wraps _ _ _ Va Fl' E') as [V' [k' K']].
  rewrite (zsum_perm _ _ P) in K. rewrite <- (valid_wrap c r), <- (valid_wrap c r') by auto. apply (wrap_cong_eq (ct c) r r' (k - k')); [apply wf_ct; auto|]. rewrite K, K'. ring.
Qed.

Hypothesis NR : cr c = false.

(** ** dot product *)
Fixpoint zdot (l : list (Z * Z)) : Z := match l with [] => 0 | (x, y) :: l => x * y + zdot l end.
Fixpoint zdot_abs (l : list (Z * Z)) : Z := match l with [] => 0 | (x, y) :: l => Z.abs (x * y) + zdot_abs l end.
Lemma fpos : 0 <= f. Proof using All. destruct (wf_bnd c W) as (_ & _ & _ & _ & _ & F). unfold f. clear - F. lia. Qed.
Lemma qdot_z l : (qdot f l == zdot l # (pow2p f * pow2p f))%Q.
Proof using All.
  induction l as [|[x y] l IH]; cbn [qdot zdot]; [reflexivity|].
  rewrite IH, qval_mult by apply fpos. apply Qinv_plus_distr.
Qed.
Lemma qdot_abs_z l : (qdot_abs f l == zdot_abs l # (pow2p f * pow2p f))%Q.
Proof using All.
  induction l as [|[x y] l IH]; cbn [qdot_abs zdot_abs]; [reflexivity|].
  rewrite IH, qval_mult by apply fpos. unfold Qabs. apply Qinv_plus_distr.
Qed.

Lemma signs_ok x : (sgn (ct c) = false -> 0 <= x) -> Z.abs x <= maxv (ct c) -> valid c x = true.
Proof using All. intros A B. unfold valid, in_range, minv, maxv in *. destruct (sgn (ct c)); [|specialize (A eq_refl)]; lia. Qed.
Lemma valid_nonneg x : valid c x = true -> sgn (ct c) = false -> 0 <= x.
Proof using All. unfold valid, in_range, minv. intros V S. rewrite S in V. lia. Qed.

Definition len {A} (l : list A) : Z := Z.of_nat (length l).

Lemma dot_run : forall l acc, valid c acc = true ->
  Forall (fun p => valid c (fst p) = true /\ valid c (snd p) = true) l ->
  Z.abs acc * M + zdot_abs l + len l * M <= maxv (ct c) * M ->
  exists r, dot_loop c acc l = Ok r /\ valid c r = true /\
    r * M <= acc * M + zdot l <= r * M + len l * (M - 1).
Proof using All.
  pose proof (cf_pos c W) as P. fold M in P. unfold len.
  induction l as [|[x y] l IH]; intros acc Va Fl H; cbn [dot_loop zdot zdot_abs length] in *.
  - exists acc. repeat split; auto; lia.
  - inversion Fl as [|? ? [Vx Vy] Fl']; subst. cbn [fst snd] in *.
    assert (Z0 : 0 <= zdot_abs l) by (clear; induction l as [|[a b] l IH]; cbn [zdot_abs]; lia).
    rewrite Nat2Z.inj_succ in H.
    pose proof (Z.div_mod (x * y) M ltac:(lia)) as DM. pose proof (Z.mod_pos_bound (x * y) M P) as DB.
    set (p := x * y / M) in *.
    assert (PA : Z.abs p * M <= Z.abs (x * y) + M) by nia.
    assert (Vp : valid c p = true).
    { apply signs_ok.
      - intros S. apply Z.div_pos; auto. pose proof (valid_nonneg x Vx S). pose proof (valid_nonneg y Vy S). nia.
      - assert (0 <= Z.of_nat (length l)) by lia. nia. }
    assert (Va' : valid c (acc + p) = true).
    { apply signs_ok.
      - intros S. pose proof (valid_nonneg acc Va S). pose proof (valid_nonneg p Vp S). lia.
      - assert (0 <= Z.of_nat (length l)) by lia. nia. }
    rewrite fx_mul_eq by auto. fold M. fold p. rewrite valid_wrap by auto. cbn [bind].
    rewrite add_ok by auto. cbn [bind].
    destruct (IH (acc + p) Va' Fl') as (r & E & V & L & U).
    { assert (Z.abs (acc + p) * M <= Z.abs acc * M + Z.abs p * M) by nia. lia. }
    exists r. split; [exact E|]. split; [exact V|]. rewrite Nat2Z.inj_succ. clear - DM DB L U. nia.
Qed.

(** within one ulp per product, never too large *)
Theorem dot_accuracy l : Forall (fun p => valid c (fst p) = true /\ valid c (snd p) = true) l ->
  (qdot_abs f l + qval f (len l) <= qval f (maxv (ct c)))%Q ->
  exists r, dot_loop c 0 l = Ok r /\ valid c r = true /\ (qval f r <= qdot f l)%Q /\ (qdot f l <= qval f (r + len l))%Q.
Proof using All.
  intros Fl H. pose proof (cf_pos c W) as P. fold M in P.
  assert (V0 : valid c 0 = true) by (apply in_range_small; [apply wf_ct; auto|lia]).
  assert (PM : Z.pos (pow2p f) = M) by (apply pow2p_pos, fpos).
  destruct (dot_run l 0 V0 Fl) as (r & E & V & L & U).
  { rewrite qdot_abs_z in H. unfold qval, Qle, Qplus in H. cbn [Qnum Qden] in H. rewrite !Pos2Z.inj_mul, !PM in H.
    rewrite Z.abs_0. clear - H P. nia. }
  exists r. split; [exact E|]. split; [exact V|]. rewrite !qdot_z. unfold qval, Qle. cbn [Qnum Qden].
  rewrite !Pos2Z.inj_mul, !PM. clear - L U P. assert (0 <= len l) by (unfold len; lia). nia.
Qed.

(** ** Horner's rule *)
Hypothesis SG : sgn (ct c) = true -> cf c <= bits (ct c) - 2.
Fixpoint zabs_sum (l : list Z) : Z := match l with [] => 0 | x :: l => Z.abs x + zabs_sum l end.
Lemma qsum_abs_z l : (qsum_abs f l == qval f (zabs_sum l))%Q.
Proof using All. induction l as [|x l IH]; cbn [qsum_abs zabs_sum]; [reflexivity|]. rewrite IH, qval_add, qval_abs. reflexivity. Qed.

Lemma floor_shrink a x : Z.abs x <= M -> Z.abs (a * x / M) <= Z.abs a.
Proof using All.
  intros H. pose proof (cf_pos c W) as P. fold M in P.
  assert (- (Z.abs a * M) <= a * x <= Z.abs a * M) by nia.
  assert (- Z.abs a <= a * x / M) by (apply Z.div_le_lower_bound; lia).
  assert (a * x / M <= Z.abs a) by (apply Z.div_le_upper_bound; lia). lia.
Qed.

Lemma qpoly_ext x : forall l a b, (a == b)%Q -> (qpoly x a l == qpoly x b l)%Q.
Proof using All. induction l as [|y l IH]; intros a b E; cbn [qpoly]; auto. apply IH. rewrite E. reflexivity. Qed.

Lemma horner_run x : valid c x = true -> (Qabs (qval f x) <= 1)%Q -> forall l acc A p, valid c acc = true ->
  Forall (fun a => valid c a = true) l -> Z.abs acc + zabs_sum l <= maxv (ct c) -> (0 <= p)%Q ->
  (Qabs (qval f acc - A) <= p * qval f 1)%Q ->
  exists r, horner_loop c x acc l = Ok r /\ valid c r = true /\
    (Qabs (qval f r - qpoly (qval f x) A (map (qval f) l)) <= (p + inject_Z (len l)) * qval f 1)%Q.
Proof using All.
  intros Vx Ax. assert (Zx : Z.abs x <= M).
  { unfold qval, Qabs, Qle in Ax. cbn [Qnum Qden] in Ax. rewrite pow2p_pos in Ax by apply fpos. fold M in Ax. clear - Ax. unfold M, f in *. lia. }
  induction l as [|a l IH]; intros acc A p Va Fl H Pp Er; cbn [horner_loop qpoly map zabs_sum] in *.
  - exists acc. repeat split; auto. change (inject_Z (len (A:=Z) [])) with 0%Q. setoid_replace ((p + 0) * qval f 1)%Q with (p * qval f 1)%Q by ring. auto.
  - inversion Fl as [|? ? Vq Fl']; subst.
    assert (Z0 : 0 <= zabs_sum l) by (clear; induction l; cbn [zabs_sum]; lia).
    pose proof (floor_shrink acc x Zx) as FS.
    assert (Vp : valid c (acc * x / M) = true).
    { apply signs_ok; [|clear - FS H Z0; lia]. intros S. pose proof (cf_pos c W) as P. fold M in P. apply Z.div_pos; auto.
      pose proof (valid_nonneg x Vx S). pose proof (valid_nonneg acc Va S). clear - H0 H1. nia. }
    assert (Vn : valid c (acc * x / M + a) = true).
    { apply signs_ok; [|clear - FS H Z0; lia]. intros S. pose proof (valid_nonneg a Vq S). pose proof (valid_nonneg _ Vp S). clear - H0 H1; lia. }
    rewrite fx_mul_eq by auto. fold M. rewrite valid_wrap by auto. cbn [bind].
    change (fx_add c (acc * x / M) a) with (fx_add_assign c (acc * x / M) a). rewrite add_ok by auto. cbn [bind].
    destruct (IH (acc * x / M + a) (A * qval f x + qval f a)%Q (p + 1)%Q Vn Fl') as (r & E & V & Q); auto.
    + clear - FS H Z0; lia.
    + clear - Pp; lra.
    + assert (FM : is_floor f (qval f acc * qval f x) (acc * x / M)) by (apply is_floor_mul; [apply fpos|reflexivity]).
      destruct FM as [FL FH]. rewrite qval_add in FH.
      assert (T : (Qabs (qval f x * (qval f acc - A)) <= p * qval f 1)%Q) by (apply Qabs1_mul; auto).
      apply Qabs_le_iff in T. apply Qabs_le_iff. rewrite qval_add.
      assert (EQ : (qval f acc * qval f x == A * qval f x + qval f x * (qval f acc - A))%Q) by ring.
      clear - FL FH T EQ. set (u := qval f 1) in *. set (t := (qval f x * (qval f acc - A))%Q) in *.
      set (g := (qval f acc * qval f x)%Q) in *. set (h := (A * qval f x)%Q) in *. destruct T. split; lra.
    + exists r. split; [exact E|]. split; [exact V|]. eapply Qle_trans; [exact Q|].
      unfold len. cbn [length]. rewrite Nat2Z.inj_succ, <- Z.add_1_r, inject_Z_plus. change (inject_Z 1) with 1%Q.
      apply Qle_lteq. right. ring.
Qed.

Theorem horner_accuracy x a l : valid c x = true -> (Qabs (qval f x) <= 1)%Q -> Forall (fun a => valid c a = true) (a :: l) ->
  (qsum_abs f (a :: l) <= qval f (maxv (ct c)))%Q ->
  exists r, horner_loop c x a l = Ok r /\ valid c r = true /\
    (Qabs (qval f r - qpoly (qval f x) (qval f a) (map (qval f) l)) <= qval f (len l))%Q.
Proof using All.
  intros Vx Ax Fl H. rewrite qsum_abs_z in H. apply qval_le in H. cbn [zabs_sum] in H. inversion Fl as [|? ? Va Fl']; subst.
  destruct (horner_run x Vx Ax l a (qval f a) 0%Q Va Fl' H) as (r & E & V & Q).
  - apply Qle_refl.
  - setoid_replace (qval f a - qval f a)%Q with 0%Q by ring. vm_compute. congruence.
  - exists r. split; [exact E|]. split; [exact V|]. eapply Qle_trans; [exact Q|]. apply Qle_lteq. right.
    rewrite Qplus_0_l. unfold qval, Qmult, inject_Z, Qeq. cbn [Qnum Qden]. rewrite Pos.mul_1_l. ring.
Qed.
End CL.
