(** Consequences used by PropsArith: compound assignment, hashing, near-comparison laws, parts. *)
From Coq Require Import ZArith Bool Lia QArith Qabs.
From Verif Require Import Base Fixed Spec BaseLemmas FixedLemmas SpecLemmas ConvProofs ArithProofs ArithProofs2 InspectProofs.
Open Scope Z_scope.

Lemma compound_thm c x y :
  fx_add_assign c x y = fx_add c x y /\ fx_sub_assign c x y = fx_sub c x y /\
  fx_mul_assign c x y = fx_mul c x y /\ fx_div_assign c x y = fx_div c x y /\
  fx_rem_assign c x y = fx_rem c x y.
Proof. repeat split. Qed.

Lemma hash_eq c (std_hash : Z -> Z) x y : wf c = true -> valid c x = true -> valid c y = true ->
  fx_eq c x y = true -> fx_hash std_hash x = fx_hash std_hash y.
Proof.
  intros W VX VY H. destruct (order_thm c x y W VX VY) as [[E _] _]. specialize (E H).
  apply qval_eq in E. subst. reflexivity.
Qed.

Lemma nearly_laws c x y : wf c = true -> sgn (promote (ct c)) = true ->
  valid c x = true -> valid c y = true ->
  fits (bits (promote (ct c))) true (x - y) -> fits (bits (promote (ct c))) true (y - x) ->
  nearly_eq c x x = Ok true /\ nearly_eq c x y = nearly_eq c y x /\
  exists l e g, nearly_lt c x y = Ok l /\ nearly_eq c x y = Ok e /\ nearly_gt c x y = Ok g /\
    nearly_ne c x y = Ok (negb e) /\ nearly_gt c y x = Ok l /\
    ((l = true /\ e = false /\ g = false) \/ (l = false /\ e = true /\ g = false) \/
     (l = false /\ e = false /\ g = true)).
Proof.
  intros W S VX VY F1 F2.
  destruct (eps_raw c W) as (e & He & Ve & Pe & _).
  assert (F0 : fits (bits (promote (ct c))) true (x - x)).
  { unfold fits, lo, hi in *. clear - F1 F2. lia. }
  destruct (nearly_thm c x x e W S VX VX He F0) as (b0 & _ & _ & _ & _ & _ & E0 & I0 & _).
  destruct (nearly_thm c x y e W S VX VY He F1) as (b & n & g & l & ge & le & Eb & Ib & En & In & Eg & Ig & El & Il & _).
  destruct (nearly_thm c y x e W S VY VX He F2) as (b' & n' & g' & l' & ge' & le' & Eb' & Ib' & En' & In' & Eg' & Ig' & El' & Il' & _).
  cbv zeta in *.
  set (X := qval (cf c) x) in *. set (Y := qval (cf c) y) in *. set (E := qval (cf c) e) in *.
  assert (PE : (0 <= E)%Q). { subst E. unfold qval, Qle; cbn [Qnum Qden]. clear - Pe. lia. }
  assert (A : (Qabs (X - Y) == Qabs (Y - X))%Q) by (rewrite Qabs_Qminus; reflexivity).
  assert (b0 = true).
  { apply I0. setoid_replace (X - X)%Q with 0%Q by ring. exact PE. }
  assert (b = b').
  { destruct b, b'; try reflexivity.
    - symmetry. apply Ib'. rewrite <- A. apply Ib. reflexivity.
    - apply Ib. rewrite A. apply Ib'. reflexivity. }
  assert (g' = l).
  { assert (P : (E < Y - X)%Q <-> (X - Y < - E)%Q).
    { split; intros HH; apply Qlt_minus_iff in HH; apply Qlt_minus_iff.
      - setoid_replace (- E + - (X - Y))%Q with (Y - X + - E)%Q by ring. exact HH.
      - setoid_replace (Y - X + - E)%Q with (- E + - (X - Y))%Q by ring. exact HH. }
    destruct g', l; try reflexivity.
    - symmetry. apply Il, P, Ig'. reflexivity.
    - apply Ig', P, Il. reflexivity. }
  assert (N : n = negb b).
  { destruct n, b; try reflexivity; exfalso.
    - apply In; [reflexivity|]. apply Ib. reflexivity.
    - assert (false = true) by (apply In; intros HH; apply Ib in HH; discriminate). discriminate. }
  subst. split; [exact E0|]. split; [congruence|].
  exists l, b', g. repeat (split; [assumption|]).
  assert (T : (Qabs (X - Y) <= E)%Q <-> ~ (X - Y < - E)%Q /\ ~ (E < X - Y)%Q).
  { rewrite Qabs_Qle_condition. split.
    - intros [P1 P2]. split; apply Qle_not_lt; assumption.
    - intros [P1 P2]. split; apply Qnot_lt_le; assumption. }
  assert (XX : ~ ((X - Y < - E)%Q /\ (E < X - Y)%Q)).
  { intros [P1 P2]. apply (Qlt_irrefl E). apply Qlt_trans with (X - Y)%Q; [exact P2|].
    apply Qlt_le_trans with (- E)%Q; [exact P1|]. apply Qle_trans with 0%Q; [|exact PE].
    apply Qopp_le_compat in PE. exact PE. }
  rewrite <- Il, <- Ig in XX, T. rewrite T in Ib.
  clear - XX Ib.
  destruct l, b', g; try tauto; exfalso; intuition congruence.
Qed.

Lemma integral_neg_ceil c m : wf c = true -> (wide_signed c = true -> cf c <= bits (ct c) - 2) ->
  valid c m = true -> (qval (cf c) m < 0)%Q -> fits (bits (ct c)) (sgn (ct c)) (2 ^ cf c - 1 - m) ->
  exists i, integral_part c m = Ok i /\ is_ceil 0 (Qabs (qval (cf c) m)) i.
Proof.
  intros W H V N F. pose proof (cf_pos c W) as P.
  assert (M : m < 0). { unfold qval, Qlt in N; cbn [Qnum Qden] in N. clear - N. lia. }
  exists (- (m / 2 ^ cf c)). split.
  - apply integral_neg; auto. apply fits_valid in F. rewrite <- F. f_equal. clear. lia.
  - assert (A : (Qabs (qval (cf c) m) == qval (cf c) (- m))%Q).
    { rewrite Qabs_neg by (apply Qlt_le_weak; exact N). unfold qval, Qeq, Qopp; cbn [Qnum Qden]. reflexivity. }
    assert (PP : Z.pos (pow2p (cf c)) = 2 ^ cf c).
    { unfold pow2p. rewrite Z2Pos.id; [reflexivity|]. exact P. }
    pose proof (Z.div_mod m (2 ^ cf c) ltac:(clear - P; lia)) as D.
    pose proof (Z.mod_pos_bound m (2 ^ cf c) ltac:(exact P)) as B.
    unfold is_ceil. rewrite A. unfold qval, Qlt, Qle; cbn [Qnum Qden]. rewrite PP.
    change (Z.pos (pow2p 0)) with 1. clear - D B. split; nia.
Qed.

Lemma raw_integral_thm c m : wf c = true -> valid c m = true ->
  exists i, raw_integral_part c m = Ok i /\ is_floor 0 (qval (cf c) (m mod 2 ^ (bits (ct c) - 1))) i.
Proof.
  intros W V. pose proof (cf_pos c W) as P. eexists. split; [apply raw_integral_eq; assumption|].
  set (k := m mod _).
  assert (PP : Z.pos (pow2p (cf c)) = 2 ^ cf c).
  { unfold pow2p. rewrite Z2Pos.id; [reflexivity|]. exact P. }
  pose proof (Z.div_mod k (2 ^ cf c) ltac:(clear - P; lia)) as D.
  pose proof (Z.mod_pos_bound k (2 ^ cf c) ltac:(exact P)) as B.
  unfold is_floor, qval, Qlt, Qle; cbn [Qnum Qden]. rewrite PP.
  change (Z.pos (pow2p 0)) with 1. clear - D B. split; nia.
Qed.
