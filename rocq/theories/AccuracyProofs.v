(** Proofs about Accuracy.v. *)
From Coq Require Import ZArith QArith Qabs Bool List Lia Lqa Reals.
From Coq Require Lra Sorted.
From Verif Require Import Base Fixed TextIn Math Spec SpecText SpecAccuracy Accuracy SpecLemmas FixedLemmas ConvProofs.
Import ListNotations.
Open Scope Z_scope.

Lemma qmax_ub a b : (a <= qmax a b)%Q /\ (b <= qmax a b)%Q /\ (qmax a b = a \/ qmax a b = b).
Proof.
  unfold qmax. destruct (Qle_bool b a) eqn:E.
  - apply Qle_bool_iff in E. split; [apply Qle_refl|split; [exact E|left; reflexivity]].
  - assert (~ (b <= a)%Q) by (intros H; apply Qle_bool_iff in H; congruence). split; [lra|split; [apply Qle_refl|right; reflexivity]].
Qed.

(** what the loop computes from the measured values *)
Definition pairs (rs : list Z) (pts : list (list Z * Q)) : list (Z * Q) := List.combine rs (map snd pts).
Definition qsum (l : list Q) : Q := fold_right Qplus 0%Q l.
Lemma record_spec g u pts : forall s s', record_points g u s pts = Ok s' ->
  exists rs, Forall2 (fun p r => measured g u (fst p) = Ok r) pts rs /\
    ((max_error s <= max_error s')%Q /\ (forall e, In e (abs_errors (pairs rs pts)) -> e <= max_error s')%Q /\
    (max_error s' = max_error s \/ In (max_error s') (abs_errors (pairs rs pts))) /\
    (error_sum s' == error_sum s + qsum (abs_errors (pairs rs pts)))%Q) /\
    (max_rel_error s <= max_rel_error s')%Q /\ (forall e, In e (rel_errors (pairs rs pts)) -> e <= max_rel_error s')%Q /\
    (max_rel_error s' = max_rel_error s \/ In (max_rel_error s') (rel_errors (pairs rs pts))) /\
    (rel_error_sum s' == rel_error_sum s + qsum (rel_errors (pairs rs pts)))%Q /\
    rel_samples s' = rel_samples s + Z.of_nat (length (rel_errors (pairs rs pts))).
Proof.
  induction pts as [|[t ref] pts IH]; intros s s' H; cbn [record_points] in H.
  - injection H as <-. exists []. split; [constructor|]. unfold qsum. cbn. split; (split; [apply Qle_refl|]; split; [intros e []|]; split; [left; reflexivity|]).
    + ring.
    + split; [ring|lia].
  - destruct (measured g u t) as [r| | |] eqn:M; cbn [bind] in H; try discriminate H.
    destruct (IH _ _ H) as (rs & F & (L & A & D & S) & (L' & A' & D' & S' & N')). exists (r :: rs).
    assert (ME : max_error (record_point s r ref) = qmax (max_error s) (Qabs (inject_Z r - ref)))
      by (unfold record_point; destruct (Qeq_bool ref 0); reflexivity).
    assert (SE : error_sum (record_point s r ref) = (error_sum s + Qabs (inject_Z r - ref))%Q)
      by (unfold record_point; destruct (Qeq_bool ref 0); reflexivity).
    rewrite ME in *. rewrite SE in *. destruct (qmax_ub (max_error s) (Qabs (inject_Z r - ref))) as (Q1 & Q2 & Q3).
    split; [constructor; [exact M|exact F]|]. split.
    + split; [lra|]. split; [|split].
      * intros e [<- |I]; [cbn [fst snd]; lra|apply A; exact I].
      * destruct D as [D|D]; [|right; right; exact D]. rewrite D. destruct Q3 as [Q3|Q3]; rewrite Q3; [left; reflexivity|right; left; reflexivity].
      * unfold abs_errors, pairs, qsum in *. cbn [List.combine map fold_right fst snd]. rewrite S. ring.
    + clear ME SE L A D S Q1 Q2 Q3. unfold rel_errors, pairs, qsum in *. cbn [List.combine map filter fst snd].
      unfold record_point in *. destruct (Qeq_bool ref 0) eqn:Z; cbn [negb max_error error_sum max_rel_error rel_error_sum rel_samples] in *.
      * split; [exact L'|]. split; [exact A'|]. split; [exact D'|]. split; [exact S'|exact N'].
      * destruct (qmax_ub (max_rel_error s) (Qabs (inject_Z r - ref) / Qabs ref)) as (Q1 & Q2 & Q3). cbn [map fold_right length fst snd].
        split; [lra|]. split; [|split; [|split]].
        -- intros e [<- |I]; [lra|apply A'; exact I].
        -- destruct D' as [D|D]; [|right; right; exact D]. rewrite D. destruct Q3 as [Q3|Q3]; rewrite Q3; [left; reflexivity|right; left; reflexivity].
        -- rewrite S'. ring.
        -- rewrite N'. lia.
Qed.
Lemma largest_of m l : (0 <= m)%Q -> (forall e, In e l -> 0 <= e)%Q -> (forall e, In e l -> e <= m)%Q -> (m = 0%Q \/ In m l) -> is_largest m l.
Proof.
  intros P NN A D. split; [exact A|]. destruct D as [D|D]; [|left; exists m; split; [exact D|reflexivity]].
  destruct l as [|e l]; [right; split; [reflexivity|rewrite D; reflexivity]|]. left. exists e. split; [left; reflexivity|].
  specialize (A e (or_introl eq_refl)). specialize (NN e (or_introl eq_refl)). rewrite D in *. lra.
Qed.
Lemma abs_nonneg l e : In e (abs_errors l) -> (0 <= e)%Q.
Proof. unfold abs_errors. intros I. apply in_map_iff in I as (p & <- & _). apply Qabs_nonneg. Qed.
Lemma rel_nonneg l e : In e (rel_errors l) -> (0 <= e)%Q.
Proof.
  unfold rel_errors. intros I. apply in_map_iff in I as (p & <- & _). unfold Qdiv. apply Qmult_le_0_compat; [apply Qabs_nonneg|].
  apply Qinv_le_0_compat. apply Qabs_nonneg.
Qed.
Lemma pairs_length rs pts : length rs = length pts -> length (abs_errors (pairs rs pts)) = length pts.
Proof. intros H. unfold abs_errors, pairs. rewrite map_length, combine_length, map_length. lia. Qed.
Lemma nz_of_nat n : n <> O -> ~ (inject_Z (Z.of_nat n) == 0)%Q.
Proof. intros H X. unfold Qeq in X. cbn in X. lia. Qed.
Lemma report_spec g u pts rep : pts <> [] -> test_subinterval g u pts = Ok rep ->
  exists rs, Forall2 (fun p r => measured g u (fst p) = Ok r) pts rs /\
    is_largest (r_max rep) (abs_errors (pairs rs pts)) /\ is_mean (r_avg rep) (abs_errors (pairs rs pts)) /\
    is_largest (r_max_rel rep) (rel_errors (pairs rs pts)) /\ is_mean (r_avg_rel rep) (rel_errors (pairs rs pts)).
Proof.
  intros NE H. unfold test_subinterval in H. destruct (record_points g u stats0 pts) as [s| | |] eqn:E; cbn [bind] in H; try discriminate H.
  injection H as <-. cbn [r_max r_avg r_max_rel r_avg_rel]. destruct (record_spec g u pts _ _ E) as (rs & F & (L & A & D & S) & (L' & A' & D' & S' & N')).
  cbn [max_error error_sum max_rel_error rel_error_sum rel_samples stats0] in *. exists rs.
  assert (LEN : length rs = length pts) by (clear - F; induction F; cbn [length]; congruence).
  split; [exact F|]. split; [|split; [|split]].
  - apply largest_of; [exact L|apply abs_nonneg|exact A|exact D].
  - unfold is_mean. rewrite (pairs_length _ _ LEN). split.
    + rewrite S. unfold qsum. field. apply nz_of_nat. destruct pts; [congruence|discriminate].
    + intros X. pose proof (pairs_length _ _ LEN) as Y. rewrite X in Y. destruct pts; [congruence|discriminate].
  - apply largest_of; [exact L'|apply rel_nonneg|exact A'|exact D'].
  - unfold is_mean. set (l := rel_errors (pairs rs pts)) in *. rewrite N'. destruct (Z.ltb_spec 0 (0 + Z.of_nat (length l))) as [P|P].
    + split; [|intros X; rewrite X in P; cbn in P; lia]. rewrite S'. change (0 + Z.of_nat (length l)) with (Z.of_nat (length l)). unfold qsum. field.
      apply nz_of_nat. lia.
    + destruct l; [|cbn [length] in P; lia]. split; [reflexivity|intros _; reflexivity].
Qed.

(** functions with values between -1 and 1 are all measured as 0 *)
Definition inside (g : Z -> res Z) (u : Z) (p : list Z * Q) : Prop :=
  exists x v, literal F64 (fst p) u = Ok x /\ g x = Ok v /\ valid F64 v = true /\ (Qabs (qval 32 v) < 1)%Q.
Lemma inside_zero g u p : inside g u p -> measured g u (fst p) = Ok 0.
Proof.
  intros (x & v & L & G & V & A). unfold measured. rewrite L. cbn [bind]. rewrite G. cbn [bind]. apply (float_cast_trunc F64); [reflexivity|exact V|].
  apply Qabs_Qlt_condition in A. destruct A as [A1 A2]. change (cf F64) with 32. split; intros S.
  - split; [exact S|exact A2].
  - split; [exact A1|exact S].
Qed.
Lemma blind g g' u u' pts : Forall (inside g u) pts -> Forall (inside g' u') pts -> test_subinterval g u pts = test_subinterval g' u' pts.
Proof.
  intros A B. unfold test_subinterval. replace (record_points g' u' stats0 pts) with (record_points g u stats0 pts); [reflexivity|].
  generalize stats0. revert B. induction A as [|[t ref] pts I A IH]; intros B s; [reflexivity|]. inversion B as [|? ? I' B']; subst.
  cbn [record_points]. pose proof (inside_zero g u (t, ref) I) as Z1. pose proof (inside_zero g' u' (t, ref) I') as Z2. cbn [fst] in Z1, Z2.
  rewrite Z1, Z2. cbn [bind]. apply IH. exact B'.
Qed.
Lemma measured_trunc g u t i : measured g u t = Ok i -> (forall x v, g x = Ok v -> valid F64 v = true) ->
  exists x v, literal F64 t u = Ok x /\ g x = Ok v /\ is_trunc 0 (qval 32 v) i.
Proof.
  unfold measured. intros H VG. destruct (literal F64 t u) as [x| | |]; cbn [bind] in H; try discriminate H.
  destruct (g x) as [v| | |] eqn:G; cbn [bind] in H; try discriminate H. exists x, v. split; [reflexivity|split; [exact G|]].
  rewrite fx_to_float_eq in H by (try reflexivity; eapply VG; exact G). injection H as <-. change 32 with (cf F64).
  apply is_trunc_int; [cbn; lia|reflexivity].
Qed.
Lemma report_thm g u pts rep : (forall x v, g x = Ok v -> valid F64 v = true) -> pts <> [] -> test_subinterval g u pts = Ok rep ->
  exists rs, Forall2 (fun p i => exists x v, literal F64 (fst p) u = Ok x /\ g x = Ok v /\ is_trunc 0 (qval 32 v) i) pts rs /\
    let l := List.combine rs (map snd pts) in
    is_largest (r_max rep) (abs_errors l) /\ is_mean (r_avg rep) (abs_errors l) /\
    is_largest (r_max_rel rep) (rel_errors l) /\ is_mean (r_avg_rel rep) (rel_errors l).
Proof.
  intros VG NE H. destruct (report_spec g u pts rep NE H) as (rs & F & R). exists rs. split; [|exact R]. clear - F VG.
  induction F; constructor; [apply measured_trunc; assumption|assumption].
Qed.
Definition half_text : list Z := [48; 46; 53; 48; 48; 48; 48; 48].
Lemma report_refuted : forall ref, (Qabs (ref - (479425538604 # 1000000000000)) <= 1 # 1000000000)%Q ->
  exists x v rep, literal F64 half_text 0 = Ok x /\ fx_sin F64 x = Ok v /\
    test_subinterval (fx_sin F64) 0 [(half_text, ref)] = Ok rep /\
    (Qabs (qval 32 v - ref) < 1 # 10000)%Q /\ (479 # 1000 < r_max rep)%Q.
Proof.
  intros ref H. eexists _, _, _. split; [vm_compute; reflexivity|]. split; [vm_compute; reflexivity|].
  assert (M : measured (fx_sin F64) 0 half_text = Ok 0) by (vm_compute; reflexivity).
  unfold test_subinterval. cbn [record_points]. rewrite M. cbn [bind]. split; [reflexivity|]. cbn [r_max].
  apply Qabs_Qle_condition in H. destruct H as [H1 H2]. split.
  - apply Qabs_Qlt_condition. unfold qval. change (pow2p 32) with 4294967296%positive. split; lra.
  - assert (E : max_error (record_point stats0 0 ref) = qmax 0 (Qabs (inject_Z 0 - ref))) by (unfold record_point; destruct (Qeq_bool ref 0); reflexivity).
    rewrite E. destruct (qmax_ub 0 (Qabs (inject_Z 0 - ref))) as (_ & Q & _). pose proof (Qle_Qabs (- (inject_Z 0 - ref))) as A.
    rewrite Qabs_opp in A. unfold inject_Z in *. lra.
Qed.

(** ** the intervals *)
Definition eps : Q := 1 # 10000000000.
Lemma intervals_ok add size stop (PR : forall c, (c < stop -> c + size * (1 # 2) <= add c size)%Q) : (0 < size)%Q ->
  forall n cur, (stop - cur <= inject_Z (Z.of_nat n) * (size * (1 # 2)))%Q ->
  exists l z, intervals n add size stop cur = Ok l /\ chain cur l z /\ (stop - eps <= z)%Q /\ (z = cur \/ z <= stop)%Q /\
    (forall a b, In (a, b) l -> b <= stop)%Q.
Proof.
  intros S. induction n as [|n IH]; intros cur H; cbn [intervals].
  - assert (E : Qle_bool (stop - (1 # 10000000000)) cur = true).
    { apply Qle_bool_iff. change (inject_Z (Z.of_nat 0)) with 0%Q in H. lra. }
    rewrite E. exists [], cur. split; [reflexivity|]. split; [constructor|]. split; [apply Qle_bool_iff; exact E|]. split; [left; reflexivity|intros a b []].
  - destruct (Qle_bool (stop - (1 # 10000000000)) cur) eqn:E.
    + exists [], cur. split; [reflexivity|]. split; [constructor|]. split; [apply Qle_bool_iff; exact E|]. split; [left; reflexivity|intros a b []].
    + assert (L : (cur < stop - (1 # 10000000000))%Q).
      { apply Qnot_le_lt. intros X. apply Qle_bool_iff in X. congruence. }
      specialize (PR cur ltac:(lra)).
      set (next := if Qle_bool (add cur size) stop then add cur size else stop).
      assert (NX : (cur < next)%Q /\ (next <= stop)%Q /\ (next == stop \/ cur + size * (1 # 2) <= next)%Q).
      { unfold next. destruct (Qle_bool (add cur size) stop) eqn:A.
        - apply Qle_bool_iff in A. repeat split; [lra|exact A|right; exact PR].
        - repeat split; [lra|apply Qle_refl|left; reflexivity]. }
      destruct NX as (N1 & N2 & N3).
      destruct (IH next) as (l & z & I & C & Z & Y & B).
      { rewrite Nat2Z.inj_succ, <- Z.add_1_r, inject_Z_plus in H. change (inject_Z 1) with 1%Q in H.
        assert (0 <= inject_Z (Z.of_nat n))%Q by (unfold inject_Z, Qle; cbn; lia).
        assert (0 <= inject_Z (Z.of_nat n) * (size * (1 # 2)))%Q by (apply Qmult_le_0_compat; lra).
        destruct N3 as [N3|N3]; lra. }
      rewrite I. cbn [bind]. exists ((cur, next) :: l), z. split; [reflexivity|]. split; [constructor; [exact N1|exact C]|].
      split; [exact Z|]. split; [right; destruct Y as [-> |Y]; [exact N2|exact Y]|].
      intros a b [AB|AB]; [injection AB as <- <-; exact N2|exact (B a b AB)].
Qed.
Lemma intervals_tile add size start stop n : (0 < size)%Q -> (start <= stop)%Q ->
  (forall c, c < stop -> c + size * (1 # 2) <= add c size)%Q ->
  (stop - start <= inject_Z (Z.of_nat n) * (size * (1 # 2)))%Q ->
  exists l z, intervals n add size stop start = Ok l /\ chain start l z /\ (stop - eps <= z)%Q /\ (z <= stop)%Q /\
    (forall a b, In (a, b) l -> b <= stop)%Q.
Proof.
  intros S L PR H. destruct (intervals_ok add size stop PR S n start H) as (l & z & I & C & Z & Y & B). exists l, z.
  split; [exact I|split; [exact C|split; [exact Z|split; [|exact B]]]]. destruct Y as [-> |Y]; [exact L|exact Y].
Qed.
Lemma intervals_stuck stop cur fuel : (cur < stop - eps)%Q -> intervals fuel Qplus 0 stop cur = OutOfFuel.
Proof.
  revert cur. induction fuel as [|k IH]; intros cur H; cbn [intervals];
    (destruct (Qle_bool (stop - (1 # 10000000000)) cur) eqn:E; [apply Qle_bool_iff in E; unfold eps in H; lra|]); [reflexivity|].
  assert (X : (cur + 0 <= stop)%Q) by (unfold eps in H; lra). apply Qle_bool_iff in X. rewrite X. rewrite IH; [reflexivity|]. lra.
Qed.

(** ** the labels *)
Import Lra.
Open Scope R_scope.
Lemma near_iff a b : near a b = true <-> Rabs (a - b) < 1 / 10000000000.
Proof. unfold near. destruct (Rlt_dec (Rabs (a - b)) (1 / 10000000000)); split; intros; try tauto; try reflexivity. discriminate. Qed.
Lemma pi3 : 3 < PI. Proof. pose proof PI2_3_2. lra. Qed.
Lemma near_unique v n d n' d' : (1 <= n <= 6)%Z -> (1 <= d <= 6)%Z -> (1 <= n' <= 6)%Z -> (1 <= d' <= 6)%Z ->
  near v (IZR n / IZR d * PI) = true -> near v (IZR n' / IZR d' * PI) = true -> (n * d' = n' * d)%Z.
Proof.
  intros N D N' D' A B. apply near_iff in A, B. destruct (Z.eq_dec (n * d') (n' * d)) as [E|NE]; [exact E|exfalso].
  set (x := IZR n / IZR d) in *. set (y := IZR n' / IZR d') in *.
  assert (P : Rabs (x - y) * PI < 2 / 10000000000).
  { rewrite <- (Rabs_pos_eq PI) by (pose proof pi3; lra). rewrite <- Rabs_mult. replace ((x - y) * PI) with ((v - y * PI) - (v - x * PI)) by ring.
    eapply Rle_lt_trans; [apply Rabs_triang|]. rewrite Rabs_Ropp. lra. }
  assert (Dp : 1 <= IZR d <= 6) by (split; apply IZR_le; lia). assert (Dp' : 1 <= IZR d' <= 6) by (split; apply IZR_le; lia).
  assert (X : x - y = IZR (n * d' - n' * d) / (IZR d * IZR d')).
  { unfold x, y. rewrite minus_IZR, !mult_IZR. field. lra. }
  assert (K : 1 / 36 <= Rabs (x - y)).
  { rewrite X. unfold Rdiv. rewrite Rabs_mult. rewrite (Rabs_pos_eq (/ (IZR d * IZR d'))).
    2:{ apply Rlt_le, Rinv_0_lt_compat. nra. }
    assert (1 <= Rabs (IZR (n * d' - n' * d))) by (rewrite <- abs_IZR; apply IZR_le; lia).
    assert (/ 36 <= / (IZR d * IZR d')) by (apply Rinv_le_contravar; nra).
    assert (0 < / (IZR d * IZR d')) by (apply Rinv_0_lt_compat; nra). nra. }
  pose proof pi3. nra.
Qed.
Lemma fractions_in n d : In (n, d) fractions <-> (1 <= n <= 6)%Z /\ (1 <= d <= 6)%Z.
Proof.
  unfold fractions. rewrite in_flat_map. split.
  - intros (x & X & I). apply in_map_iff in I as (y & E & Y). injection E as <- <-. cbn [In] in X, Y. lia.
  - intros [N D]. exists n. split; [cbn [In]; lia|]. apply in_map_iff. exists d. split; [reflexivity|cbn [In]; lia].
Qed.
Lemma find_first {A} (f : A -> bool) l x : find f l = Some x -> exists l1 l2, l = l1 ++ x :: l2 /\ (forall y, In y l1 -> f y = false) /\ f x = true.
Proof.
  induction l as [|a l IH]; cbn [find]; [discriminate|]. destruct (f a) eqn:F.
  - intros [= <-]. exists [], l. repeat split; [intros y []|exact F].
  - intros H. destruct (IH H) as (l1 & l2 & -> & Q & X). exists (a :: l1), l2. repeat split; [intros y [<- |I]; [exact F|exact (Q y I)]|exact X].
Qed.
Lemma fractions_sorted : Sorted.StronglySorted (fun a b : Z * Z => (fst a <= fst b)%Z) fractions.
Proof. unfold fractions. cbn [flat_map map app]. repeat (constructor; [|repeat (constructor; [cbn [fst]; lia|]); constructor]). constructor. Qed.
Lemma sorted_tail {A} (P : A -> A -> Prop) l1 x l2 : Sorted.StronglySorted P (l1 ++ x :: l2) -> Forall (P x) l2.
Proof. induction l1 as [|a l1 IH]; cbn [app]; intros H; inversion H; subst; [assumption|apply IH; assumption]. Qed.
Lemma ratio_near v n d g : (0 < g)%Z -> (0 < d)%Z -> near v (IZR (n * g) / IZR (d * g) * PI) = near v (IZR n / IZR d * PI).
Proof.
  intros G D. f_equal. f_equal. rewrite !mult_IZR. field. split; apply not_0_IZR; lia.
Qed.
Lemma label_pi v n d : format_as_pi v = LPi n d ->
  (1 <= n <= 6)%Z /\ (1 <= d <= 6)%Z /\ Z.gcd n d = 1%Z /\ Rabs (v - IZR n / IZR d * PI) < 1 / 10000000000.
Proof.
  unfold format_as_pi. destruct (Req_EM_T v 0); [discriminate|].
  destruct (find (fun nd => near v (IZR (fst nd) / IZR (snd nd) * PI)) fractions) as [[n' d']|] eqn:F.
  2:{ destruct (find (fun n => near v (IZR n * 2 * PI)) [1; 2; 3]%Z); discriminate. }
  intros [= -> ->]. destruct (find_first _ _ _ F) as (l1 & l2 & E & Q & X). cbn [fst snd] in X.
  assert (I : In (n, d) fractions) by (rewrite E; apply in_or_app; right; left; reflexivity).
  apply fractions_in in I. destruct I as [N D]. split; [exact N|]. split; [exact D|]. split; [|apply near_iff; exact X].
  destruct (Z.gcd_divide_l n d) as [n1 H1]. destruct (Z.gcd_divide_r n d) as [d1 H2]. pose proof (Z.gcd_nonneg n d) as G0.
  set (g := Z.gcd n d) in *. destruct (Z.eq_dec g 1) as [E1|NE]; [exact E1|exfalso].
  assert (g <> 0)%Z by (intros Z0; rewrite Z0 in H1; lia).
  assert (R : (1 <= n1 /\ 1 <= d1 /\ n1 < n /\ d1 <= 6)%Z) by (clear - H1 H2 N D G0 NE H; nia).
  assert (Y : near v (IZR n1 / IZR d1 * PI) = true) by (rewrite <- (ratio_near v n1 d1 g) by lia; rewrite <- H1, <- H2; exact X).
  assert (I1 : In (n1, d1) fractions) by (apply fractions_in; lia). rewrite E in I1. apply in_app_or in I1 as [I1|[I1|I1]].
  - specialize (Q _ I1). cbn [fst snd] in Q. congruence.
  - injection I1 as E2 _. lia.
  - pose proof fractions_sorted as S. rewrite E in S. apply sorted_tail in S. rewrite Forall_forall in S. specialize (S _ I1). cbn [fst] in S. lia.
Qed.
Lemma label_found v n d : v <> 0 -> (1 <= n <= 6)%Z -> (1 <= d <= 6)%Z -> Rabs (v - IZR n / IZR d * PI) < 1 / 10000000000 ->
  exists n' d', format_as_pi v = LPi n' d' /\ (n * d' = n' * d)%Z.
Proof.
  intros V N D H. apply near_iff in H. unfold format_as_pi. destruct (Req_EM_T v 0) as [E|_]; [contradiction|].
  destruct (find (fun nd => near v (IZR (fst nd) / IZR (snd nd) * PI)) fractions) as [[n' d']|] eqn:F.
  - exists n', d'. split; [reflexivity|]. destruct (find_first _ _ _ F) as (l1 & l2 & E & _ & X). cbn [fst snd] in X.
    assert (I : In (n', d') fractions) by (rewrite E; apply in_or_app; right; left; reflexivity). apply fractions_in in I.
    apply (near_unique v); tauto.
  - exfalso. pose proof (find_none _ _ F (n, d) (proj2 (fractions_in n d) (conj N D))) as X. cbn [fst snd] in X. congruence.
Qed.
Lemma label_dead v n : format_as_pi v <> LTwoPi n.
Proof.
  unfold format_as_pi. destruct (Req_EM_T v 0); [discriminate|].
  destruct (find (fun nd => near v (IZR (fst nd) / IZR (snd nd) * PI)) fractions) as [[n' d']|] eqn:F; [discriminate|].
  destruct (find (fun n => near v (IZR n * 2 * PI)) [1; 2; 3]%Z) as [m|] eqn:G; [|discriminate]. exfalso.
  destruct (find_first _ _ _ G) as (l1 & l2 & E & _ & X).
  assert (I : In m [1; 2; 3]%Z) by (rewrite E; apply in_or_app; right; left; reflexivity).
  assert (R : (1 <= 2 * m <= 6)%Z) by (cbn [In] in I; lia).
  pose proof (find_none _ _ F (2 * m, 1)%Z (proj2 (fractions_in (2 * m) 1) (conj R (conj (Z.le_refl 1) (Zle_bool_imp_le 1 6 eq_refl))))) as Y. cbn [fst snd] in Y.
  rewrite mult_IZR in Y. replace (2 * IZR m / 1 * PI) with (IZR m * 2 * PI) in Y by field. congruence.
Qed.

(** ** the points *)
Import Lqa.
Open Scope Z_scope.
Lemma qinsert_in x l y : In y (qinsert x l) <-> y = x \/ In y l.
Proof.
  induction l as [|a l IH]; cbn [qinsert]; [cbn; intuition|]. destruct (Qle_bool x a); cbn [In]; [intuition|]. rewrite IH. intuition.
Qed.
Lemma qsort_in l y : In y (qsort l) <-> In y l.
Proof. unfold qsort. induction l as [|a l IH]; cbn [fold_right]; [reflexivity|]. rewrite qinsert_in, IH. cbn [In]. intuition. Qed.
Lemma qinsert_sorted x l : Sorted.StronglySorted Qle l -> Sorted.StronglySorted Qle (qinsert x l).
Proof.
  induction 1 as [|a l S IH F]; cbn [qinsert]; [repeat constructor|]. destruct (Qle_bool x a) eqn:E.
  - apply Qle_bool_iff in E. constructor; [constructor; assumption|]. constructor; [exact E|].
    rewrite Forall_forall in *. intros y Y. apply Qle_trans with a; [exact E|apply F; exact Y].
  - constructor; [exact IH|]. rewrite Forall_forall in *. intros y Y. apply qinsert_in in Y as [-> |Y]; [|apply F; exact Y].
    apply Qlt_le_weak, Qnot_le_lt. intros X. apply Qle_bool_iff in X. congruence.
Qed.
Lemma qsort_sorted l : Sorted.StronglySorted Qle (qsort l).
Proof. unfold qsort. induction l; cbn [fold_right]; [constructor|apply qinsert_sorted; assumption]. Qed.
(** elements kept are at least 10^-10 apart *)
Definition apart (l : list Q) : Prop := Sorted.StronglySorted (fun a b => a + eps <= b)%Q l.
Lemma unique_from_spec last l : Sorted.StronglySorted Qle (last :: l) ->
  apart (last :: unique_from last l) /\ (forall y, In y (unique_from last l) -> In y l) /\
  (forall y, In y l -> exists z, In z (last :: unique_from last l) /\ (z <= y < z + eps)%Q).
Proof.
  revert last. induction l as [|x l IH]; intros last S; cbn [unique_from].
  - split; [repeat constructor|]. split; [intros y []|intros y []].
  - inversion S as [|? ? S' F]; subst. inversion S' as [|? ? S2 F2]; subst. inversion F as [|? ? LX F']; subst.
    assert (AB : (Qabs (last - x) == x - last)%Q) by (pose proof (Qabs_neg (last - x) ltac:(lra)) as AB0; lra).
    destruct (Qle_bool (1 # 10000000000) (Qabs (last - x))) eqn:E.
    + apply Qle_bool_iff in E. rewrite AB in E. destruct (IH x S') as (A & B & C). split; [|split].
      * constructor; [exact A|]. constructor; [unfold eps; lra|]. unfold apart in A. inversion A as [|? ? _ AF]; subst. rewrite Forall_forall in *.
        intros y Y. specialize (AF y Y). cbn beta in AF. lra.
      * intros y [<- |Y]; [left; reflexivity|right; apply B; exact Y].
      * intros y [<- |Y]; [exists x; split; [right; left; reflexivity|unfold eps; lra]|]. destruct (C y Y) as (z & Z & R). exists z. split; [right; exact Z|exact R].
    + assert (N : ~ (1 # 10000000000 <= Qabs (last - x))%Q) by (intros X; apply Qle_bool_iff in X; congruence). rewrite AB in N.
      assert (S3 : Sorted.StronglySorted Qle (last :: l)) by (constructor; assumption). destruct (IH last S3) as (A & B & C). split; [exact A|]. split.
      * intros y Y. right. apply B. exact Y.
      * intros y [<- |Y]; [|apply C; exact Y]. exists last. split; [left; reflexivity|unfold eps; lra].
Qed.
Lemma points_thm trig start stop : (start <= stop)%Q ->
  let l := test_points [] trig start stop in
  apart l /\ (forall y, In y l -> start - eps <= y <= stop + eps)%Q /\
  (forall y, (y = start \/ y = stop \/ In y trig /\ start - eps <= y <= stop + eps)%Q -> exists z, In z l /\ (z <= y < z + eps)%Q) /\
  (forall k, (0 <= k <= 4) -> exists z, In z l /\ (z <= start + (stop - start) * (k # 4) < z + eps)%Q).
Proof.
  intros L. cbn zeta. unfold test_points. rewrite app_nil_l.
  assert (U : forall c, c <> [] -> apart (unique (qsort c)) /\ (forall y, In y (unique (qsort c)) -> In y c) /\
    (forall y, In y c -> exists z, In z (unique (qsort c)) /\ (z <= y < z + eps)%Q)).
  { intros c NE. pose proof (qsort_sorted c) as S. pose proof (qsort_in c) as I. destruct (qsort c) as [|x l].
    - destruct c as [|a c]; [congruence|]. destruct (proj2 (I a) (or_introl eq_refl)).
    - cbn [unique]. destruct (unique_from_spec x l S) as (A & B & C). split; [exact A|]. split.
      + intros y Y. apply I. destruct Y as [<- |Y]; [left; reflexivity|right; apply B; exact Y].
      + intros y Y. apply I in Y. destruct Y as [<- |Y]; [|apply C; exact Y]. exists x. split; [left; reflexivity|unfold eps; lra]. }
  destruct (U (critical_points trig start stop) ltac:(discriminate)) as (A & B & C).
  set (l := unique (qsort (critical_points trig start stop))) in *. split; [exact A|].
  assert (CI : forall y, In y (critical_points trig start stop) <->
     In y [start; stop; (start + stop) / 2; start + (stop - start) * (1 # 4); start + (stop - start) * (3 # 4)]%Q \/
     In y trig /\ (start - eps <= y <= stop + eps)%Q).
  { intros y. unfold critical_points. rewrite in_app_iff, filter_In, andb_true_iff, !Qle_bool_iff. reflexivity. }
  split; [|split].
  - intros y Y. apply B, CI in Y. destruct Y as [Y|[_ Y]]; [|exact Y]. unfold eps. cbn [In] in Y.
    destruct Y as [<- |[<- |[<- |[<- |[<- |[]]]]]]; unfold Qdiv; change (/ 2)%Q with (1 # 2)%Q; lra.
  - intros y Y. apply C, CI. destruct Y as [-> |[-> |Y]]; [left; left; reflexivity|left; right; left; reflexivity|right; exact Y].
  - intros k K.
    assert (P : forall y, In y (critical_points trig start stop) -> (y == start + (stop - start) * (k # 4))%Q ->
      exists z, In z l /\ (z <= start + (stop - start) * (k # 4) < z + eps)%Q).
    { intros y Y E. destruct (C y Y) as (z & Z & R). exists z. split; [exact Z|]. rewrite <- E. exact R. }
    assert (KK : k = 0 \/ k = 1 \/ k = 2 \/ k = 3 \/ k = 4) by lia. destruct KK as [-> |[-> |[-> |[-> | -> ]]]].
    + apply (P start); [left; reflexivity|]. lra.
    + apply (P (start + (stop - start) * (1 # 4))%Q); [do 3 right; left; reflexivity|reflexivity].
    + apply (P ((start + stop) / 2)%Q); [do 2 right; left; reflexivity|]. unfold Qdiv; change (/ 2)%Q with (1 # 2)%Q. lra.
    + apply (P (start + (stop - start) * (3 # 4))%Q); [do 4 right; left; reflexivity|reflexivity].
    + apply (P stop); [right; left; reflexivity|]. lra.
Qed.
Lemma points_all random trig start stop : (start <= stop)%Q ->
  exists l, test_points random trig start stop = random ++ l /\
  apart l /\ (forall y, In y l -> start - eps <= y <= stop + eps)%Q /\
  (forall y, (y = start \/ y = stop \/ In y trig /\ start - eps <= y <= stop + eps)%Q -> exists z, In z l /\ (z <= y < z + eps)%Q) /\
  (forall k, (0 <= k <= 4) -> exists z, In z l /\ (z <= start + (stop - start) * (k # 4) < z + eps)%Q).
Proof. intros L. exists (test_points [] trig start stop). split; [reflexivity|exact (points_thm trig start stop L)]. Qed.
