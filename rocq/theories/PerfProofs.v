(** Proofs about detail/perf.hpp: measure_esp (C93, C111). *)
From Coq Require Import ZArith Bool List Lia.
From Verif Require Import Base BaseLemmas Fixed Math Cordic CordicProofs Util.
Import ListNotations.
Open Scope Z_scope.

(** the error at an input: both functions are defined there and [e] is the distance of their results *)
Definition err (func std_func : Z -> res Z) (x e : Z) : Prop :=
  exists a b, func x = Ok a /\ std_func x = Ok b /\ e = Z.abs (b - a).

Lemma big_le c x y : big (ct c) -> minv (ct c) <= x <= maxv (ct c) -> minv (ct c) <= y <= maxv (ct c) -> fx_le c x y = (x <=? y).
Proof. intros B X Y. unfold fx_le, fx_cmp. cbv zeta. rewrite big_uac by auto. rewrite !big_wrap by auto. reflexivity. Qed.
Lemma big_sub_inv t x y r : big t -> minv t <= x <= maxv t -> minv t <= y <= maxv t -> c_sub t t x y = Ok r -> r = x - y /\ minv t <= r <= maxv t.
Proof.
  intros B X Y. unfold c_sub. cbv zeta. rewrite big_uac by auto. rewrite !big_wrap by auto. unfold arith. destruct B as (_ & _ & ->).
  destruct (in_range t (x - y)) eqn:E; [|discriminate]. intros H. injection H as <-. apply in_range_iff in E. auto.
Qed.
Lemma big_add_inv t x y r : big t -> minv t <= x <= maxv t -> minv t <= y <= maxv t -> c_add t t x y = Ok r -> r = x + y /\ minv t <= r <= maxv t.
Proof.
  intros B X Y. unfold c_add. cbv zeta. rewrite big_uac by auto. rewrite !big_wrap by auto. unfold arith. destruct B as (_ & _ & ->).
  destruct (in_range t (x + y)) eqn:E; [|discriminate]. intros H. injection H as <-. apply in_range_iff in E. auto.
Qed.
Lemma big_i32 t : big t -> uac t int32 = t.
Proof.
  intros B. pose proof B as (K & B32 & SG). unfold uac. rewrite big_promote by auto. change (promote int32) with int32. rewrite SG. cbn [sgn bits int32 Bool.eqb].
  destruct (Z.ltb_spec (bits t) 32); [lia|reflexivity].
Qed.
Lemma big_min t : big t -> minv t = - maxv t - 1 /\ 0 < maxv t.
Proof.
  intros (K & B32 & SG). unfold minv, maxv. rewrite SG. pose proof (Z.pow_le_mono_r 2 1 (bits t - 1) ltac:(lia) ltac:(lia)). lia.
Qed.
Lemma abs_eq c d : big (ct c) -> minv (ct c) <= d <= maxv (ct c) -> fx_abs c d = if d =? minv (ct c) then UB else Ok (Z.abs d).
Proof.
  intros B D. destruct (big_min _ B) as [MN MX]. unfold fx_abs, c_lt. cbv zeta. rewrite big_i32 by auto. rewrite (big_wrap (ct c) d), (big_wrap (ct c) 0) by (auto; lia).
  destruct (Z.ltb_spec d 0).
  - unfold c_neg. rewrite big_promote by auto. unfold arith. pose proof B as (_ & _ & ->).
    destruct (Z.eqb_spec d (minv (ct c))) as [E|E].
    + replace (in_range (ct c) (- d)) with false; [reflexivity|]. symmetry. apply not_true_iff_false. rewrite in_range_iff. lia.
    + replace (in_range (ct c) (- d)) with true by (symmetry; apply in_range_iff; lia). cbn [bind]. unfold from_internal_value. rewrite big_wrap by (auto; lia). f_equal. lia.
  - cbn [bind]. unfold from_internal_value. rewrite big_wrap by (auto; lia). destruct (Z.eqb_spec d (minv (ct c))); [lia|]. f_equal. lia.
Qed.

Definition vld (c : cfg) (x : Z) : Prop := minv (ct c) <= x <= maxv (ct c).
Definition typed (c : cfg) (g : Z -> res Z) : Prop := forall x v, g x = Ok v -> valid c v = true.

Section Perf.
Variables (c : cfg) (func std_func : Z -> res Z) (stop step : Z).
Hypotheses (B : big (ct c)) (TF : typed c func) (TS : typed c std_func) (VS : vld c stop) (VT : vld c step).

Lemma err_inv x : forall r' fuel r, esp_loop (S fuel) c func std_func x stop step r = Ok r' -> vld c x -> x <= stop ->
  exists e, err func std_func x e /\ 0 <= e <= maxv (ct c).
Proof.
  intros r' fuel r. cbn [esp_loop]. intros H X L. rewrite big_le in H by auto. replace (x <=? stop) with true in H by lia.
  destruct (func x) as [a| | |] eqn:EA; cbn [bind] in H; try discriminate. destruct (std_func x) as [b| | |] eqn:EB; cbn [bind] in H; try discriminate.
  pose proof (TF _ _ EA) as VA. pose proof (TS _ _ EB) as VB. apply in_range_iff in VA, VB. unfold fx_sub in H.
  destruct (c_sub (ct c) (ct c) b a) as [d| | |] eqn:ED; cbn [bind] in H; try discriminate.
  apply big_sub_inv in ED; auto. destruct ED as [-> D]. rewrite big_wrap in H by auto. rewrite abs_eq in H by auto.
  destruct (Z.eqb_spec (b - a) (minv (ct c))) as [E|E]; cbn [bind] in H; [discriminate|].
  destruct (big_min _ B). exists (Z.abs (b - a)). split; [exists a, b; auto|lia].
Qed.
Lemma step_eq x e fuel r : vld c x -> x <= stop -> err func std_func x e -> 0 <= e <= maxv (ct c) -> vld c (max_esp r) -> vld c (min_esp r) ->
  esp_loop (S fuel) c func std_func x stop step r =
    let* x' := fx_add_assign c x step in
    esp_loop fuel c func std_func x' stop step
      {| max_esp := if max_esp r <? e then e else max_esp r; min_esp := if e <? min_esp r then e else min_esp r;
         max_esp_input := if max_esp r <? e then x else max_esp_input r; min_esp_input := if e <? min_esp r then x else min_esp_input r |}.
Proof.
  intros X L (a & b & EA & EB & ->) E V1 V2. cbn [esp_loop]. rewrite big_le by auto. replace (x <=? stop) with true by lia. rewrite EA, EB. cbn [bind].
  pose proof (TF _ _ EA) as VA. pose proof (TS _ _ EB) as VB. apply in_range_iff in VA, VB. destruct (big_min _ B).
  unfold fx_sub. rewrite big_sub by (auto; lia). cbn [bind]. rewrite big_wrap by (auto; lia). rewrite abs_eq by (auto; lia).
  destruct (Z.eqb_spec (b - a) (minv (ct c))); [lia|]. cbn [bind]. set (e := Z.abs (b - a)) in *.
  rewrite big_gt by (auto; lia). cbv zeta. destruct (max_esp r <? e) eqn:G; cbn [max_esp min_esp max_esp_input min_esp_input]; rewrite big_lt by (auto; lia);
  destruct (e <? min_esp r) eqn:G2; cbn [max_esp min_esp max_esp_input min_esp_input]; try reflexivity. destruct r; reflexivity.
Qed.
Lemma loop_spec : 0 < step -> forall fuel x r r', vld c x -> vld c (max_esp r) -> vld c (min_esp r) ->
  esp_loop fuel c func std_func x stop step r = Ok r' ->
  (forall k, 0 <= k -> x + k * step <= stop -> exists e, err func std_func (x + k * step) e /\ min_esp r' <= e <= max_esp r') /\
  max_esp r <= max_esp r' /\ min_esp r' <= min_esp r /\
  ((max_esp r' = max_esp r /\ max_esp_input r' = max_esp_input r) \/
   (max_esp r < max_esp r' /\ exists k, 0 <= k /\ x + k * step <= stop /\ max_esp_input r' = x + k * step /\ err func std_func (x + k * step) (max_esp r'))) /\
  ((min_esp r' = min_esp r /\ min_esp_input r' = min_esp_input r) \/
   (min_esp r' < min_esp r /\ exists k, 0 <= k /\ x + k * step <= stop /\ min_esp_input r' = x + k * step /\ err func std_func (x + k * step) (min_esp r'))).
Proof.
  intros SP. induction fuel as [|fuel IH]; intros x r r' X V1 V2 H.
  - cbn [esp_loop] in H. rewrite big_le in H by auto. destruct (Z.leb_spec x stop); [discriminate|]. injection H as <-.
    split; [intros; nia|]. split; [lia|]. split; [lia|]. split; left; auto.
  - destruct (Z_le_gt_dec x stop) as [L|L].
    2:{ cbn [esp_loop] in H. rewrite big_le in H by auto. destruct (Z.leb_spec x stop); [lia|]. injection H as <-.
        split; [intros; nia|]. split; [lia|]. split; [lia|]. split; left; auto. }
    destruct (err_inv x r' fuel r H X L) as (e & EE & EB). rewrite (step_eq x e fuel r X L EE EB V1 V2) in H.
    unfold fx_add_assign in H. destruct (c_add (ct c) (ct c) x step) as [x'| | |] eqn:EA; cbn [bind] in H; try discriminate.
    apply big_add_inv in EA; auto. destruct EA as [-> XR]. rewrite big_wrap in H by auto. destruct (big_min _ B) as [MN MX].
    apply IH in H; auto; [|cbn [max_esp]; destruct (max_esp r <? e); auto; unfold vld; lia|cbn [min_esp]; destruct (e <? min_esp r); auto; unfold vld; lia].
    destruct H as (H1 & H2 & H3 & H4 & H5). cbn [max_esp min_esp max_esp_input min_esp_input] in *.
    assert (SH : forall k, x + step + k * step = x + (k + 1) * step) by (intros; ring).
    split.
    { intros k K KL. destruct (Z.eq_dec k 0) as [->|NE].
      - replace (x + 0 * step) with x by ring. exists e. split; [exact EE|]. destruct (Z.ltb_spec (max_esp r) e), (Z.ltb_spec e (min_esp r)); lia.
      - specialize (H1 (k - 1) ltac:(lia)). rewrite SH in H1. replace (k - 1 + 1) with k in H1 by lia. apply H1, KL. }
    split; [destruct (Z.ltb_spec (max_esp r) e); lia|]. split; [destruct (Z.ltb_spec e (min_esp r)); lia|].
    assert (X0 : x + 0 * step = x) by ring.
    split.
    + destruct H4 as [[H4 H6]|(H4 & k & K & KL & I & E)].
      * destruct (Z.ltb_spec (max_esp r) e).
        -- right. split; [lia|]. exists 0. rewrite X0, H4. split; [lia|]. split; [lia|]. split; [exact H6|exact EE].
        -- left. auto.
      * right. split; [destruct (Z.ltb_spec (max_esp r) e); lia|]. exists (k + 1). rewrite <- SH. split; [lia|]. auto.
    + destruct H5 as [[H5 H6]|(H5 & k & K & KL & I & E)].
      * destruct (Z.ltb_spec e (min_esp r)).
        -- right. split; [lia|]. exists 0. rewrite X0, H5. split; [lia|]. split; [lia|]. split; [exact H6|exact EE].
        -- left. auto.
      * right. split; [destruct (Z.ltb_spec e (min_esp r)); lia|]. exists (k + 1). rewrite <- SH. split; [lia|]. auto.
Qed.
Lemma loop_total : 0 < step -> forall fuel x r, vld c x -> vld c (max_esp r) -> vld c (min_esp r) -> stop + step <= maxv (ct c) ->
  (forall k, 0 <= k -> x + k * step <= stop -> exists e, err func std_func (x + k * step) e /\ e <= maxv (ct c)) ->
  stop < x + Z.of_nat fuel * step -> exists r', esp_loop fuel c func std_func x stop step r = Ok r'.
Proof.
  intros SP. induction fuel as [|fuel IH]; intros x r X V1 V2 NB D F.
  - cbn [esp_loop]. rewrite big_le by auto. destruct (Z.leb_spec x stop); [lia|]. eauto.
  - destruct (Z_le_gt_dec x stop) as [L|L].
    2:{ cbn [esp_loop]. rewrite big_le by auto. destruct (Z.leb_spec x stop); [lia|]. eauto. }
    destruct (D 0 ltac:(lia) ltac:(lia)) as (e & EE & EB). replace (x + 0 * step) with x in EE by ring.
    assert (E0 : 0 <= e) by (destruct EE as (a & b & _ & _ & ->); lia). rewrite (step_eq x e fuel r X L EE (conj E0 EB) V1 V2).
    destruct (big_min _ B) as [MN MX]. unfold vld in *. unfold fx_add_assign. rewrite big_add by (auto; lia). cbn [bind]. rewrite big_wrap by (auto; lia).
    apply IH; try lia.
    + cbn [max_esp]. destruct (max_esp r <? e); lia.
    + cbn [min_esp]. destruct (e <? min_esp r); lia.
    + intros k K KL. specialize (D (k + 1) ltac:(lia)). replace (x + (k + 1) * step) with (x + step + k * step) in D by ring. auto.
Qed.
(** the loop ends only past [stop] *)
Lemma loop_ends : forall fuel x r r', vld c x -> vld c (max_esp r) -> vld c (min_esp r) ->
  esp_loop fuel c func std_func x stop step r = Ok r' -> x <= stop -> 0 < step /\ stop < maxv (ct c).
Proof.
  induction fuel as [|fuel IH]; intros x r r' X V1 V2 H L.
  - cbn [esp_loop] in H. rewrite big_le in H by auto. destruct (Z.leb_spec x stop); [discriminate|lia].
  - destruct (err_inv x r' fuel r H X L) as (e & EE & EB). rewrite (step_eq x e fuel r X L EE EB V1 V2) in H.
    unfold fx_add_assign in H. destruct (c_add (ct c) (ct c) x step) as [x'| | |] eqn:EA; cbn [bind] in H; try discriminate.
    apply big_add_inv in EA; auto. destruct EA as [-> XR]. rewrite big_wrap in H by auto. destruct (big_min _ B) as [MN MX].
    destruct (Z_le_gt_dec (x + step) stop) as [L2|L2].
    + apply IH in H; auto; [cbn [max_esp]; destruct (max_esp r <? e); auto; unfold vld; lia|cbn [min_esp]; destruct (e <? min_esp r); auto; unfold vld; lia].
    + unfold vld in *. lia.
Qed.
End Perf.

(** C93: what is reported, for a positive step *)
Lemma C93_lemma c func std_func start stop step init fuel r :
  big (ct c) -> typed c func -> typed c std_func -> valid c start = true -> valid c stop = true -> valid c step = true ->
  valid c (init 0) = true -> valid c (init 255) = true -> 0 < step ->
  measure_esp fuel c start stop step func std_func init = Ok r ->
  (forall k, 0 <= k -> start + k * step <= stop -> exists e, err func std_func (start + k * step) e /\ min_esp r <= e <= max_esp r) /\
  ((max_esp r = init 0 /\ max_esp_input r = init 0) \/
   (init 0 < max_esp r /\ exists k, 0 <= k /\ start + k * step <= stop /\ max_esp_input r = start + k * step /\ err func std_func (start + k * step) (max_esp r))) /\
  ((min_esp r = init 255 /\ min_esp_input r = init 0) \/
   (min_esp r < init 255 /\ exists k, 0 <= k /\ start + k * step <= stop /\ min_esp_input r = start + k * step /\ err func std_func (start + k * step) (min_esp r))).
Proof.
  intros B TF TS V1 V2 V3 V4 V5 SP H. apply in_range_iff in V1, V2, V3, V4, V5. unfold measure_esp in H. change 0xFF with 255 in H.
  apply loop_spec in H; auto. destruct H as (H1 & _ & _ & H4 & H5). cbn [max_esp min_esp max_esp_input min_esp_input] in *. auto.
Qed.
Lemma C111_total c func std_func start stop step init :
  big (ct c) -> typed c func -> typed c std_func -> valid c start = true -> valid c stop = true -> valid c step = true ->
  valid c (init 0) = true -> valid c (init 255) = true -> 0 < step -> stop + step <= maxv (ct c) ->
  (forall k, 0 <= k -> start + k * step <= stop -> exists e, err func std_func (start + k * step) e /\ e <= maxv (ct c)) ->
  exists fuel r, measure_esp fuel c start stop step func std_func init = Ok r.
Proof.
  intros B TF TS V1 V2 V3 V4 V5 SP NB D. apply in_range_iff in V1, V2, V3, V4, V5. exists (Z.to_nat (stop - start + 1)). unfold measure_esp. change 0xFF with 255.
  apply loop_total; auto. destruct (Z_le_gt_dec start stop); [|lia]. rewrite Z2Nat.id by lia. nia.
Qed.
Lemma C111_never c func std_func start stop step init fuel r :
  big (ct c) -> typed c func -> typed c std_func -> valid c start = true -> valid c stop = true -> valid c step = true ->
  valid c (init 0) = true -> valid c (init 255) = true -> start <= stop -> step <= 0 \/ stop = maxv (ct c) ->
  measure_esp fuel c start stop step func std_func init <> Ok r.
Proof.
  intros B TF TS V1 V2 V3 V4 V5 L BAD H. apply in_range_iff in V1, V2, V3, V4, V5. unfold measure_esp in H. change 0xFF with 255 in H.
  apply loop_ends in H; auto. lia.
Qed.
(** identical functions on [1.0, 1.0]: the maximum is reported at input 0, which was not visited *)
Lemma C93_refuted_lemma : exists func std_func start stop step init r,
  typed F32 func /\ typed F32 std_func /\ 0 < step /\ measure_esp 2 F32 start stop step func std_func init = Ok r /\
  (forall n, 0 <= n <= 255 -> init n = n * 65536) /\
  ~ (exists k, 0 <= k /\ start + k * step <= stop /\ max_esp_input r = start + k * step).
Proof.
  exists (fun x => if valid F32 x then Ok x else UB), (fun x => if valid F32 x then Ok x else UB), 65536, 65536, 65536, (fun n => n * 65536). eexists.
  assert (T : typed F32 (fun x => if valid F32 x then Ok x else UB)).
  { intros x v. destruct (valid F32 x) eqn:E; [|discriminate]. intros H. injection H as <-. exact E. }
  split; [exact T|]. split; [exact T|]. split; [reflexivity|]. split; [vm_compute; reflexivity|]. split; [auto|].
  cbn [max_esp_input]. intros (k & K & L & E). lia.
Qed.
