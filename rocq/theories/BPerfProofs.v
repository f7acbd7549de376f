(** Proofs about BPerf.v. *)
From Coq Require Import ZArith QArith Qabs Bool List Lia Lqa.
From Verif Require Import Base Fixed Math Spec SpecAccuracy SpecBPerf Accuracy BPerf SpecLemmas BaseLemmas FixedLemmas ConvProofs AccuracyProofs.
Import ListNotations.
Open Scope Z_scope.

Lemma int32_succ n : 0 <= n -> c_add int32 int32 n 1 = if n <? 2 ^ 31 - 1 then Ok (n + 1) else (if n =? 2 ^ 31 - 1 then UB else c_add int32 int32 n 1).
Proof.
  intros H. destruct (Z.ltb_spec n (2 ^ 31 - 1)) as [L|L].
  - change (c_add int32 int32 n 1) with (arith int32 (wrap int32 n + 1)). rewrite wrap_id by (try reflexivity; apply in_range_iff; cbn; lia).
    unfold arith. change (sgn int32) with true. cbn [sgn]. replace (in_range int32 (n + 1)) with true; [reflexivity|]. symmetry. apply in_range_iff. cbn. lia.
  - destruct (Z.eqb_spec n (2 ^ 31 - 1)) as [-> |N]; reflexivity.
Qed.
Lemma succ_ok n : 0 <= n < 2 ^ 31 - 1 -> c_add int32 int32 n 1 = Ok (n + 1).
Proof. intros H. rewrite int32_succ by lia. replace (n <? 2 ^ 31 - 1) with true by (symmetry; apply Z.ltb_lt; lia). reflexivity. Qed.

Definition step (s : acc_stats) (c r : Q) : acc_stats :=
  let e := Qabs (c - r) in
  let d := inject_Z (total_samples s + 1) in
  {| max_abs := qmax (max_abs s) e; avg_abs := (avg_abs s + (e - avg_abs s) / d)%Q;
     max_rel := if Qeq_bool r 0 then max_rel s else qmax (max_rel s) (e / Qabs r);
     avg_rel := if Qeq_bool r 0 then avg_rel s else (avg_rel s + (e / Qabs r - avg_rel s) / d)%Q;
     total_samples := total_samples s + 1 |}.
Lemma update_ok s c r : 0 <= total_samples s < 2 ^ 31 - 1 -> update s c r = Ok (step s c r).
Proof.
  intros H. unfold update. rewrite !succ_ok by exact H. cbn [bind]. unfold step. destruct (Qeq_bool r 0); reflexivity.
Qed.
Lemma update_ub s c r : total_samples s = 2 ^ 31 - 1 -> update s c r = UB.
Proof. intros H. unfold update. rewrite H. reflexivity. Qed.

Definition qs (l : list Q) : Q := fold_right Qplus 0%Q l.
Lemma qs_app l e : (qs (l ++ [e]) == qs l + e)%Q.
Proof. induction l as [|a l IH]; cbn; [ring|]. unfold qs in IH. rewrite IH. ring. Qed.
Definition top (m : Q) (l : list Q) : Prop := (0 <= m)%Q /\ (forall e, In e l -> e <= m)%Q /\ (m = 0%Q \/ In m l).
Lemma top_snoc m l e : top m l -> top (qmax m e) (l ++ [e]).
Proof.
  intros (P & A & D). destruct (qmax_ub m e) as (Q1 & Q2 & Q3). split; [lra|]. split.
  - intros x I. apply in_app_iff in I as [I|[<- |[]]]; [|exact Q2]. specialize (A x I). lra.
  - destruct Q3 as [-> | -> ]; [|right; apply in_app_iff; right; left; reflexivity].
    destruct D as [-> |D]; [left; reflexivity|right; apply in_app_iff; left; exact D].
Qed.
(** the pairs seen so far are [l] *)
Definition nonzero (l : list (Q * Q)) : Prop := Forall (fun p => ~ (snd p == 0)%Q) l.
Definition inv (l : list (Q * Q)) (s : acc_stats) : Prop :=
  total_samples s = Z.of_nat (length l) /\ top (max_abs s) (errors l) /\
  (avg_abs s * inject_Z (Z.of_nat (length l)) == qs (errors l))%Q /\ (l = [] -> avg_abs s == 0)%Q /\
  top (max_rel s) (relative_errors l) /\ (0 <= avg_rel s <= max_rel s)%Q /\
  (nonzero l -> (avg_rel s * inject_Z (Z.of_nat (length l)) == qs (relative_errors l)))%Q /\ (l = [] -> avg_rel s == 0)%Q.
Lemma inv0 : inv [] acc0.
Proof.
  split; [reflexivity|]. unfold top. cbn. repeat split; try (intros; contradiction); try (left; reflexivity); try apply Qle_refl.
Qed.
Lemma errors_snoc l c r : errors (l ++ [(c, r)]) = errors l ++ [Qabs (c - r)].
Proof. unfold errors. rewrite map_app. reflexivity. Qed.
Lemma relative_snoc l c r : relative_errors (l ++ [(c, r)]) = relative_errors l ++ (if Qeq_bool r 0 then [] else [(Qabs (c - r) / Qabs r)%Q]).
Proof. unfold relative_errors. rewrite filter_app, map_app. f_equal. cbn [filter snd]. destruct (Qeq_bool r 0); reflexivity. Qed.
Lemma between a m r d : (1 <= d -> 0 <= a <= m -> 0 <= r <= m -> 0 <= a + (r - a) / d <= m)%Q.
Proof.
  intros D A R. assert (E : (a + (r - a) / d == (a * (d - 1) + r) / d)%Q) by (field; lra). rewrite E. split.
  - apply Qle_shift_div_l; [lra|]. nra.
  - apply Qle_shift_div_r; [lra|]. nra.
Qed.
Lemma succ_q n : (inject_Z (Z.of_nat n + 1) == inject_Z (Z.of_nat n) + 1)%Q.
Proof. rewrite inject_Z_plus. reflexivity. Qed.
Lemma nat_q n : (0 <= inject_Z (Z.of_nat n))%Q.
Proof. change 0%Q with (inject_Z 0). rewrite <- Zle_Qle. lia. Qed.
Lemma inv_step l s c r : inv l s -> inv (l ++ [(c, r)]) (step s c r).
Proof.
  intros (N & T & A & _ & T' & B & A' & _). unfold inv. rewrite errors_snoc, relative_snoc, app_length. cbn [length].
  rewrite Nat2Z.inj_add. change (Z.of_nat 1) with 1. pose proof (nat_q (length l)) as P.
  unfold step. cbn [total_samples max_abs avg_abs max_rel avg_rel]. rewrite !N.
  split; [reflexivity|]. split; [apply top_snoc; exact T|]. split; [rewrite qs_app, <- A, succ_q; field; lra|].
  split; [intros X; destruct l; discriminate X|].
  assert (Q : (0 <= Qabs (c - r) / Qabs r)%Q)
    by (unfold Qdiv; apply Qmult_le_0_compat; [apply Qabs_nonneg|apply Qinv_le_0_compat; apply Qabs_nonneg]).
  destruct (Qeq_bool r 0) eqn:Z.
  - rewrite app_nil_r. split; [exact T'|]. split; [exact B|]. split; [|intros X; destruct l; discriminate X].
    intros NZ. apply Forall_app in NZ as [_ NZ]. inversion NZ as [|? ? X]; subst. exfalso. apply X. apply Qeq_bool_iff. exact Z.
  - split; [apply top_snoc; exact T'|]. split.
    + destruct (qmax_ub (max_rel s) (Qabs (c - r) / Qabs r)) as (Q1 & Q2 & _). destruct B as [B1 B2]. apply between; [rewrite succ_q; lra|split; lra|split; lra].
    + split; [|intros X; destruct l; discriminate X]. intros NZ. apply Forall_app in NZ as [NZ _]. rewrite qs_app, <- (A' NZ), succ_q. generalize (Qabs (c - r) / Qabs r)%Q. intros e. field. lra.
Qed.
Lemma updates_inv l : forall l0 s, inv l0 s -> Z.of_nat (length (l0 ++ l)) <= 2 ^ 31 - 1 -> exists s', updates s l = Ok s' /\ inv (l0 ++ l) s'.
Proof.
  induction l as [|[c r] l IH]; intros l0 s I L; cbn [updates].
  - exists s. rewrite app_nil_r. split; [reflexivity|exact I].
  - rewrite app_length in L. cbn [length] in L. pose proof I as (N & _). rewrite update_ok by (rewrite N; lia). cbn [bind].
    destruct (IH (l0 ++ [(c, r)]) (step s c r)) as (s' & U & J).
    + apply inv_step. exact I.
    + rewrite <- app_assoc, app_length. cbn [app length]. lia.
    + exists s'. split; [exact U|]. rewrite <- app_assoc in J. exact J.
Qed.
Lemma errors_nonneg l e : In e (errors l) -> (0 <= e)%Q.
Proof. unfold errors. intros I. apply in_map_iff in I as (p & <- & _). apply Qabs_nonneg. Qed.
Lemma relative_nonneg l e : In e (relative_errors l) -> (0 <= e)%Q.
Proof.
  unfold relative_errors. intros I. apply in_map_iff in I as (p & <- & _). unfold Qdiv. apply Qmult_le_0_compat; [apply Qabs_nonneg|].
  apply Qinv_le_0_compat. apply Qabs_nonneg.
Qed.
Lemma updates_thm l : Z.of_nat (length l) < 2 ^ 31 -> exists s, updates acc0 l = Ok s /\ total_samples s = Z.of_nat (length l) /\
  is_largest (max_abs s) (errors l) /\ is_mean (avg_abs s) (errors l) /\ is_largest (max_rel s) (relative_errors l) /\
  (0 <= avg_rel s <= max_rel s)%Q /\ (Forall (fun p => ~ (snd p == 0)%Q) l -> is_mean (avg_rel s) (relative_errors l)).
Proof.
  intros L. destruct (updates_inv l [] acc0 inv0) as (s & U & N & (P & T & D) & A & A0 & (P' & T' & D') & B & A' & A0'); [cbn [app]; lia|].
  cbn [app] in *. exists s. split; [exact U|]. split; [exact N|].
  split; [apply largest_of; [exact P|apply errors_nonneg|exact T|exact D]|].
  split; [split; [unfold errors at 1; rewrite map_length; exact A|intros X; apply A0; destruct l; [reflexivity|discriminate X]]|].
  split; [apply largest_of; [exact P'|apply relative_nonneg|exact T'|exact D']|]. split; [exact B|]. intros NZ.
  assert (E : length (relative_errors l) = length l).
  { clear - NZ. unfold relative_errors. rewrite map_length. induction NZ as [|p l X NZ IH]; [reflexivity|]. cbn [filter].
    destruct (Qeq_bool (snd p) 0) eqn:Z; cbn [negb length]; [exfalso; apply X; apply Qeq_bool_iff; exact Z|]. f_equal. exact IH. }
  split; [rewrite E; apply A'; exact NZ|]. intros X. rewrite X in E. apply A0'. destruct l; [reflexivity|discriminate E].
Qed.
Lemma updates_app l1 : forall s l2, updates s (l1 ++ l2) = (let* s := updates s l1 in updates s l2).
Proof.
  induction l1 as [|[c r] l1 IH]; intros s l2; [reflexivity|]. cbn [app updates]. destruct (update s c r) as [s'| | |]; [apply IH|reflexivity..].
Qed.
Lemma updates_ub l : 2 ^ 31 <= Z.of_nat (length l) -> updates acc0 l = UB.
Proof.
  intros L. set (k := Z.to_nat (2 ^ 31 - 1)). assert (K : Z.of_nat k = 2 ^ 31 - 1) by (apply Z2Nat.id; apply Z.leb_le; vm_compute; reflexivity).
  clearbody k. rewrite <- (firstn_skipn k l), updates_app.
  assert (F : length (firstn k l) = k) by (apply firstn_length_le; lia).
  destruct (updates_thm (firstn k l)) as (s & U & N & _); [rewrite F; lia|]. rewrite U. cbn [bind].
  destruct (skipn k l) as [|[c r] l'] eqn:E.
  - exfalso. pose proof (skipn_length k l) as X. rewrite E in X. cbn [length] in X. lia.
  - cbn [updates]. rewrite update_ub by (rewrite N, F; exact K). reflexivity.
Qed.
Lemma avg_rel_refuted : exists s, updates acc0 [(1, 0); (2, 1)]%Q = Ok s /\ ~ is_mean (avg_rel s) (relative_errors [(1, 0); (2, 1)]%Q).
Proof. eexists. split; [reflexivity|]. intros (A & _). vm_compute in A. discriminate A. Qed.

(** the loop *)
Definition good (g : Z -> res Z) (p : sample) : Prop :=
  exists x v, fx_of_float F64 (fst (fst p)) (snd (fst p)) = Ok x /\ g x = Ok v /\ valid F64 v = true.
Definition seen (g : Z -> res Z) (samples : list sample) (i : nat) (p : Q * Q) : Prop :=
  exists num k ref x v d, nth_error samples (i mod length samples) = Some (num, k, ref) /\ fx_of_float F64 num k = Ok x /\ g x = Ok v /\
    is_trunc 0 (qval 32 v) d /\ p = (inject_Z d, ref).
Lemma rem_ok i n : 0 <= i < 2 ^ 64 -> 0 < n < 2 ^ 64 -> c_rem uint64 uint64 i n = Ok (i mod n).
Proof.
  intros I N. unfold c_rem. change (uac uint64 uint64) with uint64. cbv zeta. rewrite (wrap_id uint64 i), (wrap_id uint64 n) by (try reflexivity; apply in_range_iff; cbn; lia).
  replace (n =? 0) with false by (symmetry; apply Z.eqb_neq; lia). cbn [sgn uint64]. rewrite Z.rem_mod_nonneg by lia.
  try reflexivity.
Qed.
Lemma loop_ok g samples n : forall i count s, samples <> [] -> Z.of_nat (length samples) < 2 ^ 64 -> Forall (good g) samples ->
  0 <= total_samples s -> total_samples s + Z.of_nat n < 2 ^ 31 -> 0 <= count -> count + Z.of_nat n < 2 ^ 31 -> Z.of_nat (i + n) < 2 ^ 63 ->
  exists l, length l = n /\ (forall j p, nth_error l j = Some p -> seen g samples (i + j) p) /\
    acc_loop g samples n (Z.of_nat i) count s = updates s l.
Proof.
  induction n as [|n IH]; intros i count s NE LS G T0 T C0 C IN.
  - exists []. split; [reflexivity|]. split; [intros [|j] p X; discriminate X|reflexivity].
  - assert (LP : (0 < length samples)%nat) by (destruct samples; [congruence|cbn; lia]). cbn [acc_loop].
    rewrite rem_ok by lia. cbn [bind]. rewrite <- Nat2Z.inj_mod, Nat2Z.id.
    assert (B : (i mod length samples < length samples)%nat) by (apply Nat.mod_upper_bound; lia).
    destruct (nth_error samples (i mod length samples)) as [[[num k] ref]|] eqn:E; [|apply nth_error_None in E; lia].
    pose proof (proj1 (Forall_forall _ _) G _ (nth_error_In _ _ E)) as (x & v & X & V & VV). cbn [fst snd] in X.
    rewrite X. cbn [bind]. rewrite V. cbn [bind]. rewrite (fx_to_float_eq F64 v eq_refl VV). cbn [bind].
    rewrite update_ok by lia. cbn [bind]. rewrite succ_ok by lia. cbn [bind].
    change (c_add uint64 int32 (Z.of_nat i) 1) with (Ok (wrap uint64 (wrap uint64 (Z.of_nat i) + 1))). cbn [bind].
    rewrite (wrap_id uint64 (Z.of_nat i)) by (try reflexivity; apply in_range_iff; cbn; lia).
    rewrite !(wrap_id uint64 (Z.of_nat i + 1)) by (try reflexivity; apply in_range_iff; cbn; lia).
    replace (Z.of_nat i + 1) with (Z.of_nat (S i)) by lia.
    destruct (IH (S i) (count + 1) (step s (inject_Z (Z.quot v (2 ^ cf F64))) ref)) as (l & L & J & R); try assumption.
    1-5: try (unfold step; cbn [total_samples]); lia.
    exists ((inject_Z (Z.quot v (2 ^ cf F64)), ref) :: l). split; [cbn [length]; lia|]. split.
    + intros [|j] p Y; cbn [nth_error] in Y.
      * injection Y as <-. exists num, k, ref, x, v, (Z.quot v (2 ^ cf F64)). rewrite Nat.add_0_r. split; [exact E|]. split; [exact X|]. split; [exact V|].
        split; [apply is_trunc_int; [lia|reflexivity]|reflexivity].
      * replace (i + S j)%nat with (S i + j)%nat by lia. apply J. exact Y.
    + cbn [updates]. rewrite update_ok by lia. cbn [bind]. exact R.
Qed.
Lemma loop_thm g (samples : list sample) n : samples <> [] -> Z.of_nat (length samples) < 2 ^ 64 -> Z.of_nat n < 2 ^ 31 ->
  Forall (fun '(num, k, _) => exists x v, fx_of_float F64 num k = Ok x /\ g x = Ok v /\ valid F64 v = true) samples ->
  exists l, length l = n /\
    (forall i p, nth_error l i = Some p -> exists num k ref x v d,
       nth_error samples (i mod length samples) = Some (num, k, ref) /\ fx_of_float F64 num k = Ok x /\ g x = Ok v /\
       is_trunc 0 (qval 32 v) d /\ p = (inject_Z d, ref)) /\
    acc_loop g samples n 0 0 acc0 = updates acc0 l.
Proof.
  intros NE LS N G. apply (loop_ok g samples n 0%nat 0 acc0); try assumption; cbn [acc0 total_samples]; try lia.
  revert G. apply Forall_impl. intros [[num k] ref] H. exact H.
Qed.
Lemma loop_empty g n index count s : acc_loop g [] (S n) index count s = UB.
Proof. reflexivity. Qed.
Lemma loop_blind g g' (samples : list sample) n : forall i count s,
  Forall (fun '(num, k, _) => exists x v, fx_of_float F64 num k = Ok x /\ g x = Ok v /\ valid F64 v = true /\ (Qabs (qval 32 v) < 1)%Q) samples ->
  Forall (fun '(num, k, _) => exists x v, fx_of_float F64 num k = Ok x /\ g' x = Ok v /\ valid F64 v = true /\ (Qabs (qval 32 v) < 1)%Q) samples ->
  acc_loop g samples n i count s = acc_loop g' samples n i count s.
Proof.
  assert (Z : forall v, valid F64 v = true -> (Qabs (qval 32 v) < 1)%Q -> fx_to_float F64 v = Ok 0).
  { intros v V A. apply (float_cast_trunc F64); [reflexivity|exact V|]. apply Qabs_Qlt_condition in A. destruct A as [A1 A2].
    change (cf F64) with 32. split; intros S; [split; [exact S|exact A2]|split; [exact A1|exact S]]. }
  intros i count s G G'. revert i count s. induction n as [|n IH]; intros i count s; [reflexivity|]. cbn [acc_loop].
  destruct (c_rem uint64 uint64 i (Z.of_nat (length samples))) as [m| | |]; cbn [bind]; try reflexivity.
  destruct (nth_error samples (Z.to_nat m)) as [[[num k] ref]|] eqn:E; [|reflexivity].
  pose proof (proj1 (Forall_forall _ _) G _ (nth_error_In _ _ E)) as (x & v & X & V & VV & A).
  pose proof (proj1 (Forall_forall _ _) G' _ (nth_error_In _ _ E)) as (x' & v' & X' & V' & VV' & A').
  rewrite X in X' |- *. injection X' as <-. cbn [bind]. rewrite V, V'. cbn [bind]. rewrite (Z v VV A), (Z v' VV' A'). cbn [bind].
  destruct (update s (inject_Z 0) ref) as [s'| | |]; cbn [bind]; try reflexivity.
  destruct (c_add int32 int32 count 1) as [c'| | |]; cbn [bind]; try reflexivity.
  destruct (c_add uint64 int32 i 1) as [i'| | |]; cbn [bind]; try reflexivity. apply IH.
Qed.
Lemma loop_ub_count g (samples : list sample) n : samples <> [] -> Z.of_nat (length samples) < 2 ^ 64 -> 2 ^ 31 <= Z.of_nat n ->
  Forall (fun '(num, k, _) => exists x v, fx_of_float F64 num k = Ok x /\ g x = Ok v /\ valid F64 v = true) samples ->
  acc_loop g samples n 0 0 acc0 = UB.
Proof.
  intros NE LS N G.
  assert (K : forall n i count s, total_samples s <= 2 ^ 31 - 1 -> 0 <= total_samples s -> count = total_samples s -> Z.of_nat i = total_samples s ->
    2 ^ 31 - 1 < total_samples s + Z.of_nat n -> acc_loop g samples n (Z.of_nat i) count s = UB).
  2: { apply (K n 0%nat 0 acc0); cbn [acc0 total_samples]; lia. }
  clear n N. induction n as [|n IH]; intros i count s T T0 C I N; [lia|].
  assert (LP : (0 < length samples)%nat) by (destruct samples; [congruence|cbn; lia]). cbn [acc_loop].
  rewrite rem_ok by lia. cbn [bind]. rewrite <- Nat2Z.inj_mod, Nat2Z.id.
  assert (B : (i mod length samples < length samples)%nat) by (apply Nat.mod_upper_bound; lia).
  destruct (nth_error samples (i mod length samples)) as [[[num k] ref]|] eqn:E; [|apply nth_error_None in E; lia].
  pose proof (proj1 (Forall_forall _ _) G _ (nth_error_In _ _ E)) as (x & v & X & V & VV).
  rewrite X. cbn [bind]. rewrite V. cbn [bind]. rewrite (fx_to_float_eq F64 v eq_refl VV). cbn [bind].
  destruct (Z.eq_dec (total_samples s) (2 ^ 31 - 1)) as [L|L]; [rewrite update_ub by exact L; reflexivity|].
  rewrite update_ok by lia. cbn [bind]. rewrite succ_ok by lia. cbn [bind].
  change (c_add uint64 int32 (Z.of_nat i) 1) with (Ok (wrap uint64 (wrap uint64 (Z.of_nat i) + 1))). cbn [bind].
  rewrite (wrap_id uint64 (Z.of_nat i)) by (try reflexivity; apply in_range_iff; cbn; lia).
  rewrite !(wrap_id uint64 (Z.of_nat i + 1)) by (try reflexivity; apply in_range_iff; cbn; lia).
  replace (Z.of_nat i + 1) with (Z.of_nat (S i)) by lia. apply IH; unfold step; cbn [total_samples]; lia.
Qed.
(** the points *)
Lemma samples_in random critical lo hi p : In p (perf_samples random critical lo hi) <->
  In p random \/ In p critical /\ (fst (perf_range lo hi) <= p /\ p <= snd (perf_range lo hi))%Q.
Proof.
  unfold perf_samples. destruct (perf_range lo hi) as [a b]. cbn [fst snd]. rewrite in_app_iff, filter_In, andb_true_iff, !Qle_bool_iff. tauto.
Qed.
Lemma range_thm lo hi : ((lo == 0 /\ hi == 0)%Q -> perf_range lo hi = (- (1 # 1000), 1 # 1000)%Q) /\
  (~ (lo == 0 /\ hi == 0)%Q -> perf_range lo hi = (lo, hi)).
Proof.
  unfold perf_range. destruct (Qeq_bool lo hi) eqn:A, (Qeq_bool lo 0) eqn:B; cbn [andb]; (split; [intros [X Y]|intros X]); try reflexivity.
  - exfalso. apply X. apply Qeq_bool_iff in A, B. split; [exact B|]. rewrite <- A. exact B.
  - exfalso. assert (Qeq_bool lo 0 = true) by (apply Qeq_bool_iff; exact X). congruence.
  - exfalso. assert (Qeq_bool lo hi = true) by (apply Qeq_bool_iff; rewrite X, Y; reflexivity). congruence.
  - exfalso. assert (Qeq_bool lo 0 = true) by (apply Qeq_bool_iff; exact X). congruence.
Qed.
Lemma loop_refuted : forall ref, (Qabs (ref - (479425538604 # 1000000000000)) <= 1 # 1000000000)%Q ->
  exists x v s, fx_of_float F64 1 1 = Ok x /\ fx_sin F64 x = Ok v /\ acc_loop (fx_sin F64) [(1, 1, ref)] 1 0 0 acc0 = Ok s /\
    (Qabs (qval 32 v - ref) < 1 # 10000)%Q /\ (479 # 1000 < max_abs s)%Q.
Proof.
  intros ref H. apply Qabs_Qle_condition in H. exists 2147483648, 2059117009.
  assert (G : fx_sin F64 2147483648 = Ok 2059117009) by (vm_compute; reflexivity).
  exists (step acc0 0%Q ref). split; [reflexivity|]. split; [exact G|]. split; [|split].
  - cbn [acc_loop]. change (c_rem uint64 uint64 0 (Z.of_nat (length [(1, 1, ref)]))) with (Ok 0). cbn [bind Z.to_nat nth_error].
    change (fx_of_float F64 1 1) with (Ok 2147483648). cbn [bind]. rewrite G. cbn [bind].
    change (fx_to_float F64 2059117009) with (Ok 0). cbn [bind]. change (inject_Z 0) with 0%Q. rewrite update_ok by (cbn; lia). reflexivity.
  - apply Qabs_Qlt_condition. unfold qval. change (pow2p 32) with 4294967296%positive. destruct H as [H1 H2]. split; lra.
  - destruct (qmax_ub (max_abs acc0) (Qabs (0 - ref))) as (_ & Q & _). cbn [step max_abs].
    pose proof (Qle_Qabs (- (0 - ref))) as A. rewrite Qabs_opp in A. lra.
Qed.
Lemma short l s : updates acc0 l = Ok s -> Z.of_nat (length l) < 2 ^ 31.
Proof. intros U. destruct (Z.lt_ge_cases (Z.of_nat (length l)) (2 ^ 31)) as [H|H]; [exact H|]. rewrite updates_ub in U by exact H. discriminate U. Qed.
Lemma avg_rel_thm l s : updates acc0 l = Ok s -> Forall (fun p => ~ (snd p == 0)%Q) l -> is_mean (avg_rel s) (relative_errors l).
Proof.
  intros U. destruct (updates_thm l (short l s U)) as (s' & U' & _ & _ & _ & _ & _ & M). rewrite U in U'. injection U' as <-. exact M.
Qed.
Lemma avg_rel_bounds l s : updates acc0 l = Ok s -> (0 <= avg_rel s <= max_rel s)%Q.
Proof.
  intros U. destruct (updates_thm l (short l s U)) as (s' & U' & _ & _ & _ & _ & B & _). rewrite U in U'. injection U' as <-. exact B.
Qed.
Lemma statistics l : Z.of_nat (length l) < 2 ^ 31 -> exists s, updates acc0 l = Ok s /\ total_samples s = Z.of_nat (length l) /\
  is_largest (max_abs s) (errors l) /\ is_mean (avg_abs s) (errors l) /\ is_largest (max_rel s) (relative_errors l).
Proof. intros H. destruct (updates_thm l H) as (s & U & N & A & B & C & _). exists s. exact (conj U (conj N (conj A (conj B C)))). Qed.
