(** Proofs about Cpu.v. *)
From Coq Require Import ZArith Bool List Lia.
From Verif Require Import SpecCpu Cpu.
Import ListNotations.
Open Scope Z_scope.

Lemma land_pow w b : 0 <= b -> negb (Z.land w (Z.shiftl 1 b) =? 0) = Z.testbit w b.
Proof.
  intros H. destruct (Z.testbit w b) eqn:T.
  - apply negb_true_iff, Z.eqb_neq. intros E. assert (X : Z.testbit (Z.land w (Z.shiftl 1 b)) b = false) by (rewrite E; apply Z.bits_0).
    rewrite Z.land_spec, T, Z.shiftl_spec, Z.sub_diag in X by lia. discriminate X.
  - apply negb_false_iff, Z.eqb_eq. apply Z.bits_inj'. intros n N. rewrite Z.land_spec, Z.bits_0, Z.shiftl_spec by lia.
    destruct (Z.eq_dec n b) as [-> |NE]; [rewrite T; reflexivity|]. replace (Z.testbit 1 (n - b)) with false; [apply andb_false_r|].
    symmetry. destruct (Z.lt_ge_cases (n - b) 0); [apply Z.testbit_neg_r; lia|]. apply Z.bits_above_log2; cbn; lia.
Qed.
Lemma bit_test r b : 0 <= b -> bit r b = Z.testbit r b. Proof. apply land_pow. Qed.
Lemma btest_test w k : 0 <= k -> btest w k = Z.testbit w k. Proof. apply land_pow. Qed.
Lemma pow_bit p n : 0 <= p -> 0 <= n -> Z.testbit (Z.shiftl 1 p) n = (n =? p).
Proof.
  intros P N. rewrite Z.shiftl_spec by lia. destruct (Z.eqb_spec n p) as [-> |NE]; [rewrite Z.sub_diag; reflexivity|].
  destruct (Z.lt_ge_cases (n - p) 0); [apply Z.testbit_neg_r; lia|]. apply Z.bits_above_log2; cbn; lia.
Qed.
Lemma bset_test w p v n : 0 <= p -> 0 <= n -> Z.testbit (bset w p v) n = if n =? p then v else Z.testbit w n.
Proof.
  intros P N. unfold bset. destruct v.
  - rewrite Z.lor_spec, pow_bit by lia. destruct (n =? p); [apply orb_true_r|apply orb_false_r].
  - rewrite Z.land_spec, Z.lnot_spec, pow_bit by lia. destruct (n =? p); [apply andb_false_r|apply andb_true_r].
Qed.
Lemma query_range f : 0 <= query f <= 5. Proof. destruct f; cbn; lia. Qed.

(** processors for which the leaves asked about exist, or that answer zeros for those that do not *)
Definition zeros (p : cpu) : Prop := beyond p = {| ebx := 0; ecx := 0; edx := 0 |}.
Lemma flag_has p f : 7 <= max_leaf p \/ zeros p -> flag_value p (query f) = true <-> has p f.
Proof.
  intros H. assert (C : forall n, n <= 7 -> (n <= max_leaf p -> cpuid p n = leaf_regs p n) /\
     (~ n <= max_leaf p -> cpuid p n = {| ebx := 0; ecx := 0; edx := 0 |})).
  { intros n N. unfold cpuid. destruct (Z.leb_spec n (max_leaf p)); split; intros X; try reflexivity; try lia. destruct H as [H|H]; [lia|exact H]. }
  destruct (C 1) as [A1 B1]; [lia|]. destruct (C 7) as [A7 B7]; [lia|]. clear C H.
  destruct f; unfold flag_value, has; cbn [query Z.eqb Pos.eqb]; rewrite bit_test by lia;
   match goal with |- context [?n <= max_leaf p] => destruct (Z_le_dec n (max_leaf p)) as [L|L] end;
   [rewrite (A1 L); tauto|rewrite (B1 L)|rewrite (A1 L); tauto|rewrite (B1 L)|rewrite (A1 L); tauto|rewrite (B1 L)
   |rewrite (A7 L); tauto|rewrite (B7 L)|rewrite (A7 L); tauto|rewrite (B7 L)|rewrite (A7 L); tauto|rewrite (B7 L)];
   cbn [ebx ecx edx]; rewrite Z.bits_0; (split; [discriminate|tauto]).
Qed.

(** ** one thread *)
Definition full (p : cpu) (w : Z) : Prop := forall k, 0 <= k <= 5 -> Z.testbit w k = flag_value p k.
Lemma detect_full p w : full p (fold_left (fun w k => bset w k (flag_value p k)) [0; 1; 2; 3; 4; 5] w).
Proof.
  intros k K. cbn [fold_left]. rewrite !bset_test by lia.
  assert (k = 0 \/ k = 1 \/ k = 2 \/ k = 3 \/ k = 4 \/ k = 5) as D by lia. repeat (destruct D as [-> |D]; [reflexivity|]). subst k. reflexivity.
Qed.
Definition good (p : cpu) (s : support) : Prop := features_detected s = true -> full p (features_flag s).
Lemma supports_good p f s : good p s -> fst (supports true p f s) = flag_value p (query f) /\ good p (snd (supports true p f s)).
Proof.
  intros G. unfold supports. cbn [fst snd].
  assert (F : full p (features_flag (detect_features true p s))).
  { unfold detect_features. destruct (features_detected s) eqn:D; [apply G; exact D|apply detect_full]. }
  split; [|intros _; exact F]. pose proof (query_range f). rewrite btest_test by lia. apply F. lia.
Qed.
Lemma ask_good p fs : forall s, good p s -> fst (ask true p fs s) = map (fun f => flag_value p (query f)) fs.
Proof.
  induction fs as [|f r IH]; intros s G; [reflexivity|]. cbn [ask map]. destruct (supports_good p f s G) as [A B].
  destruct (supports true p f s) as [b s1]. cbn [fst snd] in *. specialize (IH s1 B). destruct (ask true p r s1). cbn [fst] in *. congruence.
Qed.
Lemma good0 p : good p support0. Proof. intros H. discriminate H. Qed.
Lemma ask_has p : 7 <= max_leaf p \/ zeros p -> forall fs, Forall2 (fun f b => b = true <-> has p f) fs (fst (ask true p fs support0)).
Proof.
  intros H fs. rewrite ask_good by apply good0. induction fs as [|f r IH]; [constructor|]. cbn [map]. constructor; [apply flag_has; exact H|exact IH].
Qed.
Lemma ask_leaf1 p : 1 <= max_leaf p -> forall fs,
  Forall2 (fun f b => f = SSE2 \/ f = SSE4_2 \/ f = AVX -> (b = true <-> has p f)) fs (fst (ask true p fs support0)).
Proof.
  intros H fs. rewrite ask_good by apply good0. induction fs as [|f r IH]; [constructor|]. cbn [map]. constructor; [|exact IH].
  assert (C : cpuid p 1 = leaf_regs p 1) by (unfold cpuid; apply Z.leb_le in H; rewrite H; reflexivity).
  intros [-> |[-> | -> ]]; unfold flag_value, has; cbn [query Z.eqb Pos.eqb]; rewrite bit_test by lia; rewrite C; tauto.
Qed.
Lemma ask_other p fs : fst (ask false p fs support0) = map (fun _ => false) fs.
Proof.
  assert (G : forall s, features_flag s = 0 -> fst (ask false p fs s) = map (fun _ => false) fs); [|apply G; reflexivity].
  induction fs as [|f r IH]; intros s E; [reflexivity|]. cbn [ask supports map]. unfold supports.
  assert (E' : features_flag (detect_features false p s) = 0) by (unfold detect_features; destruct (features_detected s); exact E).
  rewrite E'. specialize (IH _ E'). destruct (ask false p r (detect_features false p s)). cbn [fst] in *. rewrite IH.
  destruct f; reflexivity.
Qed.
(** an Intel processor whose highest leaf is 2, with bit 5 set in ebx of leaf 2 *)
Definition old_intel : cpu := intel 2 (fun n => if n =? 2 then {| ebx := 32; ecx := 0; edx := 0 |} else {| ebx := 0; ecx := 0; edx := 0 |}).
Lemma intel_refuted : exists p f, p = intel (max_leaf p) (leaf_regs p) /\ 1 <= max_leaf p /\ fst (supports true p f support0) = true /\ ~ has p f.
Proof. exists old_intel, AVX2. repeat split; [cbn; lia|]. intros [H _]. cbn in H. lia. Qed.
(** AVX in the processor, but not enabled by the system *)
Definition no_os : cpu := amd 13 (fun n => if n =? 1 then {| ebx := 0; ecx := 2 ^ 28; edx := 2 ^ 26 |} else {| ebx := 0; ecx := 0; edx := 0 |}).
Lemma usable_refuted : exists p xcr0 f, 7 <= max_leaf p /\ fst (supports true p f support0) = true /\ ~ usable p xcr0 f.
Proof. exists no_os, 3, AVX. repeat split; [cbn; lia|]. intros [_ [H _]]. vm_compute in H. discriminate H. Qed.
Lemma usable_sse p xcr0 f : (f = SSE2 \/ f = SSE4_2) -> (has p f <-> usable p xcr0 f).
Proof. intros [-> | ->]; unfold usable; tauto. Qed.

(** ** several threads *)
Definition sub (p : cpu) (w : Z) : Prop := forall k, 0 <= k <= 5 -> Z.testbit w k = true -> flag_value p k = true.
Definition pc_ok (p : cpu) (f : feature) (c : pc) : Prop :=
  match c with
  | Read i => 0 <= i
  | Write i w => 0 <= i /\ sub p w
  | Done b => b = true -> flag_value p (query f) = true
  | _ => True
  end.
Definition safe p (want : nat -> feature) w := sub p (features_flag (stat w)) /\ forall t, pc_ok p (want t) (threads w t).
Lemma upd_ok (P : nat -> pc -> Prop) th t v : (forall t, P t (th t)) -> P t v -> forall t', P t' (upd th t v t').
Proof. intros A B t'. unfold upd. destruct (Nat.eqb_spec t' t) as [-> |]; [exact B|apply A]. Qed.
Lemma sub_bset p w i : 0 <= i -> sub p w -> sub p (bset w i (flag_value p i)).
Proof. intros I S k K. rewrite bset_test by lia. destruct (Z.eqb_spec k i) as [-> |]; [tauto|apply S; exact K]. Qed.
Lemma step_safe p want w w' : step p want w w' -> safe p want w -> safe p want w'.
Proof.
  intros H [S T]. inversion H as [s th t E|s th t E|s th t i E|s th t i x E|s th t E]; subst; cbn [stat threads features_flag] in *.
  all: pose proof (T t) as Tt; rewrite E in Tt; cbn [pc_ok] in Tt.
  all: split; cbn [stat threads features_flag]; try exact S; try (apply (upd_ok (fun t c => pc_ok p (want t) c)); [exact T|]).
  - destruct (features_detected s); exact I.
  - cbn. lia.
  - cbn. tauto.
  - apply sub_bset; tauto.
  - destruct (i <? 5); cbn; [lia|exact I].
  - cbn. pose proof (query_range (want t)). rewrite btest_test by lia. apply S. lia.
Qed.
Lemma safe0 p want : safe p want world0.
Proof. split; [intros k K; cbn; rewrite Z.bits_0; discriminate|intros t; exact I]. Qed.
Lemma steps_safe p want w w' : steps p want w w' -> safe p want w -> safe p want w'.
Proof. induction 1 as [|w1 w2 w3 _ IH St]; [auto|]. intros S. apply (step_safe _ _ _ _ St), IH, S. Qed.
Lemma no_false_positive p want w t : 7 <= max_leaf p \/ zeros p ->
  steps p want world0 w -> threads w t = Done true -> has p (want t).
Proof.
  intros H S D. destruct (steps_safe _ _ _ _ S (safe0 p want)) as [_ T]. specialize (T t). rewrite D in T. apply flag_has; [exact H|].
  apply T. reflexivity.
Qed.

(** after a completed detection *)
Definition pc_set (p : cpu) (f : feature) (c : pc) : Prop :=
  match c with Start | Test => True | Done b => b = flag_value p (query f) | _ => False end.
Definition settled p (want : nat -> feature) w :=
  features_detected (stat w) = true /\ full p (features_flag (stat w)) /\ forall t, pc_set p (want t) (threads w t).
Lemma step_settled p want w w' : step p want w w' -> settled p want w -> settled p want w'.
Proof.
  intros H (D & F & T). inversion H as [s th t E|s th t E|s th t i E|s th t i x E|s th t E]; subst; cbn [stat threads features_flag] in *.
  all: pose proof (T t) as Tt; rewrite E in Tt; cbn [pc_set] in Tt; try contradiction.
  all: split; [exact D|split; [exact F|]]; apply (upd_ok (fun t c => pc_set p (want t) c)); [exact T|].
  - rewrite D. exact I.
  - cbn. pose proof (query_range (want t)). rewrite btest_test by lia. apply F. lia.
Qed.
Lemma steps_settled p want w w' : steps p want w w' -> settled p want w -> settled p want w'.
Proof. induction 1 as [|w1 w2 w3 _ IH St]; [auto|]. intros S. apply (step_settled _ _ _ _ St), IH, S. Qed.

(** the first thread alone: what it has done is determined by its program counter *)
Definition part (p : cpu) (i : Z) (w : Z) : Prop := forall k, 0 <= k <= 5 -> k < i -> Z.testbit w k = flag_value p k.
Definition alone p (want : nat -> feature) t w :=
  (forall t', t' <> t -> threads w t' = Start) /\
  match threads w t with
  | Start => features_detected (stat w) = false
  | Mark => True
  | Read i => features_detected (stat w) = true /\ 0 <= i <= 5 /\ part p i (features_flag (stat w))
  | Write i x => features_detected (stat w) = true /\ 0 <= i <= 5 /\ part p i x /\ x = features_flag (stat w)
  | Test => features_detected (stat w) = true /\ full p (features_flag (stat w))
  | Done b => features_detected (stat w) = true /\ full p (features_flag (stat w)) /\ b = flag_value p (query (want t))
  end.
Lemma upd_same th t v : upd th t v t = v. Proof. unfold upd. rewrite Nat.eqb_refl. reflexivity. Qed.
Lemma upd_other th t v t' : t' <> t -> upd th t v t' = th t'.
Proof. intros N. unfold upd. apply Nat.eqb_neq in N. rewrite N. reflexivity. Qed.
Lemma alone_mine (th : nat -> pc) t u v : v <> Start -> (forall t', t' <> t -> upd th u v t' = Start) -> u = t /\ forall t', t' <> t -> th t' = Start.
Proof.
  intros V O. assert (u = t) as ->.
  { destruct (Nat.eq_dec u t) as [E|N]; [exact E|]. exfalso. apply V. rewrite <- (O u N). symmetry. apply upd_same. }
  split; [reflexivity|]. intros t' N. rewrite <- (O t' N). symmetry. apply upd_other. exact N.
Qed.
Lemma steps_alone p want t w w0 : steps p want w0 w -> w0 = world0 -> (forall t', t' <> t -> threads w t' = Start) -> alone p want t w.
Proof.
  induction 1 as [w|w1 w2 w3 S12 IH St]; intros -> O; [split; [exact O|reflexivity]|]. specialize (IH eq_refl). split; [exact O|].
  clear S12. unfold alone in IH.
  inversion St as [s th u E|s th u E|s th u i E|s th u i x E|s th u E]; subst; cbn [stat threads] in *.
  - apply alone_mine in O as [-> O]; [|destruct (features_detected s); discriminate]. destruct (IH O) as [_ IH']. rewrite E in IH'.
    rewrite upd_same, IH'. exact I.
  - apply alone_mine in O as [-> O]; [|discriminate]. rewrite upd_same. cbn. split; [reflexivity|]. split; [lia|]. intros k K L. lia.
  - apply alone_mine in O as [-> O]; [|discriminate]. destruct (IH O) as [_ IH']. rewrite E in IH'. rewrite upd_same. tauto.
  - apply alone_mine in O as [-> O]; [|destruct (i <? 5); discriminate]. destruct (IH O) as [_ IH']; clear IH. rewrite E in IH'.
    destruct IH' as (D & R & P & X). rewrite upd_same. cbn [features_detected features_flag].
    assert (P' : part p (i + 1) (bset x i (flag_value p i))).
    { intros k K L. rewrite bset_test by lia. destruct (Z.eqb_spec k i) as [-> |]; [reflexivity|apply P; lia]. }
    destruct (Z.ltb_spec i 5); cbn [features_detected features_flag]; [split; [exact D|split; [lia|exact P']]|].
    split; [exact D|]. intros k K. apply P'; lia.
  - apply alone_mine in O as [-> O]; [|discriminate]. destruct (IH O) as [_ IH']. rewrite E in IH'. destruct IH' as [D F].
    rewrite upd_same. split; [exact D|split; [exact F|]]. pose proof (query_range (want t)). rewrite btest_test by lia. apply F. lia.
Qed.
Lemma first_alone p want t0 w1 w2 : 7 <= max_leaf p \/ zeros p ->
  steps p want world0 w1 -> (exists b, threads w1 t0 = Done b) -> (forall t, t <> t0 -> threads w1 t = Start) ->
  steps p want w1 w2 -> forall t b, threads w2 t = Done b -> (b = true <-> has p (want t)).
Proof.
  intros H S1 (b0 & D0) O S2 t b D. pose proof (steps_alone p want t0 w1 world0 S1 eq_refl O) as [_ A]. rewrite D0 in A.
  destruct A as (A1 & A2 & A3).
  assert (ST : settled p want w1).
  { split; [exact A1|split; [exact A2|]]. intros u. destruct (Nat.eq_dec u t0) as [-> |N]; [rewrite D0; exact A3|rewrite (O u N); exact I]. }
  destruct (steps_settled _ _ _ _ S2 ST) as (_ & _ & T). specialize (T t). rewrite D in T. cbn in T. subst b. apply flag_has. exact H.
Qed.

(** *** schedules *)
Definition next (p : cpu) (want : nat -> feature) (w : world) (t : nat) : world :=
  let s := stat w in let th := threads w in
  match th t with
  | Start => {| stat := s; threads := upd th t (if features_detected s then Test else Mark) |}
  | Mark => {| stat := {| features_detected := true; features_flag := features_flag s |}; threads := upd th t (Read 0) |}
  | Read i => {| stat := s; threads := upd th t (Write i (features_flag s)) |}
  | Write i x => {| stat := {| features_detected := features_detected s; features_flag := bset x i (flag_value p i) |};
                    threads := upd th t (if i <? 5 then Read (i + 1) else Test) |}
  | Test => {| stat := s; threads := upd th t (Done (btest (features_flag s) (query (want t)))) |}
  | Done _ => w
  end.
Lemma next_steps p want w t : steps p want w (next p want w t).
Proof.
  destruct w as [s th]. unfold next. cbn [stat threads]. destruct (th t) eqn:E.
  1-5: eapply steps_step; [apply steps_refl|].
  - apply st_start. exact E.
  - apply st_mark. exact E.
  - apply st_read. exact E.
  - apply st_write. exact E.
  - apply st_test. exact E.
  - apply steps_refl.
Qed.
Lemma steps_trans p want w1 w2 w3 : steps p want w1 w2 -> steps p want w2 w3 -> steps p want w1 w3.
Proof. intros A B. revert A. induction B as [|w2 w3 w4 _ IH St]; [auto|]. intros A. eapply steps_step; [apply IH; exact A|exact St]. Qed.
Definition run p want (sched : list nat) (w : world) : world := fold_left (next p want) sched w.
Lemma run_steps p want sched : forall w, steps p want w (run p want sched w).
Proof. induction sched as [|t r IH]; intros w; [apply steps_refl|]. cbn. eapply steps_trans; [apply next_steps|apply IH]. Qed.

(** a processor with all the features; every thread asks for SSE4.2 *)
Definition new_cpu : cpu := amd 7 (fun _ => {| ebx := 2 ^ 32 - 1; ecx := 2 ^ 32 - 1; edx := 2 ^ 32 - 1 |}).
Definition wants : nat -> feature := fun _ => SSE4_2.
Lemma new_has f : has new_cpu f. Proof. destruct f; split; try reflexivity; cbn; lia. Qed.
(** the second thread comes between the first one's lines 40 and 46 *)
Lemma early_refuted : exists p want w t, steps p want world0 w /\ 7 <= max_leaf p /\ has p (want t) /\ threads w t = Done false.
Proof.
  exists new_cpu, wants, (run new_cpu wants [0; 0; 1; 1]%nat world0), 1%nat.
  split; [apply run_steps|]. split; [cbn; lia|]. split; [apply new_has|]. vm_compute. reflexivity.
Qed.
(** two detections at once: the first writes back a word it read before the second set bits 0 to 3 *)
Definition lost_sched : list nat :=
  ([0; 1; 0; 1; 0] ++ [1; 1; 1; 1; 1; 1; 1; 1] ++ [0; 1] ++ [0; 0; 0; 0; 0; 0; 0; 0; 0; 0] ++ [1; 1; 1] ++ [0; 1])%nat.
Definition lost_world : world := run new_cpu wants lost_sched world0.
Definition quiet (c : pc) : Prop := match c with Start | Test | Done _ => True | _ => False end.
Lemma steps_quiet p want w w' : steps p want w w' -> features_detected (stat w) = true -> (forall t, quiet (threads w t)) ->
  stat w' = stat w /\ forall t, quiet (threads w' t).
Proof.
  induction 1 as [w|w1 w2 w3 _ IH St]; intros D Q; [auto|]. destruct (IH D Q) as [E Q2]. rewrite <- E in D. rewrite <- E. clear E IH Q.
  inversion St as [s th u E|s th u E|s th u i E|s th u i x E|s th u E]; subst; cbn [stat threads] in *.
  all: pose proof (Q2 u) as Qu; rewrite E in Qu; cbn in Qu; try contradiction.
  all: split; [reflexivity|]; apply (upd_ok (fun _ c => quiet c)); [exact Q2|].
  - rewrite D. exact I.
  - exact I.
Qed.
Lemma lost_refuted : exists p want w f, steps p want world0 w /\ 7 <= max_leaf p /\ has p f /\
  (forall t, (exists b, threads w t = Done b) \/ threads w t = Start) /\
  (forall w', steps p want w w' -> fst (supports true p f (stat w')) = false).
Proof.
  exists new_cpu, wants, lost_world, SSE4_2. split; [apply run_steps|]. split; [cbn; lia|]. split; [apply new_has|].
  assert (T : forall t, (exists b, threads lost_world t = Done b) \/ threads lost_world t = Start).
  { intros [|[|t]]; [left; exists false; vm_compute; reflexivity|left; exists false; vm_compute; reflexivity|right; reflexivity]. }
  split; [exact T|]. intros w' S.
  destruct (steps_quiet _ _ _ _ S) as [E _]; [vm_compute; reflexivity|intros t; destruct (T t) as [(b & H)|H]; rewrite H; exact I|].
  rewrite E. vm_compute. reflexivity.
Qed.
Lemma alone_case : exists w, steps new_cpu wants world0 w /\ threads w 0%nat = Done true /\ forall t, t <> 0%nat -> threads w t = Start.
Proof.
  exists (run new_cpu wants [0; 0; 0; 0; 0; 0; 0; 0; 0; 0; 0; 0; 0; 0; 0]%nat world0). split; [apply run_steps|].
  split; [vm_compute; reflexivity|]. intros [|t] N; [congruence|reflexivity].
Qed.

Lemma detect_done x86 p s : features_detected (detect_features x86 p s) = true.
Proof. unfold detect_features. destruct (features_detected s) eqn:D; [exact D|]. destruct x86; reflexivity. Qed.
Lemma ask_done x86 p fs : forall s, features_detected s = true -> snd (ask x86 p fs s) = s.
Proof.
  induction fs as [|f fs IH]; intros s D; [reflexivity|]. cbn [ask]. unfold supports, detect_features. rewrite D. specialize (IH s D).
  destruct (ask x86 p fs s) as [bs s']. exact IH.
Qed.
Lemma ask_once x86 p p' f fs g : let s := snd (ask x86 p (f :: fs) support0) in
  supports x86 p' g s = supports x86 p g s /\ snd (supports x86 p' g s) = s.
Proof.
  assert (E : snd (ask x86 p (f :: fs) support0) = detect_features x86 p support0).
  { cbn [ask]. unfold supports at 1. rewrite (surjective_pairing (ask x86 p fs (detect_features x86 p support0))). cbn [snd].
    apply ask_done. apply detect_done. }
  cbv zeta. rewrite E. pose proof (detect_done x86 p support0) as D. set (s1 := detect_features x86 p support0) in *. clearbody s1.
  unfold supports, detect_features. rewrite D. split; reflexivity.
Qed.
