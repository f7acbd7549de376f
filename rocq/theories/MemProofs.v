(** Objects in memory: aliasing, frame and exceptions. *)
From Coq Require Import ZArith QArith Qabs Lia Bool.
From Verif Require Import Base Fixed Mem Spec SpecMem BaseLemmas SpecLemmas FixedLemmas ArithProofs ArithProofs2 InspectProofs.
Open Scope Z_scope.

Ltac mem_step :=
  match goal with
  | |- context [match ?x with Ok _ => _ | UB => _ | Throw _ => _ | OutOfFuel => _ end] =>
      lazymatch x with
      | context [match _ with Ok _ => _ | UB => _ | Throw _ => _ | OutOfFuel => _ end] => fail
      | _ => destruct x eqn:?; cbn [fst snd]
      end
  end.
Ltac mem_done :=
  first [ split; [reflexivity|reflexivity]
        | split; [reflexivity|]; split; [rewrite Z.eqb_refl; reflexivity|]; intros k K; replace (k =? _) with false by lia; reflexivity ].
Ltac mem_tac :=
  unfold bind, seq, rd, wr, pure, ret, throw; cbn [fst snd]; repeat mem_step; mem_done.

Lemma alias_thm c s this other :
  assigned s this (fx_add c (s this) (s other)) (o_add_assign c this other s) /\
  assigned s this (fx_sub c (s this) (s other)) (o_sub_assign c this other s) /\
  assigned s this (fx_mul c (s this) (s other)) (o_mul_assign c this other s) /\
  assigned s this (fx_div c (s this) (s other)) (o_div_assign c this other s) /\
  assigned s this (fx_rem c (s this) (s other)) (o_rem_assign c this other s).
Proof.
  unfold assigned, fx_add, fx_sub, fx_mul, fx_div, fx_rem, o_add_assign, o_sub_assign, o_mul_assign, o_div_assign, o_rem_assign.
  refine (conj _ (conj _ (conj _ (conj _ _)))); try destruct (cr c); mem_tac.
Qed.

Lemma alias_int_thm c t s this n :
  assigned s this (fx_add_int c t (s this) n) (o_add_assign_int c this n s) /\
  assigned s this (fx_sub_int c t (s this) n) (o_sub_assign_int c this n s) /\
  assigned s this (fx_mul_int c t (s this) n) (o_mul_assign_int c t this n s) /\
  assigned s this (fx_div_int c t (s this) n) (o_div_assign_int c t this n s).
Proof.
  unfold assigned, fx_add_int, fx_sub_int, fx_mul_int, fx_div_int, fx_add_assign_int, fx_sub_assign_int, fx_mul_assign_int, fx_div_assign_int,
    o_add_assign_int, o_sub_assign_int, o_mul_assign_int, o_div_assign_int.
  refine (conj _ (conj _ (conj _ _))); mem_tac.
Qed.

(** ** divide_by *)
Lemma divide_by_obj c s this other : wf c = true -> valid c (s other) = true ->
  assigned s this (if s other =? 0 then Throw divide_by_zero else fx_div c (s this) (s other)) (o_divide_by c this other s).
Proof.
  intros W V. unfold o_divide_by, seq at 1, rd at 1. rewrite c_eq_zero by auto using wf_ct.
  destruct (s other =? 0); [split; reflexivity|]. unfold assigned, fx_div. destruct (cr c); mem_tac.
Qed.

Lemma divide_by_int_obj c t s this n : ity_ok t = true -> in_range t n = true ->
  assigned s this (if n =? 0 then Throw divide_by_zero else fx_div_int c t (s this) n) (o_divide_by_int c t this n s).
Proof.
  intros T N. unfold o_divide_by_int. rewrite c_eq_zero by auto.
  destruct (n =? 0); [split; reflexivity|]. unfold assigned, fx_div_int, fx_div_assign_int. mem_tac.
Qed.

(** ** increments *)
Lemma incdec_obj c s this :
  stepped s this (fx_preinc c (s this)) (o_preinc c this s) /\ stepped s this (fx_postinc c (s this)) (o_postinc c this s) /\
  stepped s this (fx_predec c (s this)) (o_predec c this s) /\ stepped s this (fx_postdec c (s this)) (o_postdec c this s).
Proof.
  unfold fx_preinc, fx_postinc, fx_predec, fx_postdec, o_preinc, o_postinc, o_predec, o_postdec, bind, seq, rd, wr, pure, ret, throw.
  destruct (c_shl (ct c) 1 (cf c)) as [one| | |]; try (cbn; repeat split; reflexivity).
  destruct (c_add (ct c) (promote (ct c)) (s this) one) as [a| | |]; destruct (c_sub (ct c) (promote (ct c)) (s this) one) as [b| | |];
    cbn; rewrite ?Z.eqb_refl; repeat split; try reflexivity; intros k K; replace (k =? this) with false by lia; reflexivity.
Qed.

(** ** [++(++x)] and [(x += 1) += 1] *)
Lemma o_preinc_ok c s l m : fx_preinc c (s l) = Ok (m, m) ->
  exists s', o_preinc c l s = (s', Ok m) /\ s' l = m /\ forall k, k <> l -> s' k = s k.
Proof.
  intros E. destruct (incdec_obj c s l) as (I & _). rewrite E in I. cbn [stepped] in I. destruct (o_preinc c l s) as [s' o].
  cbn [fst snd] in I. destruct I as (-> & I). eauto.
Qed.

Lemma o_add1_ok c s l m : wf c = true -> fx_preinc c (s l) = Ok (m, m) ->
  exists s', o_add_assign_int c l 1 s = (s', Ok l) /\ s' l = m /\ forall k, k <> l -> s' k = s k.
Proof.
  intros W E. destruct (alias_int_thm c int32 s l 1) as (I & _).
  assert (A : fx_add_int c int32 (s l) 1 = Ok m).
  { unfold fx_add_int, fx_add_assign_int. unfold fx_preinc in E.
    assert (wrap (ct c) 1 = 1) as ->.
    { apply wrap_id; auto using wf_ct. destruct (wf_bnd c W) as (B & _). unfold in_range, minv, maxv.
      destruct (sgn (ct c)); [assert (2 <= 2 ^ (bits (ct c) - 1)) by (change 2 with (2 ^ 1) at 1; apply Z.pow_le_mono_r; lia)
                             |assert (2 <= 2 ^ (bits (ct c))) by (change 2 with (2 ^ 1) at 1; apply Z.pow_le_mono_r; lia)]; lia. }
    destruct (c_shl (ct c) 1 (cf c)); cbn [bind] in *; try discriminate. destruct (c_add _ _ _ _); cbn [bind] in *; try discriminate.
    congruence. }
  rewrite A in I. cbn [assigned] in I. destruct (o_add_assign_int c l 1 s) as [s' o]. cbn [fst snd] in I. destruct I as (-> & I). eauto.
Qed.

Lemma chain_thm c s tmp x : wf c = true -> (wide_signed c = true -> cf c <= bits (ct c) - 2) -> tmp <> x -> valid c (s x) = true ->
  representable (bits (ct c)) (sgn (ct c)) (cf c) (qval (cf c) (s x) + 1) ->
  representable (bits (ct c)) (sgn (ct c)) (cf c) (qval (cf c) (s x) + 2) ->
  (exists s' w, e_preinc2 c tmp x s = (s', Ok w) /\
     (qval (cf c) w == qval (cf c) (s x) + 2)%Q /\ (qval (cf c) (s' x) == qval (cf c) (s x) + 1)%Q) /\
  (exists s' w, e_add2 c x 1 s = (s', Ok w) /\
     (qval (cf c) w == qval (cf c) (s x) + 2)%Q /\ (qval (cf c) (s' x) == qval (cf c) (s x) + 2)%Q).
Proof.
  intros W H N V R1 R2. destruct (incdec_thm c (s x) W H V) as (I1 & _). destruct (I1 R1) as (m1 & Q1 & V1 & P1 & _). clear I1.
  destruct (incdec_thm c m1 W H V1) as (I2 & _).
  assert (E12 : (qval (cf c) m1 + 1 == qval (cf c) (s x) + 2)%Q) by (rewrite Q1; ring).
  assert (R2' : representable (bits (ct c)) (sgn (ct c)) (cf c) (qval (cf c) m1 + 1)).
  { destruct R2 as (k & K & E). exists k. split; auto. rewrite E12. exact E. }
  destruct (I2 R2') as (m2 & Q2 & V2 & P2 & _). clear I2. rewrite E12 in Q2. split.
  - destruct (o_preinc_ok c s x m1 P1) as (s1 & S1 & X1 & F1). set (s2 := fun k => if k =? tmp then m1 else s1 k).
    destruct (o_preinc_ok c s2 tmp m2) as (s3 & S3 & X3 & F3); [unfold s2; rewrite Z.eqb_refl; exact P2|].
    exists s3, m2. unfold e_preinc2, seq. rewrite S1. unfold wr. fold s2. rewrite S3. split; [reflexivity|]. split; [exact Q2|].
    rewrite F3 by auto. unfold s2. replace (x =? tmp) with false by lia. rewrite X1. exact Q1.
  - destruct (o_add1_ok c s x m1 W P1) as (s1 & S1 & X1 & F1).
    destruct (o_add1_ok c s1 x m2 W) as (s2 & S2 & X2 & F2); [rewrite X1; exact P2|].
    exists s2, m2. unfold e_add2, seq. rewrite S1, S2. unfold rd. rewrite X2. auto.
Qed.

(** ** integer / fixed and integer % fixed *)
Lemma int_div_thm c t n x r : wf c = true -> cr c = false -> valid c x = true -> x <> 0 ->
  representable (bits (ct c)) (sgn (ct c)) (cf c) (inject_Z n) ->
  is_trunc (cf c) (inject_Z n / qval (cf c) x) r ->
  exists m, int_div_fx c t n x = Ok m /\ valid c m = true /\ cong (bits (ct c)) m r /\ (fits (bits (ct c)) (sgn (ct c)) r -> m = r).
Proof.
  intros W R V N (k & K & E) T. destruct (wf_bnd c W) as (_ & _ & _ & _ & _ & F).
  pose proof (qval_int (cf c) n ltac:(lia)) as Q.
  assert (k = n * 2 ^ cf c) as ->.
  { apply (qval_eq (cf c)). rewrite E. symmetry. exact Q. }
  apply fits_valid in K. unfold int_div_fx. rewrite fx_of_int_eq, valid_wrap by auto. cbn [bind].
  destruct (div_thm c (n * 2 ^ cf c) x r W R K V N) as (m & M); [|exists m; exact M].
  eapply is_trunc_Qeq; [|exact T]. rewrite Q. reflexivity.
Qed.

Lemma int_div_ub c t n x : wf c = true -> cr c = false -> valid c x = true -> (int_div_fx c t n x = UB <-> x = 0).
Proof.
  intros W R V. unfold int_div_fx. rewrite fx_of_int_eq by auto. cbn [bind]. apply div_ub_iff; auto using valid_wrap_valid.
Qed.

Lemma int_rem_thm c t n x : wf c = true -> valid c x = true -> x <> 0 ->
  representable (bits (ct c)) (sgn (ct c)) (cf c) (inject_Z n) ->
  ~ (wide_signed c = true /\ n * 2 ^ cf c = - 2 ^ (bits (ct c) - 1) /\ x = -1) ->
  exists m, int_rem_fx c t n x = Ok m /\ valid c m = true /\
    (exists k, (inject_Z n == inject_Z k * qval (cf c) x + qval (cf c) m)%Q) /\
    (Qabs (qval (cf c) m) < Qabs (qval (cf c) x))%Q /\
    (0 <= n -> (0 <= qval (cf c) m)%Q) /\ (n <= 0 -> (qval (cf c) m <= 0)%Q).
Proof.
  intros W V N (k & K & E) X. destruct (wf_bnd c W) as (_ & _ & _ & _ & _ & F).
  pose proof (qval_int (cf c) n ltac:(lia)) as Q. pose proof (pow2_pos (cf c) ltac:(lia)) as P.
  assert (k = n * 2 ^ cf c) as -> by (apply (qval_eq (cf c)); rewrite E; symmetry; exact Q).
  apply fits_valid in K. unfold int_rem_fx. rewrite fx_of_int_eq, valid_wrap by auto. cbn [bind].
  destruct (rem_thm c (n * 2 ^ cf c) x W K V N X) as (m & M & VM & (k & KE) & B & S1 & S2).
  exists m. split; [exact M|]. split; [exact VM|]. split; [exists k; rewrite <- Q; exact KE|]. split; [exact B|].
  split; intros L; [apply S1|apply S2]; rewrite Q; unfold Qle, inject_Z; cbn [Qnum Qden]; lia.
Qed.

Lemma int_rem_ub c t n x : wf c = true -> valid c x = true -> representable (bits (ct c)) (sgn (ct c)) (cf c) (inject_Z n) ->
  (int_rem_fx c t n x = UB <-> x = 0 \/ (wide_signed c = true /\ n * 2 ^ cf c = - 2 ^ (bits (ct c) - 1) /\ x = -1)).
Proof.
  intros W V (k & K & E). destruct (wf_bnd c W) as (_ & _ & _ & _ & _ & F).
  pose proof (qval_int (cf c) n ltac:(lia)) as Q.
  assert (k = n * 2 ^ cf c) as -> by (apply (qval_eq (cf c)); rewrite E; symmetry; exact Q).
  apply fits_valid in K. unfold int_rem_fx. rewrite fx_of_int_eq, valid_wrap by auto. cbn [bind]. apply rem_ub_iff; auto.
Qed.

(** ** fractional_part *)
Lemma fractional_thm c m i : wf c = true -> (wide_signed c = true -> cf c <= bits (ct c) - 2) -> valid c m = true ->
  is_trunc 0 (qval (cf c) m) i ->
  exists fr, fractional_part c m = Ok fr /\ (qval (cf c) m == inject_Z i + qval (cf c) fr)%Q.
Proof.
  intros H W V T. assert (Hf : 0 <= cf c) by (apply wf_bnd in H; lia). apply is_trunc_int in T; auto.
  exists (Z.rem m (2 ^ cf c)). split; [apply fractional_eq; auto|].
  rewrite <- (qval_int (cf c)) by auto. rewrite qval_plus. subst i.
  replace (Z.quot m (2 ^ cf c) * 2 ^ cf c + Z.rem m (2 ^ cf c)) with m; [reflexivity|].
  pose proof (Z.quot_rem' m (2 ^ cf c)). lia.
Qed.

Lemma chain_refuted :
  exists s s' w, wf F32 = true /\ valid F32 (s 0) = true /\ e_preinc2 F32 1 0 s = (s', Ok w) /\
    (qval 16 (s 0%Z) == 0)%Q /\ (qval 16 w == 2)%Q /\ (qval 16 (s' 0%Z) == 1)%Q.
Proof.
  exists (fun _ => 0), (fst (e_preinc2 F32 1 0 (fun _ => 0))), 131072. repeat split; vm_compute; reflexivity.
Qed.
