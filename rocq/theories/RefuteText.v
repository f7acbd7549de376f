(** Counterexamples about text input and output, and the wrappers used by PropsText. *)
From Coq Require Import ZArith Bool Lia String List QArith.
From Verif Require Import Base Fixed Spec SpecText TextOut TextIn BaseLemmas FixedLemmas SpecLemmas NumLemmas CLemmas
  OutProofs InLemmas InProofs RoundTrip StreamProofs RefuteArith.
Import ListNotations.
Open Scope Z_scope.

(** ** positive statements in specification vocabulary *)
Lemma print_dec c m up : wf c = true -> valid c m = true -> sgn (ct c) = true ->
  10 * (2 ^ cf c - 1) <= hi (bits (ct c)) (sgn (ct c)) -> cf c <= bits (ct c) - 2 ->
  exists s, stream_out c false true false up m = Ok s /\ expansion 10 up s (qval (cf c) m).
Proof.
  intros W V S H F. unfold stream_out. change (stream_base false true false) with 10.
  apply copy_ok; auto; [|rewrite S; discriminate]. left.
  change (hi (bits (ct c)) (sgn (ct c))) with (maxv (ct c)) in H. split; [reflexivity|]. split; [exact H|].
  destruct (wf_bnd c W) as (BB & _). unfold maxv in *. rewrite S in *.
  assert (2 ^ (bits (ct c) - 1) = 2 * 2 ^ (bits (ct c) - 2)).
  { rewrite <- Z.pow_succ_r by (clear - BB; lia). f_equal. clear; lia. }
  assert (2 ^ cf c <= 2 ^ (bits (ct c) - 2)) by (apply Z.pow_le_mono_r; clear - F; lia).
  assert (0 < 2 ^ (bits (ct c) - 2)) by (apply pow2_pos; clear - BB; lia). clear - H0 H1 H2. lia.
Qed.

Lemma pow_le_max c : wf c = true -> cf c <= bits (ct c) - (if sgn (ct c) then 2 else 1) -> 2 ^ cf c <= maxv (ct c).
Proof.
  intros W F. destruct (wf_bnd c W) as (BB & K & _). destruct (ity_ok_pow _ K) as [EI PI].
  unfold maxv. destruct (sgn (ct c)).
  - assert (2 ^ (bits (ct c) - 1) = 2 * 2 ^ (bits (ct c) - 2)).
    { rewrite <- Z.pow_succ_r by (clear - BB; lia). f_equal. clear; lia. }
    assert (2 ^ cf c <= 2 ^ (bits (ct c) - 2)) by (apply Z.pow_le_mono_r; clear - F; lia).
    assert (0 < 2 ^ (bits (ct c) - 2)) by (apply pow2_pos; clear - BB; lia). clear - H H0 H1. lia.
  - assert (2 ^ cf c <= 2 ^ (bits (ct c) - 1)) by (apply Z.pow_le_mono_r; clear - F; lia). clear - H EI PI. lia.
Qed.

Lemma print_base c m up hex oct : wf c = true -> valid c m = true -> sgn (ct c) = true -> cf c <= bits (ct c) - 2 ->
  exists s, stream_out c hex false oct up m = Ok s /\
    expansion (if hex then 16 else if oct then 8 else 2) up s (qval (cf c) m).
Proof.
  intros W V S F. unfold stream_out.
  change (stream_base hex false oct) with (if hex then 16 else if oct then 8 else 2).
  apply copy_ok; auto; [|rewrite S; discriminate]. right. split; [destruct hex, oct; auto|].
  apply pow_le_max; auto. rewrite S. exact F.
Qed.

Lemma print_unsigned c m up hex dec oct : wf c = true -> valid c m = true -> sgn (ct c) = false ->
  cf c <= bits (ct c) - 1 -> 10 * (2 ^ cf c - 1) <= hi (bits (ct c)) (sgn (ct c)) -> m <> 2 ^ (bits (ct c) - 1) ->
  exists s, stream_out c hex dec oct up m = Ok s /\
    expansion (if hex then 16 else if dec then 10 else if oct then 8 else 2) up s (qval (cf c) m) /\ hd 0 s <> 45.
Proof.
  intros W V S F T N. change (hi (bits (ct c)) (sgn (ct c))) with (maxv (ct c)) in T.
  assert (PM : 2 ^ cf c <= maxv (ct c)) by (apply pow_le_max; auto; rewrite S; exact F).
  destruct (copy_ok c m (stream_base hex dec oct) up W V) as (s & E & X); auto.
  { unfold printable, stream_base. destruct hex, dec, oct; auto 6. }
  exists s. split; [exact E|]. split; [exact X|].
  destruct X as (neg & ip & fp & HI & HF & -> & EQ & NG & IP & _).
  assert (neg = false).
  { destruct neg; [|reflexivity]. exfalso. pose proof (proj1 NG eq_refl) as L. unfold qval, Qlt in L; cbn [Qnum Qden] in L.
    unfold valid in V. apply in_range_iff in V. unfold minv in V. rewrite S in V. clear - V L. lia. }
  subst neg. unfold render. cbn [app].
  assert (ND : forall d, 0 <= d < stream_base hex dec oct -> digit_char up d <> 45).
  { intros d Hd. unfold digit_char. assert (d < 16) by (unfold stream_base in Hd; destruct hex, dec, oct; clear - Hd; lia).
    destruct (Z.ltb_spec d 10); destruct up; clear - Hd H H0; lia. }
  destruct IP as [->|(d & r & -> & _)]; cbn [map app hd].
  - apply ND. unfold stream_base. destruct hex, dec, oct; clear; lia.
  - apply ND. inversion HI; subst. assumption.
Qed.

Lemma print_inj c m1 m2 up hex dec oct s : wf c = true -> valid c m1 = true -> valid c m2 = true -> sgn (ct c) = true ->
  cf c <= bits (ct c) - 2 -> 10 * (2 ^ cf c - 1) <= hi (bits (ct c)) (sgn (ct c)) ->
  stream_out c hex dec oct up m1 = Ok s -> stream_out c hex dec oct up m2 = Ok s -> m1 = m2.
Proof.
  intros W V1 V2 S F T E1 E2. change (hi (bits (ct c)) (sgn (ct c))) with (maxv (ct c)) in T.
  assert (PM : 2 ^ cf c <= maxv (ct c)) by (apply pow_le_max; auto; rewrite S; exact F).
  assert (PR : printable c (stream_base hex dec oct)) by (unfold printable, stream_base; destruct hex, dec, oct; auto 6).
  destruct (copy_ok c m1 (stream_base hex dec oct) up W V1 PR) as (s1 & F1 & X1); [rewrite S; discriminate|].
  destruct (copy_ok c m2 (stream_base hex dec oct) up W V2 PR) as (s2 & F2 & X2); [rewrite S; discriminate|].
  unfold stream_out in E1, E2. rewrite F1 in E1. rewrite F2 in E2. injection E1 as ->. injection E2 as ->.
  assert (Q : (qval (cf c) m1 == qval (cf c) m2)%Q).
  { apply (expansion_unique (stream_base hex dec oct) up s); auto. unfold stream_base; destruct hex, dec, oct; clear; lia. }
  unfold qval, Qeq in Q; cbn [Qnum Qden] in Q. clear - Q. nia.
Qed.

(** C66 in terms of operator<< *)
Lemma roundtrip c m up old : wf c = true -> valid c m = true -> sgn (ct c) = true -> cf c <= 62 -> cf c <= bits (ct c) - 2 ->
  10 * (2 ^ cf c - 1) <= hi (bits (ct c)) (sgn (ct c)) -> m <> lo (bits (ct c)) (sgn (ct c)) ->
  exists s m', stream_out c false true false up m = Ok s /\ detail_parse c s old = Ok (true, m') /\
    (Z.abs m - 10 <= Z.abs m' <= Z.abs m) /\ 0 <= m' * m /\ ((2 ^ cf c | m) -> m' = m).
Proof.
  intros W V S F6 F T N. apply print_parse; auto.
  - left. split; [reflexivity|]. split; [exact T|]. apply pow_le_max; auto. rewrite S. exact F.
  - rewrite S; discriminate.
  - intros _ E. apply N. unfold lo. rewrite S. exact E.
Qed.

(** ** counterexamples *)
Lemma print_q31_ub : wf Q31 = true /\ valid Q31 5 = true /\ stream_out Q31 false false false false 5 = UB.
Proof. vm_compute. auto. Qed.

Lemma print_unsigned_bad : exists m s, wf U32 = true /\ valid U32 m = true /\ (qval 16 m == 32768)%Q /\
  stream_out U32 false true false false m = Ok s /\ s = txt "-4294934528".
Proof. exists (2 ^ 31), (txt "-4294934528"). vm_compute. auto. Qed.

Lemma parse_min_bad : valid F32 (-2147483648) = true /\
  stream_out F32 false true false false (-2147483648) = Ok (txt "-32768") /\
  forall old, detail_parse F32 (txt "-32768") old = Ok (false, old).
Proof. split; [reflexivity|]. split; [vm_compute; reflexivity|]. intros old. vm_compute. reflexivity. Qed.

Lemma accept_malformed : forall old,
  detail_parse F32 (txt "") old = Ok (true, 0) /\ detail_parse F32 (txt "-") old = Ok (true, 0) /\
  detail_parse F32 (txt ".") old = Ok (true, 0) /\ detail_parse F32 (txt "0.99999x") old = Ok (true, 65529) /\
  fixed_from_cstring F32 (txt "12x") old = Ok (true, 786432).
Proof. intros. vm_compute. auto. Qed.

Lemma accept_out_of_range : forall old,
  detail_parse F32 (txt "281474976710656") old = Ok (true, 0) /\ detail_parse U32 (txt "-1") old = Ok (true, 4294901760).
Proof. intros. vm_compute. auto. Qed.

Lemma parse_ub : forall old,
  detail_parse F32 (txt "99999999999999999999") old = UB /\
  detail_parse F32 (txt "0.0000000000000000000001") old = UB /\
  detail_parse F32 (txt "-281474976677888") old = UB.
Proof. intros. vm_compute. auto. Qed.

Lemma cstring_disagree : forall old,
  detail_parse F32 (txt "12x") old = Ok (false, old) /\ fixed_from_cstring F32 (txt "12x") old = Ok (true, 786432).
Proof. intros. vm_compute. auto. Qed.

Lemma stream_wrong : forall old, exists st, stream_in F32 (mk (txt "0.50000")) old = Ok (-10181, st) /\
  detail_parse F32 (txt "0.50000") old = Ok (true, 32768).
Proof. intros. eexists. vm_compute. auto. Qed.

Lemma stream_sequence_bad :
  (** "1 2": the second read does not skip the space, stores 0 and reports nothing *)
  (exists st, stream_in F32 (mk (txt "1 2")) 7 = Ok (65536, st) /\ st = mk (txt " 2") /\ stream_in F32 st 7 = Ok (0, mk (txt " 2"))) /\
  (** "12" up to end of file: correct value, but the stream is left failed *)
  (exists st, stream_in F32 (mk (txt "12")) 7 = Ok (786432, st) /\ failbit st = true) /\
  (** malformed input is not reported *)
  (exists st, stream_in F32 (mk (txt "abc")) 7 = Ok (0, st) /\ failbit st = false).
Proof.
  split; [|split].
  - exists (mk (txt " 2")). split; [vm_compute; reflexivity|]. split; [reflexivity|]. vm_compute. reflexivity.
  - exists {| rest := []; eofbit := true; failbit := true |}. split; [vm_compute; reflexivity|reflexivity].
  - exists (mk (txt "abc")). split; [vm_compute; reflexivity|reflexivity].
Qed.

Lemma io_parse_view_bad :
  (** a view not followed by a readable character *)
  io_parse_view (txt "-1.25") [] 7 = UB /\
  (** a view followed by a character that also occurs in it *)
  io_parse_view (txt "-1.25") (txt "1") 7 = Ok (1%nat, 0) /\
  (** an empty text "fails" (returns the start) but overwrites the target *)
  io_parse_view [] [0] 7 = Ok (0%nat, 0) /\
  (** out of range: accepted with a wrong value *)
  io_parse_view (txt "40000") [0] 7 = Ok (5%nat, -1673527296).
Proof. vm_compute. auto. Qed.

(** C70 *)
Lemma stream_consumes c neg ip fp tail old : wf c = true ->
  cf c <= bits (ct c) - (if sgn (ct c) then 2 else 1) ->
  is_digits 10 ip -> is_digits 10 (frac_of fp) -> ascii tail -> stops tail ->
  (fp = None -> hd 0 tail <> 46) -> (neg = false -> ip = [] -> fp = None -> tail <> [] /\ hd 0 tail <> 45) ->
  (neg = true -> sgn (ct c) = true) ->
  (numeral 10 false ip (frac_of fp) < qval (cf c) (hi (bits (ct c)) (sgn (ct c)) + 1))%Q ->
  num 10 (frac_of fp) * 2 ^ cf c <= maxv (ct c) -> 10 ^ Z.of_nat (length (frac_of fp)) <= 2 ^ cf c ->
  exists v st, stream_in c (mk (dec_text neg ip fp ++ tail)) old = Ok (v, st) /\ rest st = tail /\
    is_trunc (cf c) (numeral 10 neg ip (frac_of fp)) v.
Proof.
  intros W F HI HF AT ST H1 H2 SG RG M1 SH.
  pose proof (pow_le_max c W F) as PM. destruct (wf_bnd c W) as (BB & _ & _ & _ & _ & F1). pose proof (cf_pos c W) as P.
  destruct (stream_ok c neg ip fp tail old W F HI HF AT ST H1 H2 SG RG M1 ltac:(clear - SH PM; lia))
    as (a & u & E & A0 & C1 & _ & (r & ER & CU) & C2).
  assert (U : u = []).
  { destruct CU as [CU|CU]; [exact CU|]. destruct u as [|d u]; [reflexivity|exfalso].
    pose proof HF as HF'. rewrite ER in HF'. apply is_digits_app in HF'. destruct HF' as [HR _].
    pose proof (num_lt 10 r ltac:(lia) HR) as NL. rewrite ER, app_length in SH. cbn [length] in SH.
    rewrite Nat2Z.inj_add, Nat2Z.inj_succ, Z.pow_add_r, Z.pow_succ_r in SH by (clear; lia).
    pose proof (Z.pow_pos_nonneg 10 (Z.of_nat (length u)) ltac:(lia) ltac:(lia)) as PU.
    pose proof (pow_len_pos 10 r ltac:(lia)) as PR.
    set (D := 10 ^ Z.of_nat (length r)) in *. set (U := 10 ^ Z.of_nat (length u)) in *.
    assert (D * 10 <= D * (10 * U)) by (clear - PU PR; nia). clear - H SH CU NL. lia. }
  subst u. specialize (C2 eq_refl). cbn [map app] in E.
  eexists; eexists. split; [exact E|]. split; [reflexivity|].
  pose proof (num_nonneg 10 ip ltac:(lia) HI) as NI. pose proof (num_nonneg 10 (frac_of fp) ltac:(lia) HF) as NF.
  unfold numeral in C1, C2 |- *.
  set (x := num 10 ip * 10 ^ Z.of_nat (length (frac_of fp)) + num 10 (frac_of fp)) in *.
  set (b := Z.to_pos (10 ^ Z.of_nat (length (frac_of fp)))) in *.
  assert (X0 : 0 <= x) by (unfold x; clear - NI NF; nia).
  assert (FL : is_floor (cf c) (x # b) a) by (split; assumption).
  apply is_floor_iff in FL; [|clear - F1; lia].
  assert (AP : 0 <= x * 2 ^ cf c) by (clear - X0 P; nia).
  destruct neg.
  - change (- (x # b))%Q with ((- x) # b)%Q. apply is_trunc_iff; [clear - F1; lia|].
    rewrite Z.mul_opp_l, Z.quot_opp_l, Z.quot_div_nonneg by (clear - AP; lia). rewrite FL. reflexivity.
  - apply is_trunc_iff; [clear - F1; lia|]. rewrite Z.quot_div_nonneg by (clear - AP; lia). exact FL.
Qed.
