(** Proofs about operator>> and io::parse (TextIn). *)
From Coq Require Import ZArith Bool Lia List QArith Qabs.
From Verif Require Import Base Fixed Spec SpecText TextIn BaseLemmas CLemmas FixedLemmas SpecLemmas NumLemmas
  InLemmas InProofs.
Import ListNotations.
Open Scope Z_scope.

Definition mk (r : list Z) : istream := {| rest := r; eofbit := false; failbit := false |}.
(** the stream after the has_next check that ended a loop *)
Definition after (r : list Z) : istream := match r with [] => {| rest := []; eofbit := true; failbit := false |} | _ => mk r end.
Definition ascii (s : list Z) : Prop := Forall (fun ch => 0 <= ch < 128) s.

Lemma wrap8 ch : 0 <= ch < 128 -> wrap int8 ch = ch.
Proof. intros. apply nn_wrap; [reflexivity|]. cbn. lia. Qed.
Lemma isdigit_ok ch : 0 <= ch < 128 -> isdigit ch = Ok (check_ch ch).
Proof. intros. unfold isdigit, check_ch. replace ((-1 <=? ch) && (ch <=? 255)) with true by lia. reflexivity. Qed.

Lemma peek_cons ch s : 0 <= ch < 128 -> s_peek (mk (ch :: s)) = (ch, mk (ch :: s)).
Proof. intros. unfold s_peek, is_peek, mk, good. cbn [eofbit failbit rest negb andb]. rewrite wrap8 by auto. reflexivity. Qed.
Lemma next_cons ch s : 0 <= ch < 128 -> s_next (mk (ch :: s)) = (ch, mk s).
Proof. intros. unfold s_next, is_get, mk, good. cbn [eofbit failbit rest negb andb]. rewrite wrap8 by auto. reflexivity. Qed.
Lemma has_cons ch s : s_has_next (mk (ch :: s)) = (true, mk (ch :: s)).
Proof. reflexivity. Qed.
Lemma has_nil : s_has_next (mk []) = (false, after []).
Proof. reflexivity. Qed.

Lemma s_int_lax t s : ascii s -> forall fuel acc, (length s < fuel)%nat ->
  s_int_loop fuel t (mk s) acc = (let* p := int_lax t s acc in Ok (fst p, after (snd p))).
Proof.
  intros A. induction A as [|ch s Hc A IH]; intros fuel acc L; destruct fuel as [|fuel]; try (cbn in L; lia).
  - reflexivity.
  - cbn [s_int_loop int_lax]. rewrite has_cons. cbv iota beta. rewrite peek_cons by auto. cbv iota beta.
    destruct (ch =? 46); [reflexivity|]. rewrite peek_cons by auto. cbv iota beta. rewrite isdigit_ok by auto. cbn [bind].
    destruct (check_ch ch); cbn [negb]; [|reflexivity]. rewrite next_cons by auto. cbv iota beta.
    destruct (push_digit t acc ch); cbn [bind]; auto. apply IH. cbn in L. lia.
Qed.

Lemma s_dec_lax t tm lim s : ascii s -> forall fuel dec div, (length s < fuel)%nat ->
  s_dec_loop fuel t tm lim (mk s) dec div =
  (let* p := dec_lax t tm lim s dec div in Ok (fst p, after (snd p))).
Proof.
  intros A. induction A as [|ch s Hc A IH]; intros fuel dec div L; destruct fuel as [|fuel]; try (cbn in L; lia).
  - reflexivity.
  - cbn [s_dec_loop dec_lax]. rewrite has_cons. cbv iota beta.
    destruct (c_lt tm t lim dec); cbn [orb]; [reflexivity|]. rewrite peek_cons by auto. cbv iota beta.
    rewrite isdigit_ok by auto. cbn [bind].
    destruct (check_ch ch); cbn [negb]; [|reflexivity]. rewrite next_cons by auto. cbv iota beta.
    destruct (push_digit t dec ch); cbn [bind]; auto. destruct (c_mul t int32 div 10); cbn [bind]; auto.
    apply IH. cbn in L. lia.
Qed.

(** the tail after the text: empty or a non-digit *)
Definition stops (tail : list Z) : Prop := match tail with [] => True | ch :: _ => check_ch ch = false end.

Lemma int_lax_digits t ds tail : ity_ok t = true -> stops tail -> is_digits 10 ds ->
  forall acc, 0 <= acc -> acc * 10 ^ Z.of_nat (length ds) + num 10 ds <= maxv t ->
  int_lax t (map dch ds ++ tail) acc = Ok (acc * 10 ^ Z.of_nat (length ds) + num 10 ds, tail).
Proof.
  intros K E H. induction H as [|d ds Hd H IH]; intros acc A M.
  - cbn [map app length]. change (num 10 []) with 0. change (10 ^ Z.of_nat 0) with 1.
    replace (acc * 1 + 0) with acc by ring. destruct tail as [|ch tail]; [reflexivity|]. cbn [int_lax stops] in *.
    rewrite E. destruct (ch =? 46); reflexivity.
  - cbn [map app int_lax]. destruct (dch_check d Hd) as (-> & -> & _). cbn [negb].
    rewrite num_cons in M |- *. cbn [length] in M |- *.
    rewrite Nat2Z.inj_succ, Z.pow_succ_r in M |- * by (clear; lia).
    pose proof (num_nonneg 10 ds ltac:(lia) H) as NN.
    set (p := 10 ^ Z.of_nat (length ds)) in *.
    rewrite push_digit_ok; auto; [|clear - A Hd M NN; nia]. cbn [bind].
    rewrite IH.
    + do 2 f_equal. fold p. ring.
    + clear - A Hd. lia.
    + fold p. replace ((acc * 10 + d) * p + num 10 ds) with (acc * (10 * p) + (d * p + num 10 ds)) by ring. exact M.
Qed.

Lemma dec_lax_app t tm lim ds tail : is_digits 10 ds -> stops tail -> forall dec div,
  dec_lax t tm lim (map dch ds ++ tail) dec div =
  (let* p := dec_lax t tm lim (map dch ds) dec div in Ok (fst p, snd p ++ tail)).
Proof.
  intros H E. induction H as [|d ds Hd H IH]; intros dec div; cbn [map app].
  - destruct tail as [|ch tail]; [reflexivity|]. cbn [dec_lax stops] in *. rewrite E, orb_true_r. reflexivity.
  - cbn [dec_lax]. destruct (_ || _); [reflexivity|].
    destruct (push_digit t dec (dch d)); cbn [bind]; auto. destruct (c_mul t int32 div 10); cbn [bind]; auto.
Qed.

Lemma dec_lax_digits t tm lim fp tail : ity_ok t = true -> ity_ok tm = true -> 0 <= lim <= maxv tm ->
  10 * lim + 9 <= maxv t -> is_digits 10 fp -> stops tail -> 10 ^ Z.of_nat (length fp) <= maxv t ->
  exists r u, dec_lax t tm lim (map dch fp ++ tail) 0 1 =
     Ok (num 10 r, 10 ^ Z.of_nat (length r), map dch u ++ tail) /\ dec_result lim fp r u.
Proof.
  intros K KM L L9 HF ST DB. pose proof (maxv_pos _ K) as M7.
  destruct (dec_strict_digits t tm lim K KM L L9 fp HF [] 0 1) as (r & u & E & DR);
    [constructor|reflexivity|reflexivity|clear - M7; lia|clear - M7; lia| | |].
  - intros r1 r2 E N. symmetry in E. apply app_eq_nil in E. tauto.
  - intros r u E _. cbn [app] in *. apply Z.le_trans with (2 := DB). rewrite E, app_length. apply Z.pow_le_mono_r; clear; lia.
  - cbn [app] in E, DR. exists r, u. split; [|exact DR].
    rewrite (dec_lax_strict t tm tm lim fp K KM KM L ltac:(clear - L; lia) L9 HF 0 1 ltac:(clear - M7; lia)) in E.
    rewrite dec_lax_app by auto. destruct (dec_lax t tm lim (map dch fp) 0 1) as [p| | |]; cbn [bind] in *; try discriminate.
    injection E as ->. reflexivity.
Qed.

(** value of the combined parts *)
Lemma value_ok t f lim ip fp r u : ity_ok t = true -> 0 <= f < bits t -> is_digits 10 ip -> is_digits 10 fp ->
  dec_result lim fp r u -> num 10 fp * 2 ^ f <= maxv t -> 10 ^ Z.of_nat (length fp) <= maxv t ->
  (num 10 ip + 1) * 2 ^ f <= maxv t + 1 ->
  combine t f (num 10 ip) (num 10 r) (10 ^ Z.of_nat (length r)) =
    Ok (num 10 ip * 2 ^ f + num 10 r * 2 ^ f / 10 ^ Z.of_nat (length r)) /\
  0 <= num 10 ip * 2 ^ f + num 10 r * 2 ^ f / 10 ^ Z.of_nat (length r) <= maxv t.
Proof.
  intros K F HI HF (E & _ & _) M1 M2 M3.
  assert (P : 0 < 2 ^ f) by (apply pow2_pos; clear - F; lia).
  rewrite E in HF. apply is_digits_app in HF. destruct HF as [HR HU].
  pose proof (num_nonneg 10 r ltac:(lia) HR) as NR. pose proof (num_nonneg 10 u ltac:(lia) HU) as NU.
  pose proof (num_nonneg 10 ip ltac:(lia) HI) as NI. pose proof (num_lt 10 r ltac:(lia) HR) as LR.
  pose proof (pow_len_pos 10 u ltac:(lia)) as PU.
  rewrite E, num_app in M1. rewrite E, app_length, Nat2Z.inj_add, Z.pow_add_r in M2 by (clear; lia).
  set (D := 10 ^ Z.of_nat (length r)) in *.
  assert (RM : num 10 r * 2 ^ f <= maxv t) by (clear - M1 NR NU P PU; nia).
  assert (DM : D <= maxv t) by (clear - M2 PU NR LR; nia).
  assert (Q0 : 0 <= num 10 r * 2 ^ f / D) by (apply Z.div_pos; [clear - NR P; nia|clear - NR LR; lia]).
  assert (QL : num 10 r * 2 ^ f / D < 2 ^ f) by (apply Z.div_lt_upper_bound; clear - NR LR P; nia).
  assert (I0 : 0 <= num 10 ip * 2 ^ f) by (clear - NI P; nia).
  split; [|clear - Q0 QL I0 M3; lia].
  apply combine_ok; auto; [clear - NI; lia|clear - NR; lia|clear - NR LR DM; lia|clear - QL M3; lia].
Qed.

Lemma max_int c n : wf c = true -> n * 2 ^ cf c <= maxv (ct c) -> (n + 1) * 2 ^ cf c <= maxv (ct c) + 1.
Proof.
  intros W H. destruct (hi_int c W) as [k Hk]. change (hi (bits (ct c)) (sgn (ct c))) with (maxv (ct c)) in Hk.
  pose proof (cf_pos c W) as P. rewrite Hk. assert (n < k) by (clear - H Hk P; nia). clear - H0 P. nia.
Qed.

Lemma neg_fits c V : wf c = true -> 0 <= V <= maxv (ct c) -> sgn (ct c) = true -> valid c (- V) = true /\ fx_neg c V = Ok (- V).
Proof.
  intros W R S. destruct (wf_bnd c W) as (BB & K & KI & B2 & SE & F1).
  assert (VV : valid c (- V) = true).
  { unfold valid. apply in_range_iff. unfold minv. rewrite S. unfold maxv in *. rewrite S in *. clear - R. lia. }
  split; [exact VV|]. rewrite fx_neg_eq by (auto; apply in_range_nn_i; auto). apply ovf_valid; auto.
Qed.

Lemma lim_room c : wf c = true -> cf c <= bits (ct c) - (if sgn (ct c) then 2 else 1) -> 10 * lim_of c + 9 <= maxv (ct c).
Proof.
  intros W F. destruct (wf_bnd c W) as (BB & K & KI & B2 & SE & F1). pose proof (lim_bounds c W) as (L0 & L1 & L2).
  destruct (ity_ok_pow _ K) as [EI PI].
  set (w := bits (ct c)) in *.
  assert (E2 : 2 ^ (w - 1) = 2 * 2 ^ (w - 2)).
  { rewrite <- Z.pow_succ_r by (clear - BB; lia). f_equal. clear; lia. }
  assert (64 <= 2 ^ (w - 2)) by (change 64 with (2 ^ 6); apply Z.pow_le_mono_r; clear - BB; lia).
  unfold maxv. destruct (sgn (ct c)).
  - assert (2 ^ cf c <= 2 ^ (w - 2)) by (apply Z.pow_le_mono_r; clear - F; lia). fold w. clear - H H0 L1 E2. lia.
  - assert (2 ^ cf c <= 2 ^ (w - 1)) by (apply Z.pow_le_mono_r; clear - F; lia). fold w. clear - H H0 L1 E2 EI. lia.
Qed.

Lemma ascii_app a b : ascii (a ++ b) <-> ascii a /\ ascii b.
Proof. unfold ascii. rewrite Forall_app. reflexivity. Qed.
Lemma ascii_digits ds : is_digits 10 ds -> ascii (map dch ds).
Proof.
  intros H. induction H as [|d ds Hd H IH]; cbn [map]; constructor; auto. rewrite dch_eq by auto. lia.
Qed.

(** the stream after a read that stopped before [r] *)
Definition final (frac : bool) (r : list Z) : istream :=
  {| rest := r; eofbit := (match r with [] => true | _ => false end);
     failbit := (match r with [] => negb frac | _ => false end) |}.

Lemma stream_ok c neg ip fp tail old : wf c = true -> cf c <= bits (ct c) - (if sgn (ct c) then 2 else 1) ->
  is_digits 10 ip -> is_digits 10 (frac_of fp) -> ascii tail -> stops tail ->
  (fp = None -> hd 0 tail <> 46) -> (neg = false -> ip = [] -> fp = None -> tail <> [] /\ hd 0 tail <> 45) ->
  (neg = true -> sgn (ct c) = true) ->
  (numeral 10 false ip (frac_of fp) < qval (cf c) (hi (bits (ct c)) (sgn (ct c)) + 1))%Q ->
  num 10 (frac_of fp) * 2 ^ cf c <= maxv (ct c) -> 10 ^ Z.of_nat (length (frac_of fp)) <= maxv (ct c) ->
  exists a u, stream_in c (mk (dec_text neg ip fp ++ tail)) old =
     Ok (if neg then - a else a, final (match fp with None => false | Some _ => true end) (map dch u ++ tail)) /\
    0 <= a /\ (qval (cf c) a <= numeral 10 false ip (frac_of fp))%Q /\
    (numeral 10 false ip (frac_of fp) < qval (cf c) (a + 11))%Q /\
    (exists r, frac_of fp = r ++ u /\ (u = [] \/ 2 ^ cf c <= 10 * num 10 r)) /\
    (u = [] -> (numeral 10 false ip (frac_of fp) < qval (cf c) (a + 1))%Q).
Proof.
  intros W F HI HF AT ST ND NE SG RG M1 M2.
  destruct (wf_bnd c W) as (BB & K & KI & B2 & SE & F1). pose proof (cf_pos c W) as P.
  pose proof (lim_bounds c W) as (L0 & L1 & L2). pose proof (maxv_pos _ K) as M7.
  pose proof (num_nonneg 10 ip ltac:(lia) HI) as NI.
  destruct (in_range_int c ip (frac_of fp) W HF RG) as [MI _].
  pose proof (max_int c _ W MI) as MI1.
  assert (NM : num 10 ip <= maxv (ct c)) by (clear - MI NI P; nia).
  set (body := map dch ip ++ match fp with None => [] | Some fp => 46 :: map dch fp end ++ tail).
  assert (AB : ascii body).
  { unfold body. apply ascii_app. split; [apply ascii_digits; auto|]. apply ascii_app. split; [|exact AT].
    destruct fp; [|constructor]. constructor; [clear; lia|apply ascii_digits; auto]. }
  assert (TX : dec_text neg ip fp ++ tail = (if neg then [45] else []) ++ body).
  { unfold dec_text, body. rewrite <- !app_assoc. reflexivity. }
  assert (SGN : forall n, s_has_next (mk (dec_text neg ip fp ++ tail)) = (true, mk (dec_text neg ip fp ++ tail)) /\
     (let '(ch, st) := s_peek (mk (dec_text neg ip fp ++ tail)) in
      (if ch =? 45 then let '(_, st) := s_next st in (true, st) else (false, st))) = (neg, mk body) /\ (n = 0 -> True)).
  { intros n. rewrite TX. destruct neg.
    - cbn [app]. rewrite has_cons. rewrite peek_cons by (clear; lia). cbv iota beta.
      rewrite Z.eqb_refl. rewrite next_cons by (clear; lia). auto.
    - cbn [app]. destruct body as [|ch b] eqn:EB.
      + exfalso. unfold body in EB. apply app_eq_nil in EB. destruct EB as [EB1 EB2]. apply app_eq_nil in EB2.
        destruct EB2 as [EB2 EB3]. apply map_eq_nil in EB1. destruct fp; [discriminate|].
        destruct (NE eq_refl EB1 eq_refl) as [X _]. contradiction.
      + inversion AB; subst. rewrite has_cons. rewrite peek_cons by auto. cbv iota beta.
        assert (X : (ch =? 45) = false).
        { unfold body in EB. destruct HI as [|d ip Hd HI]; cbn [map app] in EB.
          - destruct fp as [fp|]; cbn [app] in EB; [injection EB as <- _; reflexivity|].
            destruct (NE eq_refl eq_refl eq_refl) as [_ X]. rewrite EB in X. cbn [hd] in X. apply Z.eqb_neq. exact X.
          - injection EB as <- _. apply dch_check. exact Hd. }
        rewrite X. auto. }
  destruct (SGN 1) as (HN & PK & _). clear SGN.
  unfold stream_in. rewrite HN. cbn [negb].
  destruct (s_peek (mk (dec_text neg ip fp ++ tail))) as [ch0 st0]. rewrite PK.
  set (fuel := S (length (rest (mk (dec_text neg ip fp ++ tail))))).
  assert (FL : (length body < fuel)%nat).
  { unfold fuel, mk; cbn [rest]. rewrite TX, app_length. clear; lia. }
  rewrite (s_int_lax (ct c) body AB fuel 0 FL).
  set (tl0 := match fp with None => [] | Some fp => 46 :: map dch fp end ++ tail) in *.
  assert (ST0 : stops tl0) by (unfold tl0; destruct fp; [reflexivity|exact ST]).
  unfold body. rewrite (int_lax_digits (ct c) ip tl0 K ST0 HI 0 ltac:(clear; lia) ltac:(clear - NM; lia)). cbn [bind fst snd].
  rewrite Z.mul_0_l, Z.add_0_l.
  destruct fp as [fp|]; cbn [frac_of] in *.
  - unfold tl0. cbn [app after]. rewrite has_cons. cbv iota beta. rewrite peek_cons by (clear; lia). cbv iota beta.
    rewrite Z.eqb_refl. rewrite next_cons by (clear; lia). cbv iota beta.
    destruct (lim_lax c W F) as (E1 & E2 & E3 & E4).
    rewrite E1. cbn [bind]. rewrite E2. cbn [bind]. rewrite E3. cbn [bind].
    assert (AF : ascii (map dch fp ++ tail)) by (apply ascii_app; split; [apply ascii_digits; auto|exact AT]).
    rewrite s_dec_lax; [|exact AF|].
    2:{ unfold body, tl0 in FL. rewrite app_length in FL. cbn [length app] in FL. clear - FL; lia. }
    destruct (dec_lax_digits (ct c) (uac (promote (ct c)) int32) (lim_of c) fp tail K
       ltac:(apply uac_ok; auto; apply promote_ok; auto) E4 (lim_room c W F) HF ST M2) as (r & u & E & DR).
    rewrite E. cbn [bind fst snd].
    destruct (value_ok (ct c) (cf c) (lim_of c) ip fp r u K ltac:(clear - F1; lia) HI HF DR M1 M2 MI1) as (EV & VR).
    rewrite EV. cbn [bind].
    destruct (cut_value (cf c) (lim_of c) ip fp r u ltac:(clear - F1; lia) HF DR L2) as (C1 & C2 & C3).
    set (V := num 10 ip * 2 ^ cf c + num 10 r * 2 ^ cf c / 10 ^ Z.of_nat (length r)) in *.
    exists V, u. split.
    + rewrite nn_wrap by auto.
      assert (FI : after (map dch u ++ tail) = final true (map dch u ++ tail)) by (destruct (map dch u ++ tail); reflexivity).
      rewrite FI. destruct neg; [|reflexivity].
      destruct (neg_fits c V W VR (SG eq_refl)) as [_ ->]. reflexivity.
    + split; [apply VR|]. split; [exact C1|]. split; [exact C2|]. split; [|exact C3]. destruct DR as (D1 & D2 & _).
      exists r. split; [exact D1|]. destruct D2 as [D2|D2]; [left; exact D2|right]. clear - D2 L2. lia.
  - unfold tl0. cbn [app].
    assert (VR : 0 <= num 10 ip * 2 ^ cf c <= maxv (ct c)) by (clear - MI NI P; nia).
    assert (SH : c_shl (ct c) (num 10 ip) (cf c) = Ok (num 10 ip * 2 ^ cf c)).
    { apply c_shl_nn; auto; clear - F1 VR; lia. }
    assert (X : (let '(h, st) := s_has_next (after tail) in
                 let '(dot, st) := if h then let '(ch, st) := s_peek st in (ch =? 46, st) else (false, st) in
                 (h, dot, st)) = (match tail with [] => false | _ => true end, false, final false tail)).
    { destruct tail as [|ch tail]; [reflexivity|]. cbn [after]. rewrite has_cons. inversion AT; subst.
      rewrite peek_cons by auto. specialize (ND eq_refl). cbn [hd] in ND. apply Z.eqb_neq in ND. rewrite ND. reflexivity. }
    destruct (s_has_next (after tail)) as [h st].
    destruct (if h then let '(ch, st) := s_peek st in (ch =? 46, st) else (false, st)) as [dot st'].
    injection X as _ -> ->. rewrite SH. cbn [bind]. rewrite nn_wrap by auto.
    exists (num 10 ip * 2 ^ cf c), []. split.
    + cbn [map app]. destruct neg; [|reflexivity]. destruct (neg_fits c _ W VR (SG eq_refl)) as [_ ->]. reflexivity.
    + split; [apply VR|].
      assert (EQ : (numeral 10 false ip [] == qval (cf c) (num 10 ip * 2 ^ cf c))%Q).
      { unfold numeral, qval, Qeq; cbn [Qnum Qden length]. rewrite pow2p_Z by (clear - F1; lia).
        change (num 10 []) with 0. change (10 ^ Z.of_nat 0) with 1. cbn [Z.to_pos]. clear; lia. }
      rewrite EQ. split; [apply Qle_refl|]. split; [apply qval_lt; clear; lia|].
      split; [exists []; split; [reflexivity|left; reflexivity]|]. intros _. apply qval_lt. clear; lia.
Qed.

(** a stream positioned at something that is not a number: 0 is stored, nothing is consumed and no
    error is reported *)
Lemma stream_garbage c ch tail old : wf c = true -> 0 <= ch < 128 -> check_ch ch = false -> ch <> 45 -> ch <> 46 ->
  stream_in c (mk (ch :: tail)) old = Ok (0, mk (ch :: tail)).
Proof.
  intros W R C N1 N2. destruct (wf_bnd c W) as (BB & K & KI & B2 & SE & F1).
  unfold stream_in. rewrite has_cons. cbn [negb]. cbv iota beta. rewrite peek_cons by auto. cbv iota beta.
  apply Z.eqb_neq in N1, N2. rewrite N1.
  cbn [s_int_loop rest mk]. rewrite has_cons. cbv iota beta. rewrite peek_cons by auto. cbv iota beta. rewrite N2.
  rewrite peek_cons by auto. cbv iota beta. rewrite isdigit_ok, C by auto. cbn [bind negb].
  rewrite has_cons. cbv iota beta. rewrite peek_cons by auto. cbv iota beta. rewrite N2.
  pose proof (maxv_pos _ K) as M7.
  rewrite (c_shl_nn (ct c) 0 (cf c) K); [|clear - F1; lia|clear; lia|clear - M7; lia]. cbn [bind].
  rewrite Z.mul_0_l, nn_wrap by (auto; clear - M7; lia). reflexivity.
Qed.

(** ** io::parse *)
Lemma p_int_strict term rst s : ~ In term s -> forall acc,
  p_int_loop term (s ++ term :: rst) acc =
  (let* o := int_strict int32 s acc in
   Ok (match o with None => None | Some (v, t) => Some (v, t ++ term :: rst) end)).
Proof.
  induction s as [|ch s IH]; intros NI acc; cbn [app p_int_loop int_strict].
  - rewrite Z.eqb_refl. reflexivity.
  - destruct (Z.eqb_spec ch term) as [E|_]; [exfalso; apply NI; left; exact E|].
    destruct (ch =? 46); [reflexivity|]. destruct (negb (check_ch ch)); [reflexivity|].
    destruct (push_digit int32 acc ch); cbn [bind]; auto. apply IH. intros X. apply NI. right; exact X.
Qed.
Lemma p_dec_strict term rst lim s : ~ In term s -> forall dec div,
  p_dec_loop term lim (s ++ term :: rst) dec div =
  (let* o := dec_strict int32 int32 lim s dec div in
   Ok (match o with None => None | Some (d, v, t) => Some (d, v, t ++ term :: rst) end)).
Proof.
  induction s as [|ch s IH]; intros NI dec div; cbn [app p_dec_loop dec_strict].
  - rewrite Z.eqb_refl. reflexivity.
  - destruct (Z.eqb_spec ch term) as [E|_]; [exfalso; apply NI; left; exact E|].
    destruct (negb (check_ch ch)); [reflexivity|]. destruct (c_lt int32 int32 lim dec); [reflexivity|].
    destruct (push_digit int32 dec ch); cbn [bind]; auto. destruct (c_mul int32 int32 div 10); cbn [bind]; auto.
    apply IH. intros X. apply NI. right; exact X.
Qed.

(** the list form of io::parse *)
Definition io_list (s : list Z) (out : Z) : res (nat * Z) :=
  let '(negative, s1) := sign_of s in
  let* r := int_strict int32 s1 0 in
  match r with
  | None => Ok (0%nat, out)
  | Some (ip, s2) =>
    let* r := (match s2 with
      | ch :: s3 =>
        if ch =? 46 then
          let* o := dec_strict int32 int32 6553 s3 0 1 in
          match o with
          | None => Ok None
          | Some (d, v, t) => let* x := combine int32 16 ip d v in Ok (Some (wrap int32 x, t))
          end
        else let* x := c_shl int32 ip 16 in Ok (Some (wrap int32 x, s2))
      | [] => let* x := c_shl int32 ip 16 in Ok (Some (wrap int32 x, s2))
      end) in
    match r with
    | None => Ok (0%nat, out)
    | Some (v, t) => let* v := (if negative then fx_neg F32 v else Ok v) in Ok ((length s - length t)%nat, v)
    end
  end.

Lemma io_parse_list term rst s out : ~ In term s ->
  io_parse (s ++ term :: rst) (length s) out = io_list s out.
Proof.
  intros NI. unfold io_parse, io_list, at_.
  assert (HT : nth_error (s ++ term :: rst) (length s) = Some term).
  { rewrite nth_error_app2, Nat.sub_diag by lia. reflexivity. }
  rewrite HT. cbn [bind].
  assert (H0 : exists c0, nth_error (s ++ term :: rst) 0 = Some c0 /\
    (if negb (c0 =? term) && (c0 =? 45) then (true, tl (s ++ term :: rst)) else (false, s ++ term :: rst)) =
    (fst (sign_of s), snd (sign_of s) ++ term :: rst)).
  { destruct s as [|ch s]; cbn [app nth_error tl sign_of].
    - exists term. split; [reflexivity|]. rewrite Z.eqb_refl. reflexivity.
    - exists ch. split; [reflexivity|]. destruct (Z.eqb_spec ch term) as [E|_]; [exfalso; apply NI; left; exact E|].
      cbn [negb andb]. destruct (ch =? 45); reflexivity. }
  destruct H0 as (c0 & -> & H0). cbn [bind]. rewrite H0.
  destruct (sign_of s) as [neg s1] eqn:S. cbn [fst snd]. apply sign_of_inv in S.
  assert (NI1 : ~ In term s1) by (intros X; apply NI; rewrite S; apply in_or_app; right; exact X).
  rewrite p_int_strict by exact NI1.
  destruct (int_strict int32 s1 0) as [[[ip s2]|]| | |] eqn:EI; cbn [bind]; auto.
  destruct (int_strict_inv _ _ _ _ _ EI) as (ds & _ & E1 & EN).
  assert (LEN : forall t, (length (s ++ term :: rst) - length (t ++ term :: rst))%nat = (length s - length t)%nat).
  { intros t. rewrite !app_length. cbn [length]. lia. }
  assert (H1 : exists c1, nth_error (s2 ++ term :: rst) 0 = Some c1 /\
     negb (c1 =? term) && (c1 =? 46) = match s2 with ch :: _ => ch =? 46 | [] => false end).
  { destruct s2 as [|ch s2]; cbn [app nth_error].
    - exists term. rewrite Z.eqb_refl. auto.
    - exists ch. split; [reflexivity|]. destruct (Z.eqb_spec ch term) as [E|_]; [|reflexivity].
      exfalso. apply NI1. rewrite E1. apply in_or_app. right. left. exact E. }
  destruct H1 as (c1 & -> & H1). cbn [bind]. rewrite H1.
  destruct s2 as [|ch s3].
  - change (cf F32) with 16. destruct (c_shl int32 ip 16); cbn [bind]; auto.
    rewrite LEN. reflexivity.
  - destruct (ch =? 46).
    + change (c_shl int32 1 (cf F32)) with (Ok 65536). cbn [bind]. change (c_sub int32 int32 65536 1) with (Ok 65535). cbn [bind].
      change (c_div int32 int32 65535 10) with (Ok 6553). cbn [bind app tl].
      assert (NI2 : ~ In term s3).
      { intros X. apply NI1. rewrite E1. apply in_or_app. right. right. exact X. }
      rewrite p_dec_strict by exact NI2. change (cf F32) with 16.
      destruct (dec_strict int32 int32 6553 s3 0 1) as [[[[d v] t]|]| | |]; cbn [bind]; auto.
      destruct (combine int32 16 ip d v); cbn [bind]; auto.
      rewrite LEN. reflexivity.
    + change (cf F32) with 16. destruct (c_shl int32 ip 16); cbn [bind]; auto.
      rewrite LEN. reflexivity.
Qed.

Lemma F32_wf : wf F32 = true.
Proof. reflexivity. Qed.

Lemma io_parse_ok term rst neg ip fp out : is_digits 10 ip -> is_digits 10 (frac_of fp) ->
  ~ In term (dec_text neg ip fp) ->
  (numeral 10 false ip (frac_of fp) < 32768)%Q ->
  num 10 (frac_of fp) < 32768 -> (length (frac_of fp) <= 9)%nat ->
  exists a u, io_parse (dec_text neg ip fp ++ term :: rst) (length (dec_text neg ip fp)) out =
     Ok ((length (dec_text neg ip fp) - length u)%nat, if neg then - a else a) /\
    0 <= a /\ (qval 16 a <= numeral 10 false ip (frac_of fp))%Q /\
    (numeral 10 false ip (frac_of fp) < qval 16 (a + 11))%Q /\
    (exists r, frac_of fp = r ++ u /\ (u = [] \/ 6554 <= num 10 r)) /\
    (u = [] -> (numeral 10 false ip (frac_of fp) < qval 16 (a + 1))%Q).
Proof.
  intros HI HF NT RG M1 M2. rewrite io_parse_list by exact NT. unfold io_list. rewrite dec_text_sign by exact HI.
  pose proof (num_nonneg 10 ip ltac:(lia) HI) as NI. pose proof (num_nonneg 10 (frac_of fp) ltac:(lia) HF) as NF.
  assert (K : ity_ok int32 = true) by reflexivity.
  assert (MX : maxv int32 = 2147483647) by reflexivity.
  assert (IL : num 10 ip < 32768).
  { destruct (int_le_numeral ip (frac_of fp) HF) as [A _]. pose proof (Qle_lt_trans _ _ _ A RG) as L.
    unfold Qlt, inject_Z in L; cbn [Qnum Qden] in L. lia. }
  assert (PW : 10 ^ Z.of_nat (length (frac_of fp)) <= 10 ^ 9) by (apply Z.pow_le_mono_r; lia).
  change (10 ^ 9) with 1000000000 in PW.
  set (tl0 := match fp with None => [] | Some fp => 46 :: map dch fp end).
  assert (EN : ends tl0) by (unfold tl0; destruct fp; [right; eexists; reflexivity|left; reflexivity]).
  rewrite (int_strict_digits int32 ip tl0 K EN HI 0 ltac:(clear; lia) ltac:(rewrite MX; clear - IL; lia)). cbn [bind].
  rewrite Z.mul_0_l, Z.add_0_l. change (2 ^ 16) with 65536.
  unfold tl0. destruct fp as [fp|]; cbn [frac_of] in *.
  - rewrite Z.eqb_refl.
    destruct (dec_strict_digits int32 int32 6553 K K ltac:(rewrite MX; clear; lia) ltac:(rewrite MX; clear; lia) fp HF [] 0 1)
      as (r & u & E & DR); [constructor|reflexivity|reflexivity|rewrite MX; clear; lia|rewrite MX; clear; lia| | |].
    + intros r1 r2 E N. symmetry in E. apply app_eq_nil in E. tauto.
    + intros r u E _. cbn [app] in *. rewrite E, app_length in PW. rewrite MX.
      apply Z.le_trans with 1000000000; [|clear; lia]. apply Z.le_trans with (2 := PW). apply Z.pow_le_mono_r; clear; lia.
    + cbn [app] in E, DR. rewrite E. cbn [bind].
      destruct (value_ok int32 16 6553 ip fp r u K ltac:(cbn; clear; lia) HI HF DR) as (EV & VR).
      * rewrite MX. change (2 ^ 16) with 65536. clear - M1; lia.
      * rewrite MX. clear - PW; lia.
      * rewrite MX. change (2 ^ 16) with 65536. clear - IL; lia.
      * rewrite EV. cbn [bind].
        destruct (cut_value 16 6553 ip fp r u ltac:(clear; lia) HF DR ltac:(clear; lia)) as (C1 & C2 & C3).
        set (V := num 10 ip * 2 ^ 16 + num 10 r * 2 ^ 16 / 10 ^ Z.of_nat (length r)) in *.
        exists V, u. split.
        -- rewrite nn_wrap by auto. rewrite map_length. destruct neg; [|reflexivity].
           destruct (neg_fits F32 V F32_wf VR eq_refl) as [_ ->]. reflexivity.
        -- split; [apply VR|]. split; [exact C1|]. split; [exact C2|]. split; [|exact C3]. destruct DR as (D1 & D2 & _).
           exists r. split; [exact D1|]. destruct D2 as [D2|D2]; [left; exact D2|right]. clear - D2. lia.
  - rewrite (c_shl_nn int32 (num 10 ip) 16 K); [|cbn; clear; lia|apply NI|rewrite MX; change (2 ^ 16) with 65536; clear - IL; lia].
    cbn [bind]. assert (VR : 0 <= num 10 ip * 2 ^ 16 <= maxv int32).
    { rewrite MX. change (2 ^ 16) with 65536. clear - IL NI. lia. }
    rewrite nn_wrap by auto.
    exists (num 10 ip * 2 ^ 16), []. split.
    + destruct neg; [|reflexivity]. destruct (neg_fits F32 _ F32_wf VR eq_refl) as [_ ->]. reflexivity.
    + split; [apply VR|].
      assert (EQ : (numeral 10 false ip [] == qval 16 (num 10 ip * 2 ^ 16))%Q).
      { unfold numeral, qval, Qeq; cbn [Qnum Qden length]. rewrite pow2p_Z by (clear; lia).
        change (num 10 []) with 0. change (10 ^ Z.of_nat 0) with 1. cbn [Z.to_pos]. clear; lia. }
      rewrite EQ. split; [apply Qle_refl|]. split; [apply qval_lt; clear; lia|].
      split; [exists []; split; [reflexivity|left; reflexivity]|]. intros _. apply qval_lt. clear; lia.
Qed.

Lemma io_parse_bad term rst (neg : bool) ds ch tail out : is_digits 10 ds -> ch <> 46 -> check_ch ch = false ->
  (ds = [] -> neg = false -> ch <> 45) -> num 10 ds < 2 ^ 31 ->
  ~ In term ((if neg then [45] else []) ++ map dch ds ++ ch :: tail) ->
  io_parse (((if neg then [45] else []) ++ map dch ds ++ ch :: tail) ++ term :: rst)
    (length ((if neg then [45] else []) ++ map dch ds ++ ch :: tail)) out = Ok (0%nat, out).
Proof.
  intros HD C1 C2 C3 M NT. rewrite io_parse_list by exact NT. unfold io_list.
  assert (S : sign_of ((if neg then [45] else []) ++ map dch ds ++ ch :: tail) = (neg, map dch ds ++ ch :: tail)).
  { destruct neg; [reflexivity|]. cbn [app]. destruct HD as [|d ds Hd HD]; cbn [map app sign_of].
    - specialize (C3 eq_refl eq_refl). apply Z.eqb_neq in C3. rewrite C3. reflexivity.
    - destruct (dch_check d Hd) as (_ & _ & ->). reflexivity. }
  rewrite S.
  rewrite (int_strict_bad int32 ds ch tail eq_refl HD C1 C2 0 ltac:(clear; lia)); [reflexivity|].
  change (maxv int32) with (2 ^ 31 - 1). clear - M; lia.
Qed.
