(** Proofs about std::formatter<fixed_num>::parse (Format.parse_spec). *)
From Coq Require Import ZArith Bool Lia String List.
From Verif Require Import Base Fixed Spec SpecText SpecFormat TextOut Format BaseLemmas CLemmas NumLemmas.
Import ListNotations.
Open Scope Z_scope.

Lemma is_dig_iff c : is_dig c = true <-> 48 <= c <= 57.
Proof. unfold is_dig. lia. Qed.
Lemma is_align_iff c : is_align c = true <-> (c = 60 \/ c = 62 \/ c = 94).
Proof. unfold is_align. lia. Qed.
Lemma is_type_iff c : is_type c = true <-> In c (txt "gGfFdxXobB?").
Proof.
  unfold is_type. rewrite existsb_exists.
  change (txt "gGfFdxXobB?") with [103; 71; 102; 70; 100; 120; 88; 111; 98; 66; 63]. split.
  - intros (x & I & E). apply Z.eqb_eq in E. subst. exact I.
  - intros I. exists c. split; [exact I|apply Z.eqb_refl].
Qed.
Lemma in_types c : In c (txt "gGfFdxXobB?") -> 63 <= c <= 120 /\ c <> 94.
Proof.
  change (txt "gGfFdxXobB?") with [103; 71; 102; 70; 100; 120; 88; 111; 98; 66; 63]. cbn [In]. lia.
Qed.

(** a character that ends the numeric part of a specification *)
Definition stop (h : Z) : Prop :=
  ~ (48 <= h <= 57) /\ ~ In h (txt "<>^+- #.:").
Lemma stop_num h : stop h -> (h < 48 \/ 57 < h) /\ h <> 60 /\ h <> 62 /\ h <> 94 /\ h <> 43 /\ h <> 45 /\ h <> 32 /\ h <> 35 /\ h <> 46 /\ h <> 58.
Proof.
  unfold stop. change (txt "<>^+- #.:") with [60; 62; 94; 43; 45; 32; 35; 46; 58]. cbn [In]. intros [A B].
  repeat split; try lia; intros E; apply B; auto 12.
Qed.

Definition hdc (l : list Z) : Z := match l with [] => 0 | c :: _ => c end.

Lemma dgs_cons d ds : dgs (d :: ds) = digit_char false d :: dgs ds. Proof. reflexivity. Qed.
Lemma dchar d : 0 <= d < 10 -> digit_char false d = d + 48.
Proof. intros. unfold digit_char. destruct (Z.ltb_spec d 10); lia. Qed.

Lemma read_int_ok ds : is_digits 10 ds -> forall v h t, 0 <= v -> v * 10 ^ Z.of_nat (List.length ds) + num 10 ds <= 2147483647 ->
  (h < 48 \/ 57 < h) ->
  read_int (dgs ds ++ h :: t) v = Ok (v * 10 ^ Z.of_nat (List.length ds) + num 10 ds, h :: t).
Proof.
  induction 1 as [|d ds Hd H IH]; intros v h t V L N.
  - cbn [dgs map app read_int]. replace (is_dig h) with false by (unfold is_dig; lia).
    cbn [List.length]. change (num 10 []) with 0. f_equal. f_equal. cbn. lia.
  - rewrite dgs_cons. cbn [app read_int]. rewrite dchar by auto. replace (is_dig (d + 48)) with true by (unfold is_dig; lia).
    rewrite num_cons in L |- *. cbn [List.length] in L |- *. rewrite Nat2Z.inj_succ, Z.pow_succ_r in L |- * by lia.
    pose proof (num_nonneg 10 ds ltac:(lia) H) as NN. set (p := 10 ^ Z.of_nat (List.length ds)) in *.
    assert (P : 0 < p) by (apply Z.pow_pos_nonneg; lia).
    assert (B : (v * 10 + d) * p <= 2147483647) by nia.
    assert (B2 : v * 10 + d <= 2147483647) by nia.
    rewrite nn_mul; try reflexivity; [|change (maxv int32) with 2147483647; lia|change (maxv int32) with 2147483647; lia|change (maxv (uac int32 int32)) with 2147483647; lia].
    cbn [bind]. replace (d + 48 - 48) with d by lia.
    rewrite nn_add; try reflexivity; [|change (maxv int32) with 2147483647; lia|change (maxv int32) with 2147483647; lia|change (maxv (uac int32 int32)) with 2147483647; lia].
    cbn [bind]. rewrite (IH (v * 10 + d) h t ltac:(lia) ltac:(fold p; nia) N). fold p. f_equal. f_equal. ring.
Qed.

(** the state described by a specification *)
Definition dflt (d : Z) (o : option Z) : Z := match o with Some v => v | None => d end.
Definition dnum (d : Z) (o : option (list Z)) : Z := match o with Some ds => num 10 ds | None => d end.
Definition state_of (s : fspec) : fstate :=
  {| align_mode := dflt 0 (p_align s); sign_mode := dflt 45 (p_sign s); alt_form := p_alt s; zero_pad := p_zero s;
     width_val := dnum 0 (p_width s); precision := dnum (-1) (p_prec s); ftype := dflt 103 (p_type s);
     fill_ch := dflt 32 (p_fill s) |}.

(** the specification text before the type, after the alignment *)
Definition mid (s : fspec) : list Z :=
  opt (p_sign s) ++ (if p_alt s then [35] else []) ++ (if p_zero s then [48] else []) ++
  (match p_width s with Some ds => dgs ds | None => [] end) ++
  (match p_prec s with Some ds => 46 :: dgs ds | None => [] end).

Lemma dgs_forall ds : is_digits 10 ds -> Forall (fun c => 48 <= c <= 57) (dgs ds).
Proof. induction 1; cbn [dgs map]; constructor; auto. rewrite dchar by auto. lia. Qed.

Lemma mid_chars s : spec_ok s -> Forall (fun c => 32 <= c <= 57 /\ c <> 58) (mid s).
Proof.
  intros (_ & _ & S & W & P & _). unfold mid. rewrite !Forall_app.
  assert (D : forall ds, is_digits 10 ds -> Forall (fun c => 32 <= c <= 57 /\ c <> 58) (dgs ds)).
  { intros ds H. eapply Forall_impl; [|apply dgs_forall, H]. cbn beta. lia. }
  repeat split.
  - destruct (p_sign s) as [a|]; cbn [opt]; constructor; [|constructor].
    specialize (S a eq_refl). cbn [In] in S. lia.
  - destruct (p_alt s); repeat constructor; lia.
  - destruct (p_zero s); repeat constructor; lia.
  - destruct (p_width s) as [ds|]; [|constructor]. apply D. apply (W ds eq_refl).
  - destruct (p_prec s) as [ds|]; [|constructor]. constructor; [lia|]. apply D. apply (P ds eq_refl).
Qed.

(** the four single-character components and the two numbers, for a tail starting with a stop *)
Lemma parse_mid s st h t : spec_ok s -> stop h ->
  (let '(st1, it) := parse_sign st (mid s ++ h :: t) in
   let '(st2, it) := parse_alt st1 it in
   let '(st3, it) := parse_zero st2 it in
   let* si := parse_width st3 it in
   let* si := parse_prec (fst si) (snd si) in
   parse_type (fst si) (snd si)) =
  parse_type {| align_mode := align_mode st; sign_mode := dflt (sign_mode st) (p_sign s); alt_form := p_alt s || alt_form st;
     zero_pad := p_zero s || zero_pad st;
     width_val := dnum (width_val st) (p_width s); precision := dnum (precision st) (p_prec s); ftype := ftype st;
     fill_ch := fill_ch st |} (h :: t).
Proof.
  intros (_ & _ & S & W & P & _) HS. apply stop_num in HS.
  destruct s as [pf pa ps pl pz pw pp pt]. cbn [p_fill p_align p_sign p_alt p_zero p_width p_prec p_type] in *.
  unfold mid. cbn [p_fill p_align p_sign p_alt p_zero p_width p_prec p_type].
  destruct st as [al sg af zp wv pr ft fc]. cbn [align_mode sign_mode alt_form zero_pad width_val precision ftype fill_ch].
  set (T6 := (match pp with Some ds => 46 :: dgs ds | None => [] end) ++ h :: t).
  set (T5 := (match pw with Some ds => dgs ds | None => [] end) ++ T6).
  set (T4 := (if pz then [48] else []) ++ T5).
  set (T3 := (if pl then [35] else []) ++ T4).
  assert (E2 : (opt ps ++ (if pl then [35] else []) ++ (if pz then [48] else []) ++
     (match pw with Some ds => dgs ds | None => [] end) ++ (match pp with Some ds => 46 :: dgs ds | None => [] end)) ++ h :: t
     = opt ps ++ T3) by (unfold T3, T4, T5, T6; rewrite <- !app_assoc; reflexivity).
  rewrite E2. clear E2.
  assert (N6 : exists x r, T6 = x :: r /\ (x < 48 \/ 57 < x) /\ (pp = None -> x <> 46) /\ x <> 35 /\ x <> 43 /\ x <> 45 /\ x <> 32).
  { unfold T6. destruct pp; cbn [app]; eexists; eexists; split; try reflexivity; repeat split; try lia; try discriminate. }
  destruct N6 as (x6 & r6 & E6 & N6 & N6p & N6b & N6c).
  assert (N5 : exists x r, T5 = x :: r /\ (x < 48 \/ 57 < x \/ pw <> None /\ x <> 48) /\ x <> 35 /\ x <> 43 /\ x <> 45 /\ x <> 32).
  { unfold T5. destruct pw as [ds|]; cbn [app].
    - destruct (W ds eq_refl) as (DG & _ & d & r & -> & Hd). inversion DG; subst. rewrite dgs_cons. cbn [app].
      eexists; eexists; split; [reflexivity|]. rewrite dchar by auto. repeat split; try lia. right; right; split; [discriminate|lia].
    - exists x6, r6. split; [exact E6|]. repeat split; lia. }
  destruct N5 as (x5 & r5 & E5 & N5 & N5b & N5c).
  (* sign *)
  assert (PS : parse_sign (Build_fstate al sg af zp wv pr ft fc) (opt ps ++ T3) = (Build_fstate al (dflt sg ps) af zp wv pr ft fc, T3)).
  { destruct ps as [a|]; cbn [opt app dflt].
    - specialize (S a eq_refl). cbn [parse_sign]. replace ((a =? 43) || (a =? 45) || (a =? 32)) with true by (cbn [In] in S; lia). reflexivity.
    - unfold T3, T4. rewrite E5. destruct pl, pz; cbn [app parse_sign]; try reflexivity.
      replace ((x5 =? 43) || (x5 =? 45) || (x5 =? 32)) with false by (clear - N5c; lia). reflexivity. }
  rewrite PS. clear PS.
  assert (PA : parse_alt (Build_fstate al (dflt sg ps) af zp wv pr ft fc) T3 = (Build_fstate al (dflt sg ps) (pl || af) zp wv pr ft fc, T4)).
  { unfold T3. destruct pl; cbn [app parse_alt orb]; [reflexivity|]. unfold T4. rewrite E5. destruct pz; cbn [app parse_alt]; [reflexivity|].
    replace (x5 =? 35) with false by (clear - N5b; lia). reflexivity. }
  rewrite PA. clear PA.
  assert (PZ : parse_zero (Build_fstate al (dflt sg ps) (pl || af) zp wv pr ft fc) T4 = (Build_fstate al (dflt sg ps) (pl || af) (pz || zp) wv pr ft fc, T5)).
  { unfold T4. destruct pz; cbn [app parse_zero orb]; [reflexivity|]. rewrite E5. unfold parse_zero.
    replace (x5 =? 48) with false by (clear - N5; lia). reflexivity. }
  rewrite PZ. clear PZ.
  assert (PW : parse_width (Build_fstate al (dflt sg ps) (pl || af) (pz || zp) wv pr ft fc) T5 =
               Ok (Build_fstate al (dflt sg ps) (pl || af) (pz || zp) (dnum wv pw) pr ft fc, T6)).
  { destruct pw as [ds|] eqn:EW; cbn [dnum].
    - destruct (W ds eq_refl) as (DG & LE & d & r & E & Hd).
      unfold parse_width. unfold T5 at 1. rewrite E, dgs_cons. cbn [app]. rewrite dchar by (rewrite E in DG; inversion DG; auto).
      assert (HD : 0 <= d < 10) by (rewrite E in DG; inversion DG; auto).
      replace (is_dig (d + 48)) with true by (unfold is_dig; lia).
      rewrite <- E. unfold T5. rewrite E6. rewrite read_int_ok; auto; try lia.
    - unfold T5. cbn [app]. rewrite E6. unfold parse_width. replace (is_dig x6) with false by (unfold is_dig; lia). reflexivity. }
  rewrite PW. clear PW. cbn [bind fst snd].
  assert (PP : parse_prec (Build_fstate al (dflt sg ps) (pl || af) (pz || zp) (dnum wv pw) pr ft fc) T6 =
               Ok (Build_fstate al (dflt sg ps) (pl || af) (pz || zp) (dnum wv pw) (dnum pr pp) ft fc, h :: t)).
  { unfold T6. destruct pp as [ds|]; cbn [dnum app parse_prec].
    - destruct (P ds eq_refl) as (DG & LE). rewrite read_int_ok; auto; try lia.
    - replace (h =? 46) with false by lia. reflexivity. }
  rewrite PP. reflexivity.
Qed.

Lemma skip_digits_head l x r : skip_digits l = x :: r -> (x < 48 \/ 57 < x).
Proof. induction l as [|c l IH]; cbn [skip_digits]; [discriminate|]. destruct (is_dig c) eqn:E; auto. intros H. injection H as <- <-. unfold is_dig in E. lia. Qed.

Lemma argid_id l : (forall x r, skip_digits l = x :: r -> x <> 58) -> parse_argid l = l.
Proof.
  intros H. unfold parse_argid. destruct (skip_digits l) as [|x r] eqn:E; [reflexivity|].
  specialize (H x r eq_refl). replace (x =? 58) with false by lia. reflexivity.
Qed.

Lemma skip_mid s h t x r : spec_ok s -> stop h -> skip_digits (mid s ++ h :: t) = x :: r -> x <> 58.
Proof.
  intros H HS. pose proof (mid_chars s H) as M. apply stop_num in HS.
  induction M as [|c l Hc M IH]; cbn [app skip_digits].
  - replace (is_dig h) with false by (unfold is_dig; lia). intros E. injection E as <- <-. lia.
  - destruct (is_dig c); [exact IH|]. intros E. injection E as <- <-. lia.
Qed.

Lemma parse_front s h t : spec_ok s -> p_type s = None -> stop h -> p_fill s <> Some 58 ->
  (spec_text s = [] -> match t with c :: _ => ~ In c [60; 62; 94] | [] => True end) ->
  parse_spec (spec_text s ++ h :: t) = parse_type (state_of s) (h :: t).
Proof.
  intros H TY HS HF HC.
  assert (TX : spec_text s = opt (p_fill s) ++ opt (p_align s) ++ mid s).
  { unfold spec_text, mid. rewrite TY. cbn [opt]. rewrite app_nil_r. rewrite !app_assoc. reflexivity. }
  pose proof H as (FA & AL & _). pose proof (stop_num h HS) as HN.
  pose proof (mid_chars s H) as MC.
  (* the list after fill and alignment *)
  set (L := mid s ++ h :: t).
  assert (NL : exists x r, L = x :: r /\ x <> 60 /\ x <> 62 /\ x <> 94).
  { unfold L. destruct MC as [|c l Hc MC]; cbn [app]; eexists; eexists; split; try reflexivity; lia. }
  destruct NL as (x & r & EL & NX).
  assert (SK : forall y r', skip_digits L = y :: r' -> y <> 58) by (intros y r'; apply skip_mid; auto).
  assert (KEY : parse_spec (spec_text s ++ h :: t) =
    (let '(st1, it) := parse_sign {| align_mode := dflt 0 (p_align s); sign_mode := 45; alt_form := false; zero_pad := false;
        width_val := 0; precision := -1; ftype := 103; fill_ch := dflt 32 (p_fill s) |} L in
   let '(st2, it) := parse_alt st1 it in
   let '(st3, it) := parse_zero st2 it in
   let* si := parse_width st3 it in
   let* si := parse_prec (fst si) (snd si) in
   parse_type (fst si) (snd si))).
  { rewrite TX, <- !app_assoc. fold L. unfold parse_spec.
    destruct (p_align s) as [a|] eqn:EA.
    - specialize (AL a eq_refl). assert (IA : is_align a = true) by (apply is_align_iff; cbn [In] in AL; lia).
      assert (ND : is_dig a = false) by (unfold is_dig; cbn [In] in AL; lia).
      destruct (p_fill s) as [f|] eqn:EF; cbn [opt app dflt].
      + rewrite argid_id.
        2:{ intros y r'. cbn [skip_digits]. destruct (is_dig f).
            - rewrite ND. intros E. injection E as <- <-. cbn [In] in AL. lia.
            - intros E. injection E as <- <-. intros ->. apply HF. reflexivity. }
        cbn [parse_align]. rewrite IA. reflexivity.
      + rewrite argid_id by (intros y r'; cbn [skip_digits]; rewrite ND; intros E; injection E as <- <-; cbn [In] in AL; lia).
        rewrite EL. cbn [parse_align].
        replace (is_align x) with false by (unfold is_align; lia). rewrite IA. reflexivity.
    - rewrite (FA eq_refl). cbn [opt app dflt]. rewrite argid_id by exact SK.
      assert (PA : parse_align state0 L = (state0, L)).
      { rewrite EL. cbn [parse_align]. replace (is_align x) with false by (unfold is_align; lia).
        destruct r as [|n r2]; [reflexivity|].
        assert (is_align n = false); [|rewrite H0; reflexivity].
        unfold L in EL. destruct (mid s) as [|c1 [|c2 l]] eqn:EM; cbn [app] in EL.
        - injection EL as -> ->. assert (SE : spec_text s = []) by (rewrite TX, (FA eq_refl); reflexivity).
          specialize (HC SE). cbn beta iota in HC. destruct (is_align n) eqn:EN; [|reflexivity].
          exfalso. apply HC. apply is_align_iff in EN. cbn [In]. lia.
        - injection EL as E1 E2 E3. unfold is_align. lia.
        - injection EL as E1 E2 E3. inversion MC as [|? ? _ M2]; subst. inversion M2; subst. unfold is_align. lia. }
      rewrite EL in PA |- *. cbv iota. rewrite PA. reflexivity. }
  rewrite KEY. unfold L. etransitivity; [apply parse_mid; auto|]. cbn [sign_mode alt_form zero_pad width_val precision ftype fill_ch align_mode].
  rewrite !orb_false_r. unfold state_of. rewrite TY. reflexivity.
Qed.

Lemma stop_type t : In t (txt "gGfFdxXobB?") -> stop t.
Proof.
  intros I. pose proof (in_types t I) as R. split; [lia|].
  change (txt "<>^+- #.:") with [60; 62; 94; 43; 45; 32; 35; 46; 58]. cbn [In]. lia.
Qed.
Lemma stop_brace : stop 125.
Proof. split; [lia|]. change (txt "<>^+- #.:") with [60; 62; 94; 43; 45; 32; 35; 46; 58]. cbn [In]. lia. Qed.

Definition drop_type (s : fspec) : fspec :=
  {| p_fill := p_fill s; p_align := p_align s; p_sign := p_sign s; p_alt := p_alt s; p_zero := p_zero s;
     p_width := p_width s; p_prec := p_prec s; p_type := None |}.
Lemma drop_ok s : spec_ok s -> spec_ok (drop_type s).
Proof.
  intros (A & B & C & D & E & F). unfold spec_ok, drop_type. cbn [p_fill p_align p_sign p_width p_prec p_type].
  split; [exact A|]. split; [exact B|]. split; [exact C|]. split; [exact D|]. split; [exact E|]. intros t X; discriminate.
Qed.

Lemma parse_spec_ok s rest : spec_ok s -> p_fill s <> Some 58 ->
  (spec_text s = [] -> match rest with c :: _ => ~ In c [60; 62; 94] | [] => True end) ->
  parse_spec (spec_text s ++ 125 :: rest) = Ok (state_of s, 125 :: rest).
Proof.
  intros H F C. destruct (p_type s) as [t|] eqn:ET.
  - assert (IT : In t (txt "gGfFdxXobB?")) by (apply H; auto).
    assert (E : spec_text s ++ 125 :: rest = spec_text (drop_type s) ++ t :: 125 :: rest).
    { unfold spec_text, drop_type. cbn. rewrite ET. cbn [opt]. rewrite <- !app_assoc. reflexivity. }
    rewrite E, parse_front; auto using drop_ok, stop_type.
    2:{ intros _. cbn [In]. lia. }
    cbn [parse_type]. replace (is_type t) with true by (symmetry; apply is_type_iff; auto).
    unfold state_of, with_type, drop_type. cbn. rewrite ET. reflexivity.
  - rewrite parse_front; auto using stop_brace.
Qed.

Lemma parse_unknown s ch rest : spec_ok s -> p_type s = None -> p_fill s <> Some 58 -> stop ch ->
  ~ In ch (txt "gGfFdxXobB?") -> ch <> 125 ->
  parse_spec (spec_text s ++ ch :: 125 :: rest) = Throw format_error.
Proof.
  intros H T F S N B. rewrite parse_front; auto.
  2:{ intros _. cbn [In]. lia. }
  cbn [parse_type]. replace (is_type ch) with false.
  - replace (ch =? 125) with false by lia. reflexivity.
  - symmetry. apply not_true_is_false. intros X. apply N. apply is_type_iff. exact X.
Qed.
