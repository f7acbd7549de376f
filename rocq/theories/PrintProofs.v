(** Proofs about Print.v. *)
From Coq Require Import ZArith QArith Qabs Bool List String Ascii Lia Lqa.
From Verif Require Import Base Fixed Float Util Numbers Print Spec SpecText SpecPrint UtilProofs.
Import ListNotations.
Open Scope Z_scope.

(** ** hexadecimal *)
Lemma hex_loop_ok fuel : forall n acc, 0 <= n < 16 ^ Z.of_nat (S fuel) ->
  exists ds, is_digits 16 ds /\ num 16 ds = n /\ (ds = [0] \/ exists d r, ds = d :: r /\ d <> 0) /\
    hex_loop (S fuel) n acc = map (digit_char false) ds ++ acc.
Proof.
  induction fuel as [|fuel IH]; intros n acc H.
  - change (16 ^ Z.of_nat 1) with 16 in H. exists [n]. split; [constructor; [lia|constructor]|]. split; [reflexivity|].
    split; [destruct (Z.eq_dec n 0) as [-> |N]; [left; reflexivity|right; exists n, []; auto]|].
    cbn [hex_loop map app]. rewrite Z.mod_small, Z.div_small by lia. cbn [Z.eqb]. unfold digit_char. destruct (n <? 10); f_equal; lia.
  - remember (S fuel) as g. cbn [hex_loop]. subst g.
    pose proof (Z.mod_pos_bound n 16 ltac:(lia)) as M. pose proof (Z.div_mod n 16 ltac:(lia)) as DM.
    set (ch := if n mod 16 <? 10 then 48 + n mod 16 else 87 + n mod 16).
    assert (CH : ch = digit_char false (n mod 16)) by (unfold ch, digit_char; destruct (n mod 16 <? 10); lia).
    destruct (Z.eqb_spec (n / 16) 0) as [E|E].
    + exists [n mod 16]. split; [constructor; [lia|constructor]|]. split; [unfold num; cbn [fold_left]; lia|].
      split; [|rewrite CH; reflexivity].
      destruct (Z.eq_dec (n mod 16) 0) as [-> |N]; [left; reflexivity|right; exists (n mod 16), []; auto].
    + assert (R : 0 <= n / 16 < 16 ^ Z.of_nat (S fuel)).
      { split; [apply Z.div_pos; lia|]. apply Z.div_lt_upper_bound; [lia|]. rewrite Nat2Z.inj_succ, Z.pow_succ_r in H by lia. lia. }
      destruct (IH (n / 16) (ch :: acc) R) as (ds & D & N & F & L). exists (ds ++ [n mod 16]).
      split; [apply Forall_app; split; [exact D|constructor; [lia|constructor]]|].
      split; [unfold num in *; rewrite fold_left_app; cbn [fold_left]; rewrite N; lia|].
      split; [|rewrite L, map_app, <- app_assoc, CH; reflexivity]. right.
      destruct F as [-> |(d & r & -> & ND)]; [exfalso; apply E; rewrite <- N; reflexivity|]. exists d, (r ++ [n mod 16]). auto.
Qed.
Lemma hex_expansion r : 0 <= r < 2 ^ 64 -> expansion 16 false (hex r) (inject_Z r).
Proof.
  intros H. unfold hex. assert (W : wrap uint64 r = r) by (unfold wrap; cbn [bits sgn uint64]; apply Z.mod_small; lia). rewrite W.
  destruct (hex_loop_ok 15 r [] ltac:(exact H)) as (ds & D & N & F & L). rewrite L, app_nil_r.
  exists false, ds, []. split; [exact D|]. split; [constructor|]. split; [unfold render; rewrite app_nil_r; reflexivity|].
  split; [unfold numeral; cbn; rewrite N; unfold Qeq; cbn; lia|].
  split; [split; [discriminate|intros Q; exfalso; unfold Qlt in Q; cbn in Q; lia]|]. split; [exact F|left; reflexivity].
Qed.

(** ** the doubles *)
Definition known_p (p : Z) : Prop := p = 53 \/ p = 64 \/ p = 113.
Definition dbl_ok (d a : Z) : bool := (3 * 10 ^ 35 <=? a) && (0 <=? d) && (d <? 3 * 2 ^ 201) && (Z.abs (d * 10 ^ 36 - a * 2 ^ 201) <=? 2 ^ 149 * 10 ^ 36).
Definition near_q (f : Z) (c : Q) (r : Z) : Prop := (Qabs (qval f r - c) <= qval f 1 + qval 52 1)%Q.
Lemma pow2p_pos f : 0 <= f -> Zpos (pow2p f) = 2 ^ f.
Proof. intros H. unfold pow2p. rewrite Z2Pos.id; [reflexivity|]. apply Z.pow_pos_nonneg; lia. Qed.
Lemma floor_div d f : 0 <= f -> is_floor f (qval 201 d) (d * 2 ^ f / 2 ^ 201).
Proof.
  intros F. pose proof (Z.div_mod (d * 2 ^ f) (2 ^ 201) ltac:(lia)) as DM. pose proof (Z.mod_pos_bound (d * 2 ^ f) (2 ^ 201) ltac:(lia)) as M.
  unfold is_floor, qval, Qle, Qlt. cbn [Qnum Qden]. rewrite !pow2p_pos by lia. set (q := d * 2 ^ f / 2 ^ 201) in *. clearbody q. nia.
Qed.
Lemma eval_ok d f : 0 <= f <= 61 -> 0 <= d < 3 * 2 ^ 201 ->
  exists r, eval_value int64 d 201 f = Ok r /\ 0 <= r < 2 ^ 63 /\ is_floor f (qval 201 d) r.
Proof.
  intros F D. exists (d * 2 ^ f / 2 ^ 201). pose proof (floor_div d f ltac:(lia)) as FL.
  assert (P : 0 < 2 ^ f <= 2 ^ 61) by (split; [apply Z.pow_pos_nonneg; lia|apply Z.pow_le_mono_r; lia]).
  assert (R : 0 <= d * 2 ^ f / 2 ^ 201 < 2 ^ 63).
  { split; [apply Z.div_pos; [nia|lia]|]. apply Z.div_lt_upper_bound; [lia|]. nia. }
  split; [|split; assumption]. apply C92_lemma; try exact FL; try lia.
  - repeat split. cbn; lia.
  - cbn; lia.
  - cbn; lia.
  - unfold fits, lo, hi; cbn [bits sgn int64]. lia.
Qed.
Lemma dbl_near d a : dbl_ok d a = true -> 0 <= d < 3 * 2 ^ 201 /\ (Qabs (qval 201 d - (a # 10 ^ 36)) <= qval 52 1)%Q.
Proof.
  unfold dbl_ok. rewrite !andb_true_iff, !Z.leb_le, Z.ltb_lt. intros [[[X A] B] C]. split; [lia|].
  apply Qabs_Qle_condition. unfold Qle, Qminus, Qplus, Qopp, qval. cbn [Qnum Qden]. rewrite !Pos2Z.inj_mul, !pow2p_pos by lia.
  change (Z.pos (10 ^ 36)) with (10 ^ 36). apply Z.abs_le in C.
  change (2 ^ 201) with (2 ^ 149 * 2 ^ 52) in *. nia.
Qed.
Lemma floor_near f d c r : 0 <= f -> is_floor f (qval 201 d) r -> (Qabs (qval 201 d - c) <= qval 52 1)%Q -> near_q f c r.
Proof.
  intros F [L U] N. unfold near_q. apply Qabs_Qle_condition in N. destruct N as [N1 N2].
  assert (E : (qval f (r + 1) == qval f r + qval f 1)%Q).
  { unfold qval, Qeq, Qplus. cbn [Qnum Qden]. rewrite Pos2Z.inj_mul. ring. }
  assert (Z : (0 <= qval f 1)%Q) by (unfold qval, Qle; cbn; lia).
  apply Qabs_Qle_condition. rewrite E in U. split; lra.
Qed.
Definition off_q (c : Q) (r : Z) : Prop := (1 # 10 < c - qval 61 r)%Q.
Lemma floor_off f d a r : 0 <= f <= 60 -> 0 <= r -> dbl_ok d a = true -> is_floor f (qval 201 d) r -> off_q (a # 10 ^ 36) r.
Proof.
  intros F R DO [L _]. destruct (dbl_near d a DO) as [_ N]. unfold off_q. apply Qabs_Qle_condition in N. destruct N as [_ N].
  assert (E : (qval 61 r <= (1 # 2) * qval f r)%Q).
  { unfold qval, Qle, Qmult. cbn [Qnum Qden]. rewrite Pos2Z.inj_mul, !pow2p_pos by lia.
    assert (2 ^ 61 = 2 ^ f * 2 ^ (61 - f)) by (rewrite <- Z.pow_add_r by lia; f_equal; lia).
    assert (2 <= 2 ^ (61 - f)) by (change 2 with (2 ^ 1) at 1; apply Z.pow_le_mono_r; lia).
    assert (0 < 2 ^ f) by (apply Z.pow_pos_nonneg; lia). rewrite H. clear - R H0 H1. generalize dependent (2 ^ (61 - f)). intros p ?. generalize dependent (2 ^ f). intros q ?. nia. }
  assert (A : (3 # 10 <= a # 10 ^ 36)%Q).
  { unfold dbl_ok in DO. rewrite !andb_true_iff, !Z.leb_le in DO. destruct DO as [[[X _] _] _]. unfold Qle. cbn [Qnum Qden].
    change (Z.pos (10 ^ 36)) with (10 ^ 36). lia. }
  assert (Z : (qval 52 1 <= 1 # 1000)%Q) by (unfold qval, Qle; cbn; lia). clear - A N L E Z.
  generalize dependent (a # 10 ^ 36)%Q. intros c. generalize dependent (qval 52 1). intros e. lra.
Qed.

Definition known_of (l : list (string * Z)) : list (string * Q) := map (fun na => (fst na, snd na # 10 ^ 36)) l.
Lemma known_eq : known_of cst_lst = known_constants. Proof. reflexivity. Qed.
Lemma text_eq name hs :
  [10] ++ chars "// " ++ chars name ++ [10] ++ chars "template <typename T>" ++ [10]
    ++ chars "EIRIN_ALWAYS_INLINE constexpr enable_if_fixed<T> " ++ chars name ++ chars "_v()" ++ [10]
    ++ chars "{" ++ [10; 9] ++ chars "return T::template from_fixed_num_value<61>(0x" ++ hs ++ chars "ll);" ++ [10]
    ++ chars "}" ++ [10] = definition_text name hs.
Proof. unfold definition_text, txt, chars. cbn -[list_ascii_of_string]. rewrite <- ?app_assoc. reflexivity. Qed.
Lemma print_list_ok p f (P : Q -> Z -> Prop) l : 0 <= f <= 61 ->
  (forall d a r, dbl_ok d a = true -> 0 <= r -> is_floor f (qval 201 d) r -> P (a # 10 ^ 36) r) ->
  forallb (fun na => dbl_ok (double_of p (snd na)) (snd na)) l = true ->
  exists text, print_list p f l = Ok text /\ defines_all P (known_of l) text.
Proof.
  intros F HP. induction l as [|[name a] l IH]; intros H.
  - exists []. split; [reflexivity|]. exists []. split; [constructor|reflexivity].
  - cbn [forallb] in H. apply andb_true_iff in H as [H1 H2]. cbn [fst snd] in H1. destruct (IH H2) as (t & E & items & FA & ET).
    destruct (dbl_near _ _ H1) as [D N]. destruct (eval_ok (double_of p a) f F D) as (r & EV & R & FL).
    exists (definition_text name (hex r) ++ t). split.
    + cbn [print_list]. unfold print_constant. rewrite EV, E. cbn [bind]. rewrite text_eq. reflexivity.
    + exists (definition_text name (hex r) :: items). split; [|rewrite ET; reflexivity]. cbn [known_of map]. constructor; [|exact FA].
      exists (hex r), r. cbn [fst snd]. split; [reflexivity|]. split; [apply hex_expansion; lia|]. exact (HP _ _ _ H1 (proj1 R) FL).
Qed.
Lemma dbls p : known_p p -> forallb (fun na => dbl_ok (double_of p (snd na)) (snd na)) cst_lst = true.
Proof.
  intros [-> |[-> | -> ]]; vm_compute; reflexivity.
Qed.
Lemma print_near p f : known_p p -> 0 <= f <= 61 ->
  exists text, print_constants p f = Ok text /\ defines_all (near_q f) known_constants text.
Proof.
  intros K F. rewrite <- known_eq. unfold print_constants. apply (print_list_ok p f (near_q f) cst_lst); [exact F| |apply dbls; exact K].
  intros d a r D R FL. apply (floor_near f d); [lia|exact FL|apply dbl_near; exact D].
Qed.
Lemma print_off p f : known_p p -> 0 <= f <= 60 ->
  exists text, print_constants p f = Ok text /\ defines_all off_q known_constants text.
Proof.
  intros K F. rewrite <- known_eq. unfold print_constants. apply (print_list_ok p f off_q cst_lst); [lia| |apply dbls; exact K].
  intros d a r D R FL. apply (floor_off f d); assumption.
Qed.
(** ** numbers.hpp *)
Definition numbers : list (string * (cfg -> res Z)) :=
  [("log2e", log2e_v); ("log10e", log10e_v); ("inv_pi", inv_pi_v); ("inv_sqrtpi", inv_sqrtpi_v); ("ln2", ln2_v); ("ln10", ln10_v);
   ("sqrt2", sqrt2_v); ("sqrt3", sqrt3_v); ("inv_sqrt3", inv_sqrt3_v); ("egamma", egamma_v); ("phi", phi_v)]%string.
Lemma print_numbers p : known_p p -> exists raws,
  print_constants p 61 = Ok (List.concat (map (fun nr => definition_text (fst nr) (hex (snd nr))) raws)) /\
  Forall2 (fun (nr : string * Z) (nk : string * (cfg -> res Z)) =>
    fst nr = fst nk /\ 0 <= snd nr < 2 ^ 64 /\ forall c, snd nk c = from_fixed_num_value c 61 int64 (snd nr)) raws numbers.
Proof.
  intros K. exists [("log2e", 0x2e2a8eca5705fc00); ("log10e", 0xde5bd8a93728700); ("inv_pi", 0xa2f9836e4e44180); ("inv_sqrtpi", 0x120dd750429b6d00);
    ("ln2", 0x162e42fefa39ef00); ("ln10", 0x49aec6eed5545800); ("sqrt2", 0x2d413cccfe779a00); ("sqrt3", 0x376cf5d0b0995400);
    ("inv_sqrt3", 0x1279a74590331c00); ("egamma", 0x12788cfc6fb61900); ("phi", 0x33c6ef372fe95000)]%string.
  split; [destruct K as [-> |[-> | -> ]]; vm_compute; reflexivity|].
  repeat (apply Forall2_cons; [split; [reflexivity|split; [cbn; lia|intros c; reflexivity]]|]). apply Forall2_nil.
Qed.
Lemma print_hex61 p : known_p p -> exists text items, print_constants p 61 = Ok text /\ text = List.concat items /\
  Forall2 (fun item (nk : string * (cfg -> res Z)) => exists hs r,
    item = definition_text (fst nk) hs /\ expansion 16 false hs (inject_Z r) /\ forall c, snd nk c = from_fixed_num_value c 61 int64 r) items numbers.
Proof.
  intros K. destruct (print_numbers p K) as (raws & E & F). eexists _, _. split; [exact E|split; [reflexivity|]].
  revert F. generalize numbers. clear E. induction raws as [|nr raws IH]; intros ks F; inversion F as [|? nk ? r0 H1 H2]; subst; [constructor|].
  cbn [map]. constructor; [|apply IH; exact H2]. destruct H1 as (EN & R & C). exists (hex (snd nr)), (snd nr).
  rewrite EN. split; [reflexivity|split; [apply hex_expansion; exact R|exact C]].
Qed.
