(** Lemmas about numerals (SpecText). *)
From Coq Require Import ZArith Bool Lia List QArith.
From Verif Require Import Spec SpecText BaseLemmas.
Import ListNotations.
Open Scope Z_scope.

Lemma fold_num b ds a : fold_left (fun a d => a * b + d) ds a = a * b ^ Z.of_nat (length ds) + num b ds.
Proof.
  unfold num. revert a. induction ds as [|d ds IH]; intros a; cbn [fold_left length].
  - cbn. lia.
  - rewrite IH. rewrite (IH (0 * b + d)). rewrite Nat2Z.inj_succ, Z.pow_succ_r by lia. ring.
Qed.

Lemma num_cons b d ds : num b (d :: ds) = d * b ^ Z.of_nat (length ds) + num b ds.
Proof. unfold num at 1. cbn [fold_left]. rewrite fold_num. ring. Qed.

Lemma num_app b xs ys : num b (xs ++ ys) = num b xs * b ^ Z.of_nat (length ys) + num b ys.
Proof. unfold num at 1. rewrite fold_left_app. rewrite fold_num. reflexivity. Qed.

Lemma num_snoc b xs d : num b (xs ++ [d]) = num b xs * b + d.
Proof. rewrite num_app. change (num b [d]) with (0 * b + d). change (Z.of_nat (length [d])) with 1. rewrite Z.pow_1_r. ring. Qed.

Lemma num_nonneg b ds : 2 <= b -> is_digits b ds -> 0 <= num b ds < b ^ Z.of_nat (length ds).
Proof.
  intros B H. induction H as [|d ds Hd H IH].
  - cbn. lia.
  - rewrite num_cons. cbn [length]. rewrite Nat2Z.inj_succ, Z.pow_succ_r by lia.
    set (p := b ^ Z.of_nat (length ds)) in *. nia.
Qed.

Lemma pow_len_pos b (ds : list Z) : 2 <= b -> 0 < b ^ Z.of_nat (length ds).
Proof. intros. apply Z.pow_pos_nonneg; lia. Qed.

(** a prefix denotes at most the whole *)
Lemma num_prefix_le b xs ys : 2 <= b -> is_digits b xs -> is_digits b ys -> num b xs <= num b (xs ++ ys).
Proof.
  intros B HX HY. rewrite num_app. pose proof (num_nonneg b xs B HX). pose proof (num_nonneg b ys B HY).
  pose proof (pow_len_pos b ys B). nia.
Qed.

Lemma is_digits_app b xs ys : is_digits b (xs ++ ys) <-> is_digits b xs /\ is_digits b ys.
Proof. unfold is_digits. rewrite Forall_app. tauto. Qed.

Lemma digit_char_inj up d e : 0 <= d < 16 -> 0 <= e < 16 -> digit_char up d = digit_char up e -> d = e.
Proof.
  intros Hd He. unfold digit_char.
  destruct (Z.ltb_spec d 10), (Z.ltb_spec e 10); destruct up; lia.
Qed.
Lemma digit_char_not up d : 0 <= d < 16 -> digit_char up d <> 46 /\ digit_char up d <> 45.
Proof.
  intros Hd. unfold digit_char. destruct (Z.ltb_spec d 10); destruct up; lia.
Qed.
Lemma map_digit_inj up b xs ys : b <= 16 -> is_digits b xs -> is_digits b ys ->
  map (digit_char up) xs = map (digit_char up) ys -> xs = ys.
Proof.
  intros B HX. revert ys. induction HX as [|x xs Hx HX IH]; intros ys HY E; destruct ys as [|y ys]; try discriminate; auto.
  inversion HY; subst. cbn in E. injection E as E1 E2. f_equal; auto.
  apply (digit_char_inj up); auto; lia.
Qed.

(** the text of a numeral determines it *)
Lemma render_inj up b neg ip fp neg' ip' fp' : b <= 16 ->
  is_digits b ip -> is_digits b fp -> is_digits b ip' -> is_digits b fp' -> ip <> [] -> ip' <> [] ->
  render up neg ip fp = render up neg' ip' fp' -> neg = neg' /\ ip = ip' /\ fp = fp'.
Proof.
  intros B HI HF HI' HF' NI NI' E. unfold render in E.
  assert (N : forall n l, is_digits b l -> l <> [] -> forall t,
     hd 0 ((if n : bool then [45] else []) ++ map (digit_char up) l ++ t) = 45 -> n = true).
  { intros n l Hl Nl t. destruct n; auto. destruct l as [|d l]; [congruence|]. cbn. intros Hd.
    inversion Hl; subst. exfalso. apply (proj2 (digit_char_not up d ltac:(lia))); exact Hd. }
  assert (neg = neg').
  { pose proof (N neg ip HI NI (match fp with [] => [] | _ => 46 :: map (digit_char up) fp end)) as N1.
    pose proof (N neg' ip' HI' NI' (match fp' with [] => [] | _ => 46 :: map (digit_char up) fp' end)) as N2.
    rewrite E in N1. destruct neg; [symmetry; apply N2; rewrite <- E; reflexivity|].
    destruct neg'; auto. }
  subst neg'. apply app_inv_head in E. split; [reflexivity|]. clear N NI NI'.
  revert ip' HI' E. induction HI as [|d ip Hd HI IH]; intros ip' HI' E.
  - destruct ip' as [|d' ip'].
    + split; [reflexivity|]. cbn in E. destruct fp, fp'; try discriminate; auto.
      injection E as E1 E2. apply (map_digit_inj up b (_ :: _) (_ :: _)); auto. cbn. congruence.
    + inversion HI'; subst. exfalso. cbn [map app] in E. destruct fp; try discriminate.
      injection E as E1 E2. apply (proj1 (digit_char_not up d' ltac:(lia))); congruence.
  - destruct ip' as [|d' ip'].
    + exfalso. cbn [map app] in E. destruct fp'; try discriminate.
      injection E as E1 E2. apply (proj1 (digit_char_not up d ltac:(lia))); congruence.
    + inversion HI'; subst. cbn [map app] in E. injection E as E1 E2.
      apply digit_char_inj in E1; [|lia|lia]. subst d'.
      destruct (IH ip' H2 E2) as [-> ->]. auto.
Qed.

Lemma expansion_unique b up s q q' : b <= 16 -> expansion b up s q -> expansion b up s q' -> (q == q')%Q.
Proof.
  intros B (n & ip & fp & H1 & H2 & H3 & H4 & _ & H6 & _) (n' & ip' & fp' & G1 & G2 & G3 & G4 & _ & G6 & _).
  destruct (render_inj up b n ip fp n' ip' fp') as (-> & -> & ->); auto.
  - destruct H6 as [->|(d & r & -> & _)]; discriminate.
  - destruct G6 as [->|(d & r & -> & _)]; discriminate.
  - congruence.
  - rewrite <- H4, <- G4. reflexivity.
Qed.
