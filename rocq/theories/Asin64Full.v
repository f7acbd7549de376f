(** asin and acos of fixed64 on the whole of [-1, 1]: no undefined behaviour.  Next to 1 and -1 the polynomial of atan wraps, so each of
    these arguments is computed, with Coq's 63-bit integers; the computation is proved to be that of the model. *)
From Coq Require Import ZArith Reals Lra Lia Bool Uint63.
From Verif Require Import Base Fixed Math Spec SpecReal BaseLemmas FixedLemmas MathProofs SqrtProofs NewtonProofs StdProofs AtanProofs AsinProofs Asin64 RealThms SymProofs.
Local Open Scope uint63_scope.

(** ** the computation for the argument 1 - k / 2^32 *)
Definition start (d : int) : int :=
  if 4194304 <=? d then (if 8388608 <=? d then 201326592 else 134217728)
  else if 2097152 <=? d then 100663296 else if 1048576 <=? d then 67108864
  else if 524288 <=? d then 50331648 else if 262144 <=? d then 33554432
  else if 131072 <=? d then 25165824 else if 65536 <=? d then 16777216
  else if 32768 <=? d then 12582912 else if 16384 <=? d then 8388608
  else if 8192 <=? d then 6291456 else if 4096 <=? d then 4194304
  else if 2048 <=? d then 3145728 else if 1024 <=? d then 2097152
  else if 512 <=? d then 1572864 else if 256 <=? d then 1048576
  else if 128 <=? d then 786432 else if 64 <=? d then 524288
  else if 32 <=? d then 393216 else if 16 <=? d then 262144
  else if 8 <=? d then 196608 else if 4 <=? d then 131072 else 65536.
(** the square root of [d]; 0 if it cannot be computed this way *)
Fixpoint root (n : nat) (d D x : int) : int :=
  match n with
  | O => x
  | S n =>
      let x := (x + D / x) >> 1 in
      if (x - 1) <? 2147483647 then
        let p := (x * x) >> 32 in
        if (if p <=? d then d - p else p - d) <? 327680 then x else root n d D x
      else 0
  end.
(** a value v is (s, l) with v = l - (if s then 2^63 else 0); v * y / 2^32 is passed to [k] *)
Definition mulk {A} (s : bool) (l y : int) (k : bool -> int -> A) : A :=
  let p := mulc l y in
  let h := if s then fst p - y else fst p in
  k (negb (is_even (h >> 32))) ((h << 31) + (snd p >> 32)).
Definition addk (s : bool) (l b : int) (k : bool -> int -> bool) : bool :=
  let t := l + b in
  if t <? l then (if s then k false t else false) else k s t.
Definition subk (s : bool) (l b : int) (k : bool -> int -> bool) : bool :=
  let t := l - b in
  if l <? b then (if s then false else k true t) else k s t.
Definition good (k : int) : bool :=
  let d := (k << 1) - ((k * k) >> 32) in
  let q := root 5 d (d << 32) (start d) in
  if q =? 0 then false else
  let n := (4294967296 - k) << 31 in
  let A := n / q in
  let Y := (A << 1) + (if q <=? ((n - A * q) << 1) then 1 else 0) in
  mulk false Y Y (fun s x2 => if s then false else
  mulk true 9223372036655074969 x2 (fun s r =>
  addk s r 684249364 (fun s r =>
  mulk s r x2 (fun s r =>
  subk s r 1407129056 (fun s r =>
  mulk s r x2 (fun s r =>
  mulk s r Y (fun s r =>
  addk s r Y (fun s r => if s then 17179869184 <=? r else r <? 9223372019674906624)))))))).
Fixpoint all_good (n : nat) (k w : int) : bool :=
  match n with O => good k | S n => if all_good n k (w >> 1) then all_good n (k + w) (w >> 1) else false end.

(** ** it is the computation of the model *)
Local Open Scope Z_scope.
Local Notation phi x := (to_Z x).
Definition sval (s : bool) (l : int) : Z := phi l - (if s then 2 ^ 63 else 0).
Lemma B l : 0 <= phi l < 2 ^ 63. Proof. exact (to_Z_bounded l). Qed.
Lemma sval_range s l : - 2 ^ 63 <= sval s l < 2 ^ 63.
Proof. unfold sval. pose proof (B l). destruct s; lia. Qed.
Lemma sval_valid s l : valid F64 (sval s l) = true. Proof. apply i64_r. apply sval_range. Qed.
Lemma mulk_spec s l y : exists s' l', (forall A (k : bool -> int -> A), mulk s l y k = k s' l') /\
  fx_mul F64 (sval s l) (phi y) = Ok (sval s' l').
Proof.
  unfold mulk. set (p := mulc l y). set (h := if s then (fst p - y)%uint63 else fst p).
  exists (negb (is_even (h >> 32))), ((h << 31) + (snd p >> 32))%uint63. split; [reflexivity|].
  rewrite fx_mul_eq; try reflexivity; [|apply sval_valid|apply i64_r; pose proof (B y); lia].
  f_equal. change (ct F64) with int64. change (cf F64) with 32.
  pose proof (mulc_spec l y) as M. fold p in M. change wB with (2 ^ 63) in M.
  pose proof (B (snd p)) as BS. pose proof (B h) as BH. pose proof (B y) as BY.
  assert (H : exists e, phi h = phi (fst p) - (if s then phi y else 0) + e * 2 ^ 63).
  { unfold h. destruct s; [|exists 0; lia]. rewrite sub_spec. change wB with (2 ^ 63).
    exists (- ((phi (fst p) - phi y) / 2 ^ 63)). pose proof (Z.div_mod (phi (fst p) - phi y) (2 ^ 63) ltac:(lia)). lia. }
  destruct H as (e & H).
  assert (Z : sval s l * phi y / 2 ^ 32 = (phi h - e * 2 ^ 63) * 2 ^ 31 + phi (snd p) / 2 ^ 32).
  { unfold sval. rewrite Z.mul_sub_distr_r, M, H.
    replace (phi (fst p) * 2 ^ 63 + phi (snd p) - (if s then 2 ^ 63 else 0) * phi y)
      with (phi (snd p) + ((phi (fst p) - (if s then phi y else 0)) * 2 ^ 31) * 2 ^ 32) by (destruct s; ring).
    rewrite Z.div_add by lia. ring. }
  rewrite Z.
  (* the parts of h *)
  pose proof (Z.div_mod (phi h) (2 ^ 32) ltac:(lia)) as D. pose proof (Z.mod_pos_bound (phi h) (2 ^ 32) ltac:(lia)) as DB.
  assert (L : phi (snd p >> 32)%uint63 = phi (snd p) / 2 ^ 32) by (rewrite lsr_spec; reflexivity).
  assert (LB : 0 <= phi (snd p) / 2 ^ 32 < 2 ^ 31) by (split; [apply Z.div_pos; lia|apply Z.div_lt_upper_bound; lia]).
  assert (H31 : phi (h << 31)%uint63 = (phi h mod 2 ^ 32) * 2 ^ 31).
  { rewrite lsl_spec. change (2 ^ phi 31%uint63) with (2 ^ 31). change wB with (2 ^ 32 * 2 ^ 31). rewrite Z.mul_mod_distr_r by lia. reflexivity. }
  assert (LO : phi ((h << 31) + (snd p >> 32))%uint63 = (phi h mod 2 ^ 32) * 2 ^ 31 + phi (snd p) / 2 ^ 32).
  { rewrite add_spec, H31, L. apply Z.mod_small. change wB with (2 ^ 63). lia. }
  pose proof (is_even_spec (h >> 32)%uint63) as EV. rewrite lsr_spec in EV. change (2 ^ phi 32%uint63) with (2 ^ 32) in EV.
  pose proof (Z.div_mod (phi h / 2 ^ 32) 2 ltac:(lia)) as D2.
  apply (wrap_unique int64 _ _ (- (phi h / 2 ^ 32 / 2 - e * 2 ^ 30 + (if is_even (h >> 32) then 0 else 1)))); [reflexivity| |].
  - apply sval_valid.
  - change (bits int64) with 64. unfold sval. rewrite LO. destruct (is_even (h >> 32)); cbn [negb] in *; lia.
Qed.
Lemma addk_spec s l b k : addk s l b k = true ->
  exists s' l', k s' l' = true /\ sval s l + phi b = sval s' l' /\ fx_add F64 (sval s l) (phi b) = Ok (sval s' l').
Proof.
  unfold addk. pose proof (B l) as BL. pose proof (B b) as BB. pose proof (add_spec l b) as A. change wB with (2 ^ 63) in A.
  pose proof (Z.div_mod (phi l + phi b) (2 ^ 63) ltac:(lia)) as D. pose proof (B (l + b)%uint63) as BT.
  assert (E : forall s' l', sval s l + phi b = sval s' l' -> fx_add F64 (sval s l) (phi b) = Ok (sval s' l')).
  { intros s' l' H. rewrite fx_add_eq; try reflexivity; [|apply sval_valid|apply i64_r; lia]. rewrite H. apply ovf_valid; [reflexivity|apply sval_valid]. }
  destruct (ltbP (l + b) l) as [C|C].
  - destruct s; [|discriminate]. intros K. exists false, (l + b)%uint63. split; [exact K|].
    assert (H : sval true l + phi b = sval false (l + b)%uint63).
    { unfold sval. assert ((phi l + phi b) / 2 ^ 63 = 1); [|lia].
      apply Z.le_antisymm; [apply Z.lt_succ_r; apply Z.div_lt_upper_bound; lia|]. 
      destruct (Z.eq_dec ((phi l + phi b) / 2 ^ 63) 0) as [X|X]; [|pose proof (Z.div_pos (phi l + phi b) (2 ^ 63)); lia]. lia. }
    split; [exact H|apply E; exact H].
  - intros K. exists s, (l + b)%uint63. split; [exact K|].
    assert (H : sval s l + phi b = sval s (l + b)%uint63).
    { unfold sval. assert ((phi l + phi b) / 2 ^ 63 = 0); [|lia].
      assert ((phi l + phi b) / 2 ^ 63 < 2) by (apply Z.div_lt_upper_bound; lia).
      pose proof (Z.div_pos (phi l + phi b) (2 ^ 63)). lia. }
    split; [exact H|apply E; exact H].
Qed.
Lemma subk_spec s l b k : subk s l b k = true ->
  exists s' l', k s' l' = true /\ fx_sub F64 (sval s l) (phi b) = Ok (sval s' l').
Proof.
  unfold subk. pose proof (B l) as BL. pose proof (B b) as BB. pose proof (sub_spec l b) as A. change wB with (2 ^ 63) in A.
  assert (E : forall s' l', sval s l - phi b = sval s' l' -> fx_sub F64 (sval s l) (phi b) = Ok (sval s' l')).
  { intros s' l' H. rewrite fx_sub_eq; try reflexivity; [|apply sval_valid|apply i64_r; lia]. rewrite H. apply ovf_valid; [reflexivity|apply sval_valid]. }
  destruct (ltbP l b) as [C|C].
  - destruct s; [discriminate|]. intros K. exists true, (l - b)%uint63. split; [exact K|]. apply E. unfold sval. rewrite A.
    assert (M : (phi l - phi b) mod 2 ^ 63 = phi l - phi b + 2 ^ 63)
      by (rewrite <- (Z.mod_add _ 1) by lia; rewrite Z.mod_small by lia; lia).
    rewrite M. lia.
  - intros K. exists s, (l - b)%uint63. split; [exact K|]. apply E. unfold sval. rewrite A, Z.mod_small by lia. lia.
Qed.
(** the square root *)
Lemma root_spec n d D : 0 < phi d < 2 ^ 24 -> phi D = phi d * 2 ^ 32 -> forall x, 0 < phi x < 2 ^ 31 -> root n d D x <> 0%uint63 ->
  sqrt_newton n F64 (phi d) eps64 (phi x) = Ok (phi (root n d D x)) /\ 0 < phi (root n d D x) < 2 ^ 31.
Proof.
  intros Hd HD. induction n as [|n IH]; intros x Hx; [intros _; split; [reflexivity|exact Hx]|].
  cbn [root]. set (x1 := ((x + D / x) >> 1)%uint63).
  assert (Q : 0 <= phi D / phi x <= phi D) by (split; [apply Z.div_pos; lia|apply Z.div_le_upper_bound; nia]).
  assert (E1 : phi x1 = nstep (phi d * 2 ^ 32) (phi x)).
  { unfold x1, nstep. rewrite lsr_spec, add_spec, div_spec, Z.mod_small; [rewrite HD; reflexivity|]. change wB with (2 ^ 63). lia. }
  destruct (ltbP (x1 - 1) 2147483647) as [C|C]; [|congruence].
  assert (X1 : 0 < phi x1 < 2 ^ 31).
  { change (phi 2147483647%uint63) with 2147483647 in C. rewrite sub_spec in C. change (phi 1%uint63) with 1 in C. change wB with (2 ^ 63) in C.
    pose proof (B x1). destruct (Z.eq_dec (phi x1) 0) as [Z0|NZ]; [rewrite Z0 in C; exfalso; vm_compute in C; discriminate C|].
    rewrite Z.mod_small in C by lia. lia. }
  rewrite newton_step; [|lia|lia|rewrite <- HD; lia|rewrite <- E1; change (2 ^ 95) with (2 ^ 33 * 2 ^ 62); nia]. rewrite <- E1.
  assert (P : phi ((x1 * x1) >> 32)%uint63 = phi x1 * phi x1 / 2 ^ 32).
  { rewrite lsr_spec, mul_spec, Z.mod_small; [reflexivity|]. change wB with (2 ^ 63). nia. }
  set (p := ((x1 * x1) >> 32)%uint63) in *. pose proof (B p) as BP.
  assert (F : phi (if (p <=? d)%uint63 then (d - p)%uint63 else (p - d)%uint63) = far (phi d) (phi x1)).
  { unfold far. rewrite <- P. destruct (lebP p d) as [L|L]; rewrite sub_spec, Z.mod_small by (change wB with (2 ^ 63); lia); lia. }
  destruct (ltbP (if (p <=? d)%uint63 then (d - p)%uint63 else (p - d)%uint63) 327680) as [N|N]; rewrite F in N;
    change (phi 327680%uint63) with eps64 in N.
  - replace (far (phi d) (phi x1) <? eps64) with true by (symmetry; apply Z.ltb_lt; exact N). intros _. split; [reflexivity|exact X1].
  - replace (far (phi d) (phi x1) <? eps64) with false by (symmetry; apply Z.ltb_ge; lia). intros R. apply IH; assumption.
Qed.
Lemma start_spec d : 0 < phi d < 2 ^ 24 -> get_sqrt_init_value F64 (Z.log2 (phi d)) = Ok (phi (start d)) /\ 0 < phi (start d) < 2 ^ 31.
Proof.
  intros H. unfold start.
  assert (L : forall e, 0 <= e -> 2 ^ e <= phi d < 2 ^ (e + 1) -> Z.log2 (phi d) = e) by (intros; apply Z.log2_unique; assumption).
  Ltac here L e := rewrite (L e) by lia; split; [vm_compute; reflexivity|split; reflexivity].
  Ltac next := match goal with |- context [if (?a <=? ?b)%uint63 then _ else _] =>
    let C := fresh "C" in destruct (lebP a b) as [C|C]; let n := eval vm_compute in (phi a) in change (phi a) with n in C end.
  next; [next; [here L 23|here L 22]|].
  next; [here L 21|]. next; [here L 20|]. next; [here L 19|]. next; [here L 18|]. next; [here L 17|]. next; [here L 16|].
  next; [here L 15|]. next; [here L 14|]. next; [here L 13|]. next; [here L 12|]. next; [here L 11|]. next; [here L 10|].
  next; [here L 9|]. next; [here L 8|]. next; [here L 7|]. next; [here L 6|]. next; [here L 5|]. next; [here L 4|].
  next; [here L 3|]. next; [here L 2|].
  destruct (Z.eq_dec (phi d) 1); [here L 0|here L 1].
Qed.
Lemma sqrt_spec64 d : 0 < phi d < 2 ^ 24 -> let q := root 5 d (d << 32)%uint63 (start d) in q <> 0%uint63 ->
  fx_sqrt F64 (phi d) = Ok (phi q) /\ 0 < phi q < 2 ^ 31.
Proof.
  intros H q NZ. destruct (start_spec d H) as (S1 & S2).
  assert (D : phi (d << 32)%uint63 = phi d * 2 ^ 32).
  { rewrite lsl_spec. change (2 ^ phi 32%uint63) with (2 ^ 32). apply Z.mod_small. change wB with (2 ^ 63). lia. }
  destruct (root_spec 5 d _ H D (start d) S2 NZ) as (R1 & R2). fold q in R1, R2. split; [|exact R2].
  unfold fx_sqrt. change (sgn (ct F64) && (bits (ct F64) =? 32)) with false. cbv iota. unfold sqrt_generic.
  change (fx_of_int F64 0) with (@Ok Z 0). cbn [bind].
  assert (V : valid F64 (phi d) = true) by (apply i64_r; lia).
  rewrite f64_lt by (auto; reflexivity). replace (phi d <? 0) with false by (symmetry; apply Z.ltb_ge; lia).
  rewrite (s_eq F64 s64) by (auto; reflexivity). replace (phi d =? 0) with false by (symmetry; apply Z.eqb_neq; lia).
  change (ct F64) with int64. destruct (find_msb_ok (phi d) ltac:(lia)) as (M & _). rewrite M. cbn [bind]. rewrite S1. cbn [bind].
  rewrite f64_eps. cbn [bind]. exact R1.
Qed.
Lemma good_spec k : 0 < phi k < 2 ^ 23 -> good k = true ->
  exists r, fx_asin F64 (4294967296 - phi k) = Ok r /\ - 2 ^ 63 + 17179869184 <= r < 2 ^ 63 - 17179869184.
Proof.
  intros K. unfold good. set (d := ((k << 1) - ((k * k) >> 32))%uint63). set (q := root 5 d (d << 32)%uint63 (start d)).
  destruct (Uint63.eqb q 0) eqn:Q0; [discriminate|]. apply eqb_false_spec in Q0.
  set (n := ((4294967296 - k) << 31)%uint63). set (A := (n / q)%uint63).
  set (Y := ((A << 1) + (if q <=? ((n - A * q) << 1) then 1 else 0))%uint63).
  (* the argument of the square root *)
  assert (KK : phi ((k * k) >> 32)%uint63 = phi k * phi k / 2 ^ 32).
  { rewrite lsr_spec, mul_spec, Z.mod_small; [reflexivity|]. change wB with (2 ^ 63). nia. }
  assert (KB : 0 <= phi k * phi k / 2 ^ 32 < phi k) by (split; [apply Z.div_pos; nia|apply Z.div_lt_upper_bound; nia]).
  assert (K1 : phi (k << 1)%uint63 = 2 * phi k).
  { rewrite lsl_spec. change (2 ^ phi 1%uint63) with 2. rewrite Z.mod_small; [lia|]. change wB with (2 ^ 63). lia. }
  assert (D : phi d = 2 * phi k - phi k * phi k / 2 ^ 32).
  { unfold d. rewrite sub_spec, K1, KK. apply Z.mod_small. change wB with (2 ^ 63). lia. }
  assert (DD : 4294967296 - (4294967296 - phi k) * (4294967296 - phi k) / M64 = phi d).
  { rewrite D. replace ((4294967296 - phi k) * (4294967296 - phi k)) with (phi k * phi k + (4294967296 - 2 * phi k) * M64) by ring.
    rewrite Z.div_add by lia. change (2 ^ 32) with M64. lia. }
  assert (DB : 0 < phi d < 2 ^ 24) by lia.
  destruct (sqrt_spec64 d DB Q0) as (SQ & SB). fold q in SQ, SB.
  (* the argument of atan *)
  assert (N : phi n = (4294967296 - phi k) * 2 ^ 31).
  { unfold n. rewrite lsl_spec. change (2 ^ phi 31%uint63) with (2 ^ 31). rewrite sub_spec. change (phi 4294967296%uint63) with 4294967296.
    change wB with (2 ^ 63). rewrite (Z.mod_small (4294967296 - phi k)) by lia. apply Z.mod_small. lia. }
  assert (EA : phi A = phi n / phi q) by (apply div_spec).
  pose proof (Z.div_mod (phi n) (phi q) ltac:(lia)) as DM. pose proof (Z.mod_pos_bound (phi n) (phi q) ltac:(lia)) as MB.
  assert (A2 : phi (n - A * q)%uint63 = phi n mod phi q).
  { pose proof (B n). pose proof (B A). rewrite sub_spec, mul_spec. change wB with (2 ^ 63). rewrite (Z.mod_small (phi A * phi q)) by nia.
    rewrite Z.mod_small by nia. rewrite EA. lia. }
  assert (QL : 65536 <= phi q).
  { destruct (sqrt64_main (phi d)) as (r & E & R & _); [unfold sqrt64_limit; lia|]. rewrite SQ in E. injection E as <-. lia. }
  assert (AB : 0 <= phi A < 2 ^ 47) by (rewrite EA; split; [apply Z.div_pos; lia|apply Z.div_lt_upper_bound; nia]).
  assert (A1 : phi (A << 1)%uint63 = 2 * phi A).
  { rewrite lsl_spec. change (2 ^ phi 1%uint63) with 2. rewrite Z.mod_small; [lia|]. change wB with (2 ^ 63). lia. }
  assert (R1 : phi ((n - A * q) << 1)%uint63 = 2 * (phi n mod phi q)).
  { rewrite lsl_spec, A2. change (2 ^ phi 1%uint63) with 2. rewrite Z.mod_small; [lia|]. change wB with (2 ^ 63). lia. }
  assert (EY : phi Y = (4294967296 - phi k) * M64 / phi q).
  { unfold Y. rewrite add_spec, A1. change wB with (2 ^ 63).
    replace ((4294967296 - phi k) * M64) with (2 * phi n) by (rewrite N; change M64 with (2 * 2 ^ 31); ring).
    destruct (lebP q ((n - A * q) << 1)) as [C|C]; rewrite R1 in C.
    - change (phi 1%uint63) with 1. rewrite Z.mod_small by lia. apply Z.div_unique with (r := 2 * (phi n mod phi q) - phi q); [lia|]. rewrite EA. lia.
    - change (phi 0%uint63) with 0. rewrite Z.mod_small by lia. apply Z.div_unique with (r := 2 * (phi n mod phi q)); [lia|]. rewrite EA. lia. }
  assert (YB : 0 <= phi Y < 2 ^ 48) by (rewrite EY; split; [apply Z.div_pos; nia|apply Z.div_lt_upper_bound; nia]).
  clearbody Y. clear R1 A1 AB A2 DM MB EA N. intros G.
  (* asin is atan of Y *)
  assert (AS : fx_asin F64 (4294967296 - phi k) = atan_poly F64 (phi Y)).
  { rewrite (asin_in F64 s64) by (try (apply v64); change (2 ^ cf F64) with M64; lia). change (2 ^ cf F64) with M64.
    assert (PB : 0 <= (4294967296 - phi k) * (4294967296 - phi k) / M64 <= M64)
      by (split; [apply Z.div_pos; [apply Z.square_nonneg|reflexivity]|clear - DD DB; set (z := (4294967296 - phi k) * (4294967296 - phi k) / M64) in *; clearbody z; lia]).
    rewrite (s_mul F64 s64) by (apply v64; change (2 ^ cf F64) with M64; lia). change (2 ^ cf F64) with M64. cbn [bind].
    rewrite (s_sub F64 s64) by (apply v64; lia). cbn [bind]. rewrite DD, SQ. cbn [bind].
    rewrite (s_div F64 s64); [|apply v64; lia|apply v64; lia|lia|].
    - change (2 ^ cf F64) with M64. rewrite Z.quot_div_nonneg by lia. rewrite <- EY. cbn [bind]. unfold fx_atan.
      assert (VY : valid F64 (phi Y) = true) by (apply i64_r; lia).
      rewrite (s_abs F64 s64) by (rewrite ?Z.abs_eq by lia; exact VY). rewrite Z.abs_eq by lia. cbn [bind].
      destruct (sign_test F64 (phi Y) s64 VY) as (m & EK & BK). destruct (atan_poly F64 (phi Y)); cbn [bind]; try reflexivity.
      rewrite EK. cbn [bind]. rewrite BK. replace (phi Y <? 0) with false by (symmetry; apply Z.ltb_ge; lia). reflexivity.
    - change (2 ^ cf F64) with M64. rewrite Z.quot_div_nonneg by lia. rewrite <- EY. apply i64_r. lia. }
  rewrite AS. unfold atan_poly.
  change (atan_a F64) with (@Ok Z (-199700839)). change (atan_b F64) with (@Ok Z 684249364). change (atan_c F64) with (@Ok Z 1407129056). cbn [bind].
  assert (S0 : forall l, sval false l = phi l) by (intros; unfold sval; lia).
  destruct (mulk_spec false Y Y) as (s1 & x2 & M1 & E1). rewrite M1 in G. rewrite S0 in E1. rewrite E1. cbn [bind]. destruct s1; [discriminate|].
  destruct (mulk_spec true 9223372036655074969 x2) as (s2 & r2 & M2 & E2). rewrite M2 in G.
  change (sval true 9223372036655074969) with (-199700839) in E2. rewrite S0. rewrite E2. cbn [bind].
  apply addk_spec in G. destruct G as (s3 & r3 & G & _ & E3). change (phi 684249364%uint63) with 684249364 in E3. rewrite E3. cbn [bind].
  destruct (mulk_spec s3 r3 x2) as (s4 & r4 & M4 & E4). rewrite M4 in G. rewrite E4. cbn [bind].
  apply subk_spec in G. destruct G as (s5 & r5 & G & E5). change (phi 1407129056%uint63) with 1407129056 in E5. rewrite E5. cbn [bind].
  destruct (mulk_spec s5 r5 x2) as (s6 & r6 & M6 & E6). rewrite M6 in G. rewrite E6. cbn [bind].
  destruct (mulk_spec s6 r6 Y) as (s7 & r7 & M7 & E7). rewrite M7 in G. rewrite E7. cbn [bind].
  apply addk_spec in G. destruct G as (s8 & r8 & G & _ & E8). exists (sval s8 r8). split; [exact E8|].
  pose proof (B r8) as B8. unfold sval. destruct s8.
  - apply leb_spec in G. change (phi 17179869184%uint63) with 17179869184 in G. lia.
  - apply ltb_spec in G. change (phi 9223372019674906624%uint63) with 9223372019674906624 in G. lia.
Qed.
Lemma all_good_spec n : forall k w, (n <= 24)%nat -> phi w = 2 ^ Z.of_nat n / 2 -> phi k + 2 ^ Z.of_nat n <= 2 ^ 40 -> all_good n k w = true ->
  forall j, phi k <= j < phi k + 2 ^ Z.of_nat n -> exists i, phi i = j /\ good i = true.
Proof.
  induction n as [|n IH]; intros k w N W K G j J.
  - exists k. split; [change (2 ^ Z.of_nat 0) with 1 in J; lia|exact G].
  - cbn [all_good] in G. rewrite Nat2Z.inj_succ, Z.pow_succ_r in W, J, K by lia. set (P := 2 ^ Z.of_nat n) in *.
    assert (PB : 0 < P <= 2 ^ 24) by (unfold P; split; [apply Z.pow_pos_nonneg; lia|apply Z.pow_le_mono_r; lia]).
    rewrite Z.mul_comm, Z.div_mul in W by lia.
    assert (W2 : phi (w >> 1)%uint63 = P / 2) by (rewrite lsr_spec, W; reflexivity).
    assert (KW : phi (k + w)%uint63 = phi k + P) by (rewrite add_spec, W; apply Z.mod_small; change wB with (2 ^ 63); pose proof (B k); lia).
    destruct (all_good n k (w >> 1)) eqn:G1; [|discriminate].
    destruct (Z.lt_ge_cases j (phi k + P)) as [L|L].
    + apply (IH k (w >> 1)%uint63); auto; lia.
    + apply (IH (k + w)%uint63 (w >> 1)%uint63); auto; try lia.
Qed.
Lemma checked_low : all_good 21 1 1048576 = true. Proof. vm_compute. reflexivity. Qed.
Lemma checked_high : all_good 21 2097153 1048576 = true. Proof. vm_compute. reflexivity. Qed.
Lemma checked_rest : all_good 17 4194305 65536 = true. Proof. vm_compute. reflexivity. Qed.
Lemma near_one k : 0 < k <= 4294968 ->
  exists r, fx_asin F64 (4294967296 - k) = Ok r /\ - 2 ^ 63 + 17179869184 <= r < 2 ^ 63 - 17179869184.
Proof.
  intros K.
  assert (G : exists i, phi i = k /\ good i = true).
  { destruct (Z.lt_ge_cases k 2097153) as [L|L]; [|destruct (Z.lt_ge_cases k 4194305) as [L'|L']].
    - apply (all_good_spec 21 1%uint63 1048576%uint63); try (exact checked_low); try reflexivity; try lia; try (change (phi 1%uint63) with 1; change (2 ^ Z.of_nat 21) with 2097152; lia).
    - apply (all_good_spec 21 2097153%uint63 1048576%uint63); try (exact checked_high); try reflexivity; try lia; try (change (phi 2097153%uint63) with 2097153; change (2 ^ Z.of_nat 21) with 2097152; lia).
    - apply (all_good_spec 17 4194305%uint63 65536%uint63); try (exact checked_rest); try reflexivity; try lia; try (change (phi 4194305%uint63) with 4194305; change (2 ^ Z.of_nat 17) with 131072; lia). }
  destruct G as (i & <- & G). apply good_spec; [lia|exact G].
Qed.
Lemma far_from_one m : Z.abs m <= 4290672328 -> exists r, fx_asin F64 m = Ok r /\ Z.abs r <= 1800000000 * M64.
Proof.
  intros Lm.
  assert (P : 0 <= m * m / M64 <= 4286381656).
  { split; [apply Z.div_pos; nia|]. apply Z.lt_succ_r. apply Z.div_lt_upper_bound; nia. }
  set (d := M64 - m * m / M64) in *.
  assert (Hd : 0 < d < sqrt64_limit) by (unfold d, sqrt64_limit; lia).
  destruct (sqrt64_main d Hd) as (s & E & R & F & _ & _ & _). apply far_sq in F. unfold eps64 in F. change (2 ^ 32) with M64 in *.
  assert (S1 : 188000000 < s <= 2 * M64) by (unfold d in *; nia).
  assert (QB : Z.abs (Z.quot (m * M64) s) <= 23 * M64).
  { rewrite <- Z.quot_abs by lia. rewrite (Z.abs_eq s) by lia. apply Z.quot_le_upper_bound; nia. }
  destruct (atan64_def _ QB) as (r & ER & BR). exists r. split; [|exact BR].
  rewrite (asin_in F64 s64) by (try (apply v64); change (2 ^ cf F64) with M64; lia). change (2 ^ cf F64) with M64.
  rewrite (s_mul F64 s64) by (apply v64; change (2 ^ cf F64) with M64; lia). change (2 ^ cf F64) with M64. cbn [bind].
  rewrite (s_sub F64 s64) by (apply v64; lia). cbn [bind]. fold d. rewrite E. cbn [bind].
  rewrite (s_div F64 s64) by (try (apply v64); change (2 ^ cf F64) with M64; lia). change (2 ^ cf F64) with M64. cbn [bind]. exact ER.
Qed.
Lemma asin64_pos m : 0 <= m <= M64 -> exists r, fx_asin F64 m = Ok r /\ - 2 ^ 63 + 17179869184 <= r < 2 ^ 63 - 17179869184.
Proof.
  intros H. destruct (Z.le_gt_cases m 4290672328) as [L|L].
  - destruct (far_from_one m ltac:(lia)) as (r & E & R). exists r. split; [exact E|]. lia.
  - destruct (Z.eq_dec m M64) as [-> |N]; [eexists; split; [vm_compute; reflexivity|lia]|].
    destruct (near_one (4294967296 - m) ltac:(lia)) as (r & E & R). exists r. split; [|exact R].
    replace (4294967296 - (4294967296 - m)) with m in E by lia. exact E.
Qed.
Lemma asin64_all m : Z.abs m <= M64 -> exists r, fx_asin F64 m = Ok r /\ fx_asin F64 (- m) = Ok (- r) /\ Z.abs r <= 2 ^ 63 - 17179869184.
Proof.
  intros H. destruct (asin64_pos (Z.abs m) ltac:(lia)) as (r & E & R).
  assert (O : fx_asin F64 (- Z.abs m) = Ok (- r)).
  { rewrite asin_odd64_all by lia. rewrite E. cbn [bind]. apply (s_neg F64 s64); apply i64_r; lia. }
  destruct (Z.le_gt_cases 0 m) as [L|L].
  - rewrite Z.abs_eq in * by lia. exists r. split; [exact E|]. split; [exact O|lia].
  - rewrite Z.abs_neq in * by lia. rewrite Z.opp_involutive in O. exists (- r). split; [exact O|]. split; [rewrite Z.opp_involutive; exact E|lia].
Qed.
Lemma acos64_all' m : Z.abs m < M64 -> exists r, fx_asin F64 m = Ok r /\ fx_acos F64 m = Ok (6746518852 - r) /\ Z.abs r <= 2 ^ 63 - 17179869184.
Proof.
  intros H. destruct (asin64_all m ltac:(lia)) as (r & E & _ & R). exists r. split; [exact E|]. split; [|exact R].
  destruct (Z.eq_dec m 0) as [->|N]; [vm_compute in E; injection E as <-; vm_compute; reflexivity|].
  rewrite (acos_in F64 s64 m r) by (auto; try (apply v64); try (change (2 ^ cf F64) with M64); lia).
  change (pi_v F64) with (@Ok Z 13493037704). cbn [bind]. change (fx_div_int F64 int32 13493037704 2) with (@Ok Z 6746518852). cbn [bind].
  apply (s_sub F64 s64); apply i64_r; lia.
Qed.
Open Scope R_scope.
Lemma rv64_le m : Rabs (rval 32 m) <= 1 -> (Z.abs m <= M64)%Z.
Proof. intros R. apply (r64_bnd m 1) in R. lia. Qed.
Lemma rv64_lt m : Rabs (rval 32 m) < 1 -> (Z.abs m < M64)%Z.
Proof.
  intros A. rewrite rv32 in A. unfold Rdiv in A. rewrite Rabs_mult, (Rabs_pos_eq (/ 4294967296)) in A by lra. apply lt_IZR. rewrite abs_IZR. lra.
Qed.
Lemma asin64_defined m : Rabs (rval 32 m) <= 1 ->
  (exists r, fx_asin F64 m = Ok r /\ valid F64 r = true) /\ (exists r, fx_acos F64 m = Ok r /\ valid F64 r = true).
Proof.
  intros R. apply rv64_le in R. destruct (asin64_all m R) as (r & E & _ & B). split; [exists r; split; [exact E|apply i64_r; lia]|].
  destruct (Z.eq_dec (Z.abs m) M64) as [X|X].
  - assert (M : m = M64 \/ m = (- M64)%Z) by lia. destruct M as [-> | -> ]; eexists; (split; [vm_compute; reflexivity|reflexivity]).
  - destruct (acos64_all' m ltac:(lia)) as (a & _ & A & AB). exists (6746518852 - a)%Z. split; [exact A|apply i64_r; lia].
Qed.
Lemma asin64_odd m : Rabs (rval 32 m) <= 1 -> exists r, fx_asin F64 m = Ok r /\ fx_asin F64 (- m) = Ok (- r)%Z.
Proof. intros R. destruct (asin64_all m (rv64_le m R)) as (r & E & O & _). exists r. split; assumption. Qed.
Lemma acos64_complement m : Rabs (rval 32 m) < 1 -> exists a b b' h,
  fx_asin F64 m = Ok a /\ fx_acos F64 m = Ok b /\ fx_acos F64 (- m) = Ok b' /\ fx_pi_2 F64 = Ok h /\ (a + b = h /\ b + b' = 2 * h)%Z.
Proof.
  intros R. apply rv64_lt in R. destruct (acos64_all' m R) as (a & A & C & _). destruct (acos64_all' (- m) ltac:(lia)) as (a' & A' & C' & _).
  destruct (asin64_all m ltac:(lia)) as (r & E & O & _). rewrite A in E. injection E as <-. rewrite A' in O. injection O as ->.
  exists a, (6746518852 - a)%Z, (6746518852 - - a)%Z, 6746518852%Z. repeat (split; [assumption || reflexivity|]). lia.
Qed.
