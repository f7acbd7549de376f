(** Property theorem C179: sin, cos and tan of every instantiation. *)
From Coq Require Import ZArith Reals Lia Lra.
From Interval Require Import Tactic.
From Verif Require Import Base Fixed Math Spec SpecReal RefuteArith LogGen2 SinGen SinGen2.
Open Scope R_scope.

(** pi * pi does not fit next to 28 (60) fraction bits: sin 1 is 1.107 *)
Theorem C179_sin_refuted : wf Q28 = true /\ wf Q60 = true /\
  fx_sin Q28 (2 ^ 28) = Ok 297100666%Z /\ 0.26 <= rval 28 297100666 - sin 1 /\
  fx_sin Q60 (2 ^ 60) = Ok 1276037643412239332%Z /\ 0.26 <= rval 60 1276037643412239332 - sin 1.
Proof. exact sin_wide. Qed.
(** for a positive argument cos subtracts 3 pi / 2, which an unsigned type cannot hold: cos 1 is 65535.1 *)
Theorem C179_unsigned_cos_refuted : wf U32 = true /\ fx_cos U32 65536 = Ok 4294906151%Z /\ 65534 <= rval 16 4294906151 - cos 1.
Proof. exact cos_unsigned. Qed.
Theorem C179_sin : forall c m, wf c = true -> sgn (ct c) = true -> cr c = false -> (3 <= cf c)%Z ->
  (bits (ct c) = 32 /\ cf c <= 27 \/ bits (ct c) = 64 /\ cf c <= 59)%Z ->
  valid c m = true -> (lo (bits (ct c)) true < m)%Z ->
  exists r, fx_sin c m = Ok r /\ valid c r = true /\ Rabs (rval (cf c) r) <= 1 + 3.7e-6 + 7.3 * ulp (cf c) /\
    (0 <= rval (cf c) m -> Rabs (rval (cf c) r - sin (rval (cf c) m)) <= 3.7e-6 + (14 + Rabs (rval (cf c) m) / 6) * ulp (cf c)) /\
    Rabs (rval (cf c) r - sin (rval (cf c) m)) <= 3.1e-4 + (14 + Rabs (rval (cf c) m) / 6) * ulp (cf c).
Proof. intros c m W S R F B. exact (sin_gen c m (conj W (conj S (conj R (conj F B))))). Qed.
Theorem C179_cos : forall c m, wf c = true -> sgn (ct c) = true -> cr c = false -> (3 <= cf c)%Z ->
  (bits (ct c) = 32 /\ cf c <= 27 \/ bits (ct c) = 64 /\ cf c <= 59)%Z -> valid c m = true ->
  exists r, fx_cos c m = Ok r /\ valid c r = true /\ Rabs (rval (cf c) r) <= 1 + 3.7e-6 + 7.3 * ulp (cf c) /\
    (0.0002 + 2 * ulp (cf c) <= Rabs (cos (rval (cf c) m)) ->
       Rabs (rval (cf c) r - cos (rval (cf c) m)) <= 3.7e-6 + (17 + Rabs (rval (cf c) m) / 6) * ulp (cf c)) /\
    Rabs (rval (cf c) r - cos (rval (cf c) m)) <= 3.1e-4 + (17 + Rabs (rval (cf c) m) / 6) * ulp (cf c).
Proof. intros c m W S R F B. exact (cos_gen c m (conj W (conj S (conj R (conj F B))))). Qed.
(** tan is the quotient of the two, or the domain error when the cosine is at most one unit *)
Theorem C179_tan : forall c m, wf c = true -> sgn (ct c) = true -> cr c = false -> (3 <= cf c)%Z ->
  (bits (ct c) = 32 /\ cf c <= 27 \/ bits (ct c) = 64 /\ cf c <= 59)%Z ->
  valid c m = true -> (lo (bits (ct c)) true < m)%Z ->
  exists s cs, fx_sin c m = Ok s /\ fx_cos c m = Ok cs /\
  ((Z.abs cs <= 1)%Z -> fx_tan c m = Throw domain_error) /\
  ((1 < Z.abs cs)%Z -> valid c (Z.quot (s * 2 ^ cf c) cs) = true -> fx_tan c m = Ok (Z.quot (s * 2 ^ cf c) cs)) /\
  ((1 < Z.abs cs)%Z -> exists r, fx_tan c m = Ok r).
Proof. intros c m W S R F B. exact (tan_gen c m (conj W (conj S (conj R (conj F B))))). Qed.
Example C179_case : wf Q8 = true /\ valid Q8 (-25600) = true /\ fx_sin Q8 256 = Ok 215%Z /\ fx_cos Q8 256 = Ok 137%Z /\ fx_tan Q8 256 = Ok 401%Z /\
  wf Q40 = true /\ fx_sin Q40 (2 ^ 40) = Ok 925207159603%Z.
Proof. vm_compute. repeat split. Qed.
Print Assumptions C179_sin_refuted.
Print Assumptions C179_sin.
Print Assumptions C179_cos.
Print Assumptions C179_tan.
