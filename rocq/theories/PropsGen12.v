(** Property theorem C191: asin and acos undo sin and cos in every 64-bit instantiation with 13 or more fraction bits. *)
From Coq Require Import ZArith Reals Lia Lra.
From Verif Require Import Base Fixed Math Spec SpecReal LogGen2 SinGen InvGen.
Open Scope R_scope.

Theorem C191_sin_asin : forall c m, wf c = true -> sgn (ct c) = true -> bits (ct c) = 64%Z -> cr c = false -> (13 <= cf c <= 59)%Z ->
  Rabs (rval (cf c) m) <= 0.7 ->
  exists a s, fx_asin c m = Ok a /\ fx_sin c a = Ok s /\ Rabs (rval (cf c) s - rval (cf c) m) <= 6.6e-4 + 36 * ulp (cf c).
Proof. intros c m W S B R F. assert (H : sin_cfg c) by (repeat split; auto; lia). apply sin_asin_every; auto; lia. Qed.
Theorem C191_asin_sin : forall c m, wf c = true -> sgn (ct c) = true -> bits (ct c) = 64%Z -> cr c = false -> (13 <= cf c <= 59)%Z ->
  Rabs (rval (cf c) m) <= 0.77 ->
  exists s a, fx_sin c m = Ok s /\ fx_asin c s = Ok a /\ Rabs (rval (cf c) a - rval (cf c) m) <= 7.9e-4 + 43 * ulp (cf c).
Proof. intros c m W S B R F. assert (H : sin_cfg c) by (repeat split; auto; lia). apply asin_sin_every; auto; lia. Qed.
Theorem C191_cos_acos : forall c m, wf c = true -> sgn (ct c) = true -> bits (ct c) = 64%Z -> cr c = false -> (13 <= cf c <= 59)%Z ->
  Rabs (rval (cf c) m) <= 0.7 ->
  exists a s, fx_acos c m = Ok a /\ fx_cos c a = Ok s /\ Rabs (rval (cf c) s - rval (cf c) m) <= 6.6e-4 + 38 * ulp (cf c).
Proof. intros c m W S B R F. assert (H : sin_cfg c) by (repeat split; auto; lia). apply cos_acos_every; auto; lia. Qed.
Theorem C191_acos_cos : forall c m, wf c = true -> sgn (ct c) = true -> bits (ct c) = 64%Z -> cr c = false -> (13 <= cf c <= 59)%Z ->
  0.81 <= rval (cf c) m <= 2.33 ->
  exists s a, fx_cos c m = Ok s /\ fx_acos c s = Ok a /\ Rabs (rval (cf c) a - rval (cf c) m) <= 7.9e-4 + 45 * ulp (cf c).
Proof. intros c m W S B R F. assert (H : sin_cfg c) by (repeat split; auto; lia). apply acos_cos_every; auto; lia. Qed.
(** 1/2 and 1 with 40 fraction bits *)
Example C191_case : wf Q40 = true /\ fx_asin Q40 (2 ^ 39) = Ok 575621825087%Z /\ fx_sin Q40 575621825087 = Ok 549685563054%Z /\
  fx_acos Q40 (2 ^ 39) = Ok 1151487001091%Z /\ fx_cos Q40 1151487001091 = Ok 549685563057%Z /\
  fx_sin Q40 (2 ^ 39) = Ok 527133954361%Z /\ fx_asin Q40 527133954361 = Ok 549715242661%Z /\ fx_cos Q40 (2 ^ 40) = Ok 594068667874%Z /\ fx_acos Q40 594068667874 = Ok 1099673966352%Z.
Proof. vm_compute. repeat split. Qed.
Example C191_case_in : Rabs (rval 40 (2 ^ 39)) <= 0.7 /\ 0.81 <= rval 40 (2 ^ 40) <= 2.33.
Proof.
  unfold rval. change (IZR (2 ^ 39)) with 549755813888. change (IZR (2 ^ 40)) with 1099511627776. split; [apply Rabs_le|]; lra.
Qed.
Print Assumptions C191_sin_asin.
Print Assumptions C191_asin_sin.
Print Assumptions C191_cos_acos.
Print Assumptions C191_acos_cos.
