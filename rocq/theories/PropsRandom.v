(** Property theorems C79-C85, C100-C104: random engines and distribution adapters.  Statements only; proofs are in
    RandomProofs.v. *)
From Coq Require Import ZArith Bool List.
From Verif Require Import Base Fixed SpecText SpecFormat Random RandomProofs.
Import ListNotations.
Open Scope Z_scope.

(** C79: by the language rule every draw of both engines, from every state, is undefined (x >>= 8 ^ x) *)
Theorem C79_draw_undefined_refuted : (forall e, draw strict pcg2014 e = UB) /\ (forall e, draw strict pcg2014_64 e = UB).
Proof. exact pcg_ub. Qed.
(** two common platform behaviours of that shift give different sequences *)
Theorem C79_not_portable_refuted : exists e v w, eng_ok pcg2014 e = true /\ res_map fst (draw mask_shift pcg2014 e) = Ok v /\
  res_map fst (draw zero_shift pcg2014 e) = Ok w /\ v <> w.
Proof. exact pcg_not_portable. Qed.
(** on a platform that gives oversized shifts any meaning, draws are defined and in [min(), max()] *)
Theorem C79_draw_defined : forall pl p e, pcg_ok p = true -> 32 <= bits (pu p) -> eng_ok p e = true ->
  (forall t a s, exists v, pl t a s = Ok v) ->
  exists v e', draw pl p e = Ok (v, e') /\ eng_min p <= v <= eng_max p /\ eng_ok p e' = true.
Proof. exact draw_defined. Qed.
Example C79_case : pcg_ok pcg2014 = true /\ pcg_ok pcg2014_64 = true /\ res_map fst (draws mask_shift pcg2014 2 (new_default pcg2014)) = Ok [1609811217; 364240157].
Proof. repeat split; vm_compute; reflexivity. Qed.
Print Assumptions C79_draw_undefined_refuted.
Print Assumptions C79_draw_defined.

(** C80 *)
Theorem C80_discard : forall pl p n e vs e', pcg_ok p = true -> eng_ok p e = true -> Z.of_nat n < 2 ^ 64 ->
  draws pl p n e = Ok (vs, e') -> discard p e (Z.of_nat n) = Ok e'.
Proof. exact C80_lemma. Qed.
Example C80_case : exists vs e', draws mask_shift pcg2014 3 {| m_seed := 7; m_state := 2 ^ 32 - 2 |} = Ok (vs, e') /\ m_state e' = 1.
Proof. do 2 eexists. split; [vm_compute; reflexivity|]. vm_compute. reflexivity. Qed.
Print Assumptions C80_discard.

(** C81 *)
Theorem C81_equality : forall p a b, pcg_ok p = true -> eng_ok p a = true -> eng_ok p b = true ->
  (eng_eq p a b = true <-> m_seed a = m_seed b /\ m_state a = m_state b) /\
  (eng_ne p a b = negb (eng_eq p a b)) /\
  (eng_eq p a b = true -> forall pl n, draws pl p n a = draws pl p n b).
Proof. exact C81_lemma. Qed.
Example C81_case : eng_eq pcg2014 (new_seeded pcg2014 5) (reseed (new_default pcg2014) 5) = true /\
  eng_eq pcg2014 (new_seeded pcg2014 5) (new_seeded pcg2014 6) = false.
Proof. split; reflexivity. Qed.
Print Assumptions C81_equality.

(** C82: seed(s) restores the initial state only after a multiple of 2^width draws *)
Theorem C82_reseed : forall pl p s0 s n vs e, pcg_ok p = true -> in_range (pu p) s0 = true -> in_range (pu p) s = true ->
  draws pl p n (new_seeded p s0) = Ok (vs, e) ->
  eng_eq p (reseed e s) (new_seeded p s) = true <-> (Z.of_nat n) mod 2 ^ bits (pu p) = 0.
Proof. exact C82_lemma. Qed.
Theorem C82_reseed_refuted : exists e vs s, draws mask_shift pcg2014 1 (new_default pcg2014) = Ok (vs, e) /\
  eng_eq pcg2014 (reseed e s) (new_seeded pcg2014 s) = false /\
  res_map fst (draw mask_shift pcg2014 (reseed e s)) <> res_map fst (draw mask_shift pcg2014 (new_seeded pcg2014 s)).
Proof. exact reseed_refuted. Qed.
Print Assumptions C82_reseed.

(** C83: for an underlying integer type that holds every raw value; [qs] is any history of param() calls *)
Theorem C83_in_range : forall nd c dt a b qs, wf c = true -> ity_ok dt = true ->
  minv dt <= minv (ct c) /\ maxv (ct c) <= maxv dt ->
  Forall (fun q => valid c (q_a q) = true /\ valid c (q_b q) = true /\ q_a q <= q_b q) ({| q_a := a; q_b := b |} :: qs) ->
  exists d0 d, dist_new nd c dt a b = Ok d0 /\ set_all c dt d0 qs = Ok d /\
    dist_param d = last qs {| q_a := a; q_b := b |} /\ dist_min d = q_a (dist_param d) /\ dist_max d = q_b (dist_param d) /\
    forall G (sample : Z -> Z -> G -> Z * G) g, (forall a b g, a <= b -> a <= fst (sample a b g) <= b) ->
      exists v g', dist_draw sample c d g = Ok (v, g') /\ dist_min d <= v <= dist_max d.
Proof. exact C83_lemma. Qed.
Example C83_case : exists d, dist_new false F32 int64 (-65536) 65536 = Ok d /\ dist_draw lowest F32 d tt = Ok (-65536, tt).
Proof. eexists. split; [vm_compute; reflexivity|]. vm_compute. reflexivity. Qed.
Print Assumptions C83_in_range.

(** C84: the parameter is ignored *)
Theorem C84_param_ignored : forall G (sample : Z -> Z -> G -> Z * G) c d q1 q2 g,
  dist_draw_with sample c d q1 g = dist_draw_with sample c d q2 g.
Proof. exact @param_ignored. Qed.
Theorem C84_param_refuted : exists d q v, dist_new false F32 int32 0 65536 = Ok d /\
  (valid F32 (q_a q) = true /\ valid F32 (q_b q) = true /\ q_a q <= q_b q) /\
  sampler_ok lowest /\ dist_draw_with lowest F32 d q tt = Ok (v, tt) /\ v < q_a q.
Proof. exact param_refuted. Qed.
Print Assumptions C84_param_refuted.

(** C85 *)
Theorem C85_default_fixed32 : forall nd, exists d, dist_default nd F32 int32 = Ok d /\
  d_a (m_dist d) = minv int32 /\ d_b (m_dist d) = maxv int32.
Proof. exact default32. Qed.
(** fixed64 over std::uniform_int_distribution<> (int): the bounds truncate to 0 and -1 *)
Theorem C85_default_fixed64_refuted : forall nd, dist_default nd F64 int32 = UB.
Proof. exact default64_refuted. Qed.
Theorem C85_narrow_refuted : exists a b d v, valid F64 a = true /\ valid F64 b = true /\ a <= b /\ dist_new false F64 int32 a b = Ok d /\
  sampler_ok lowest /\ dist_draw lowest F64 d tt = Ok (v, tt) /\ v < a.
Proof. exact narrow_refuted. Qed.
Print Assumptions C85_narrow_refuted.

(** C100: all seeds run through the same cycle *)
Theorem C100_one_cycle : forall p s1 s2, pcg_ok p = true -> 32 <= bits (pu p) <= 64 -> Z.odd (pmul p) = true ->
  in_range (pu p) s1 = true -> in_range (pu p) s2 = true ->
  exists k e, 0 <= k < 2 ^ bits (pu p) /\ discard p (new_seeded p s1) k = Ok e /\
    forall pl n, res_map fst (draws pl p n (new_seeded p s2)) = res_map fst (draws pl p n e).
Proof. exact C100_lemma. Qed.
Example C100_case : Z.odd (pmul pcg2014) = true /\ Z.odd (pmul pcg2014_64) = true.
Proof. split; reflexivity. Qed.
Print Assumptions C100_one_cycle.

(** C101 *)
Theorem C101_period : forall pl p n e vs e', pcg_ok p = true -> eng_ok p e = true -> Z.of_nat n = 2 ^ bits (pu p) ->
  draws pl p n e = Ok (vs, e') -> e' = e.
Proof. exact C101_lemma. Qed.
(** an 8-bit engine, where the period can be run *)
Example C101_case : let p := {| pu := uint8; pstate := 3; pmul := 5; pinc := 7; pmix := 11; pxor := 13 |} in
  pcg_ok p = true /\ exists vs, draws mask_shift p 256 (new_seeded p 9) = Ok (vs, new_seeded p 9).
Proof. split; [reflexivity|]. eexists. vm_compute. reflexivity. Qed.
Print Assumptions C101_period.

(** C102: max() is never drawn; the top bit (pcg2014) or the top eight bits (pcg2014_64) are always zero *)
Theorem C102_draw_bound : forall pl p e v e', pcg_ok p = true -> 32 <= bits (pu p) -> draw pl p e = Ok (v, e') ->
  0 <= v < 2 ^ Z.max 31 (bits (pu p) - 8).
Proof. exact draw_bound. Qed.
Theorem C102_full_range_refuted : forall pl e v e', draw pl pcg2014 e = Ok (v, e') -> v < 2 ^ 31 /\ 2 ^ 31 < eng_max pcg2014.
Proof. exact not_full. Qed.
Print Assumptions C102_draw_bound.

(** C103 *)
Theorem C103_adapter : forall pl c p e r e', wf c = true -> draw pl p e = Ok (r, e') ->
  adapter_draw pl c p e = Ok (wrap (ct c) r, e').
Proof. exact adapter_eq. Qed.
Theorem C103_never_negative : forall pl e v e', eng_ok pcg2014 e = true -> adapter_draw pl F32 pcg2014 e = Ok (v, e') ->
  0 <= v <= adapter_max F32.
Proof. exact adapter_nonneg. Qed.
Theorem C103_never_negative64 : forall pl e v e', eng_ok pcg2014_64 e = true -> adapter_draw pl F64 pcg2014_64 e = Ok (v, e') ->
  0 <= v < 2 ^ 56.
Proof. exact adapter_nonneg64. Qed.
Example C103_case : exists v e, adapter_draw mask_shift F32 pcg2014 (adapter_new pcg2014) = Ok (v, e) /\ valid F32 v = true.
Proof. do 2 eexists. split; [vm_compute; reflexivity|]. vm_compute. reflexivity. Qed.
Print Assumptions C103_never_negative.

(** C104 *)
Theorem C104_text_identifies : forall show p a b, decimal show -> pcg_ok p = true -> eng_ok p a = true -> eng_ok p b = true ->
  stream_engine show a = stream_engine show b -> eng_eq p a b = true.
Proof. exact C104_lemma. Qed.
Example C104_case : decimal show10 /\ stream_engine show10 {| m_seed := 12; m_state := 30 |} = [49; 50; 32; 51; 48].
Proof. split; [exact show10_ok|vm_compute; reflexivity]. Qed.
Print Assumptions C104_text_identifies.
Print Assumptions C79_not_portable_refuted.
Print Assumptions C82_reseed_refuted.
Print Assumptions C84_param_ignored.
Print Assumptions C85_default_fixed32.
Print Assumptions C85_default_fixed64_refuted.
Print Assumptions C102_full_range_refuted.
Print Assumptions C103_adapter.
Print Assumptions C103_never_negative64.
