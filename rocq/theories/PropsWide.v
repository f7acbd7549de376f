(** Property theorems: reading numbers from streams of wide characters.  Statements only; proofs are in WideProofs.v. *)
From Coq Require Import ZArith List String.
From Verif Require Import Base Fixed TextIn Wide SpecText StreamProofs WideProofs.
Import ListNotations.
Open Scope Z_scope.

(** C141: on ASCII text a wide stream is read exactly like a narrow one, in every state of the stream: same value, same
    characters consumed, same state bits, same undefined behaviour *)
Theorem C141_wide_ascii : forall c s old eof fail, Forall (fun ch => 0 <= ch < 128) s ->
  wide_in c {| rest := s; eofbit := eof; failbit := fail |} old =
  stream_in c {| rest := s; eofbit := eof; failbit := fail |} old.
Proof. exact (fun c s old eof fail => wide_same c s old eof fail). Qed.
(** a character isdigit() may not be called with ends the number with undefined behaviour: everything above U+00FF in a
    wide stream, every byte 128..254 in a narrow one *)
Theorem C141_wide_foreign_refuted : forall c (neg : bool) ds ch tail old, is_digits 10 ds -> 255 < ch < 2 ^ 31 ->
  wide_in c (mk ((if neg then [45] else []) ++ map (digit_char false) ds ++ ch :: tail)) old = UB.
Proof. exact foreign_wide. Qed.
Theorem C141_narrow_foreign_refuted : forall c (neg : bool) ds ch tail old, is_digits 10 ds -> 128 <= ch < 255 ->
  stream_in c (mk ((if neg then [45] else []) ++ map (digit_char false) ds ++ ch :: tail)) old = UB.
Proof. exact foreign_narrow. Qed.
(** the same characters are harmless in a wide stream *)
Theorem C141_wide_latin1 : forall c ch tail old, wf c = true -> 128 <= ch <= 255 ->
  wide_in c (mk (ch :: tail)) old = Ok (0, mk (ch :: tail)).
Proof. exact latin1_ends. Qed.
Example C141_case : wide_in F32 (mk (txt "-12.34+5")) 7 = Ok (-808714, mk (txt "+5")) /\
  wide_in F32 (mk [49; 50; 0x5143]) 7 = UB /\ wide_in F32 (mk [49; 50; 233; 53]) 7 = Ok (786432, mk [233; 53]) /\
  stream_in F32 (mk [49; 50; 233; 53]) 7 = UB.
Proof. vm_compute. auto. Qed.
Print Assumptions C141_wide_ascii.
Print Assumptions C141_wide_foreign_refuted.
Print Assumptions C141_narrow_foreign_refuted.
Print Assumptions C141_wide_latin1.
