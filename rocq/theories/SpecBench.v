(** Specification vocabulary for key=value files.  No model file is imported. *)
From Coq Require Import ZArith List.
Import ListNotations.
Open Scope Z_scope.

(** [l] is a line of [content]: it stands between the beginning or a newline and the end or a newline, and contains none *)
Definition no_nl (l : list Z) : Prop := ~ In 10 l.
(** the file consists of these lines: every line but possibly the last is followed by a newline *)
Fixpoint unlines (ls : list (list Z)) : list Z := match ls with [] => [] | l :: r => l ++ 10 :: unlines r end.
Definition file_lines (content : list Z) (ls : list (list Z)) : Prop :=
  Forall no_nl ls /\
  (content = unlines ls \/ exists init last, ls = init ++ [last] /\ last <> [] /\ content = unlines init ++ last).
(** the line gives the key the value *)
Definition defines (line key v : list Z) : Prop := ~ In 61 key /\ line = key ++ 61 :: v.
(** [v] is what the last definition of [key] in the list of lines says; [None]: there is none *)
Inductive last_def (key : list Z) : list (list Z) -> option (list Z) -> Prop :=
| ld_none ls : (forall l v, In l ls -> ~ defines l key v) -> last_def key ls None
| ld_some a l v b : defines l key v -> (forall l' v', In l' b -> ~ defines l' key v') -> last_def key (a ++ l :: b) (Some v).
(** what the file says about the key; "0" if nothing *)
Definition answer (o : option (list Z)) : list Z := match o with Some v => v | None => [48] end.
Definition file_says (content key v : list Z) : Prop := exists ls o, file_lines content ls /\ last_def key ls o /\ v = answer o.
(** the names without repetitions, in the order of their first occurrence *)
Fixpoint firsts (l : list (list Z)) : list (list Z) :=
  match l with
  | [] => []
  | i :: r => i :: filter (fun j => if list_eq_dec Z.eq_dec j i then false else true) (firsts r)
  end.
(** [ls] are the lines of the files with these names, one file after the other; a file that cannot be opened has none *)
Inductive names_lines (fs : list Z -> option (list Z)) : list (list Z) -> list (list Z) -> Prop :=
| nl_nil : names_lines fs [] []
| nl_file i c ls r ls' : fs i = Some c -> file_lines c ls -> names_lines fs r ls' -> names_lines fs (i :: r) (ls ++ ls')
| nl_none i r ls' : fs i = None -> names_lines fs r ls' -> names_lines fs (i :: r) ls'.
