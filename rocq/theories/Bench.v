(** Model of benchmark/bench.cpp: get_input, a cache of key=value files.  Characters are their codes.  No proofs in this
    file. *)
From Coq Require Import ZArith Bool List.
Import ListNotations.
Open Scope Z_scope.

Definition str := list Z.
Definition str_eqb (a b : str) : bool := if list_eq_dec Z.eq_dec a b then true else false.

(** std::getline in a loop: the characters up to the next '\n' (10) or the end; nothing after a final '\n'.  Standard
    library behaviour, not repository code. *)
Fixpoint getlines (content cur : str) : list str :=
  match content with
  | [] => match cur with [] => [] | _ => [cur] end
  | ch :: r => if ch =? 10 then cur :: getlines r [] else getlines r (cur ++ [ch])
  end.

(** bench.cpp:39-45: find('='), substr(0, pos), substr(pos + 1); [None] for npos *)
Fixpoint split_line (line : str) : option (str * str) :=
  match line with
  | [] => None
  | ch :: r => if ch =? 61 then Some ([], r)
               else match split_line r with None => None | Some (k, v) => Some (ch :: k, v) end
  end.

(** bench.cpp:21-22: the two static caches.  std::unordered_map is its lookup function. *)
Record cache := { cached_inputs : list str; cached_values : str -> option str }.
(** the state at program start *)
Definition cache0 : cache := {| cached_inputs := []; cached_values := fun _ => None |}.
(** [cached_values[k] = v] *)
Definition store (m : str -> option str) (k v : str) : str -> option str :=
  fun k' => if str_eqb k' k then Some v else m k'.

(** bench.cpp:36-47 *)
Fixpoint load (lines : list str) (m : str -> option str) : str -> option str :=
  match lines with
  | [] => m
  | line :: r => match split_line line with None => load r m | Some (k, v) => load r (store m k v) end
  end.

(** bench.cpp:23 *)
Definition value_default : str := [48].

(** bench.cpp:25-56; [file] is what opening "benchmark_input/" + input + ".in" gives at the time of the call: the content, or
    [None] when it cannot be opened *)
Definition get_input (file : option str) (st : cache) (input key : str) : str * cache :=
  let find st := match cached_values st key with Some v => v | None => value_default end in
  if existsb (str_eqb input) (cached_inputs st) then (find st, st)
  else
    let inputs := cached_inputs st ++ [input] in
    match file with
    | None => (value_default, {| cached_inputs := inputs; cached_values := cached_values st |})
    | Some content =>
        let st := {| cached_inputs := inputs; cached_values := load (getlines content []) (cached_values st) |} in
        (find st, st)
    end.

(** a program that asks several times; [fs] gives the file behind an input name *)
Fixpoint requests (fs : str -> option str) (st : cache) (l : list (str * str)) : list str * cache :=
  match l with
  | [] => ([], st)
  | (i, k) :: r => let '(v, st) := get_input (fs i) st i k in let '(vs, st) := requests fs st r in (v :: vs, st)
  end.
