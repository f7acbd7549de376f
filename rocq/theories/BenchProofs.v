(** Proofs about the benchmark input cache (Bench). *)
From Coq Require Import ZArith Bool Lia List.
From Verif Require Import Bench SpecBench.
Import ListNotations.
Open Scope Z_scope.

Lemma str_eqb_eq a b : str_eqb a b = true <-> a = b.
Proof. unfold str_eqb. destruct (list_eq_dec Z.eq_dec a b); split; congruence. Qed.
Lemma str_eqb_refl a : str_eqb a a = true.
Proof. apply str_eqb_eq. reflexivity. Qed.

(** ** lines *)
Lemma getlines_nl l : no_nl l -> forall r cur, getlines (l ++ 10 :: r) cur = (cur ++ l) :: getlines r [].
Proof.
  induction l as [|ch l IH]; intros N r cur; cbn [app getlines].
  - rewrite app_nil_r. reflexivity.
  - assert (ch <> 10) by (intros ->; apply N; left; reflexivity). apply Z.eqb_neq in H. rewrite H.
    rewrite IH by (intros I; apply N; right; exact I). rewrite <- app_assoc. reflexivity.
Qed.
Lemma getlines_last l : no_nl l -> forall cur, cur ++ l <> [] -> getlines l cur = [cur ++ l].
Proof.
  induction l as [|ch l IH]; intros N cur E; cbn [getlines].
  - rewrite app_nil_r in *. destruct cur; [congruence|reflexivity].
  - assert (ch <> 10) by (intros ->; apply N; left; reflexivity). apply Z.eqb_neq in H. rewrite H.
    rewrite IH; [rewrite <- app_assoc; reflexivity|intros I; apply N; right; exact I|]. destruct cur; discriminate.
Qed.
Lemma getlines_un ls : Forall no_nl ls -> forall rest, getlines (unlines ls ++ rest) [] = ls ++ getlines rest [].
Proof.
  induction 1 as [|l ls N H IH]; intros rest; [reflexivity|]. cbn [unlines app]. rewrite <- app_assoc. cbn [app].
  rewrite getlines_nl by exact N. cbn [app]. rewrite IH. reflexivity.
Qed.
Lemma lines_unique content ls : file_lines content ls -> ls = getlines content [].
Proof.
  intros [F [E|(init & last & -> & N & E)]]; subst content.
  - pose proof (getlines_un ls F []) as H. cbn [getlines] in H. rewrite !app_nil_r in H. congruence.
  - apply Forall_app in F as [F1 F2]. inversion F2; subst. rewrite getlines_un by exact F1.
    rewrite getlines_last; [reflexivity|assumption|exact N].
Qed.
Lemma getlines_ok content : forall cur, no_nl cur ->
  (Forall no_nl (getlines content cur) /\
   (cur ++ content = unlines (getlines content cur) \/
    exists init last, getlines content cur = init ++ [last] /\ last <> [] /\ cur ++ content = unlines init ++ last)).
Proof.
  induction content as [|ch r IH]; intros cur N; cbn [getlines].
  - destruct cur as [|c0 cur]; [split; [constructor|left; reflexivity]|].
    split; [constructor; [exact N|constructor]|]. right. exists [], (c0 :: cur). repeat split; [discriminate|]. apply app_nil_r.
  - destruct (ch =? 10) eqn:E.
    + apply Z.eqb_eq in E. subst ch. destruct (IH []) as [F G]; [intros []|]. split; [constructor; assumption|].
      destruct G as [G|(init & last & G1 & G2 & G3)]; cbn [app] in *.
      * left. cbn [unlines]. rewrite <- G. reflexivity.
      * right. exists (cur :: init), last. rewrite G1. repeat split; [exact G2|]. cbn [unlines]. rewrite G3, <- app_assoc. reflexivity.
    + apply Z.eqb_neq in E. destruct (IH (cur ++ [ch])) as [F G].
      { intros I. apply in_app_or in I as [I|[I|[]]]; [exact (N I)|congruence]. }
      split; [exact F|]. rewrite <- app_assoc in G. cbn [app] in G. exact G.
Qed.
Lemma lines_exist content : file_lines content (getlines content []).
Proof. apply (getlines_ok content []). intros []. Qed.

(** ** definitions *)
Lemma split_defines line k v : split_line line = Some (k, v) <-> defines line k v.
Proof.
  unfold defines. revert k v. induction line as [|ch r IH]; intros k v; cbn [split_line].
  - split; [discriminate|]. intros [_ E]. destruct k; discriminate E.
  - destruct (ch =? 61) eqn:E.
    + apply Z.eqb_eq in E. subst ch. split.
      * intros H. injection H as <- <-. split; [intros []|reflexivity].
      * intros [N H]. destruct k as [|c0 k]; cbn [app] in H; [injection H; intros; subst; solve [reflexivity|congruence]|]. injection H as H1 H2. exfalso. apply N. left. congruence.
    + apply Z.eqb_neq in E. split.
      * destruct (split_line r) as [[k0 v0]|] eqn:S; [|discriminate]. intros H. injection H as <- <-.
        destruct (proj1 (IH k0 v0) eq_refl) as [N H]. split; [intros [I|I]; [congruence|exact (N I)]|]. rewrite H. reflexivity.
      * intros [N H]. destruct k as [|c0 k]; cbn [app] in H; [injection H; intros; subst; solve [reflexivity|congruence]|]. injection H as H1 H2. subst c0.
        rewrite (proj2 (IH k v)); [reflexivity|]. split; [intros I; apply N; right; exact I|exact H2].
Qed.
Lemma defines_fun l k v v' : defines l k v -> defines l k v' -> v = v'.
Proof. intros A B. apply split_defines in A, B. congruence. Qed.
Lemma load_spec key ls : forall m, exists o, last_def key ls o /\ load ls m key = match o with Some v => Some v | None => m key end.
Proof.
  induction ls as [|line r IH]; intros m.
  - exists None. split; [constructor; intros l v []|reflexivity].
  - cbn [load]. destruct (split_line line) as [[k v]|] eqn:S.
    + destruct (IH (store m k v)) as (o & L & E). destruct o as [w|].
      * exists (Some w). split; [|exact E]. inversion L as [|a l w' b D N]; subst. apply (ld_some key (line :: a)); assumption.
      * rewrite E. unfold store. destruct (str_eqb key k) eqn:K.
        -- apply str_eqb_eq in K. subst k. exists (Some v). split; [|reflexivity].
           apply (ld_some key [] line v r); [apply split_defines; exact S|]. inversion L; subst; assumption.
        -- exists None. split; [|reflexivity]. constructor. intros l v' [<-|I].
           ++ intros D. apply split_defines in D. rewrite S in D. injection D as -> ->. rewrite str_eqb_refl in K. discriminate.
           ++ inversion L; subst; auto.
    + destruct (IH m) as (o & L & E). exists o. split; [|exact E]. destruct o as [w|].
      * inversion L as [|a l w' b D N]; subst. apply (ld_some key (line :: a)); assumption.
      * constructor. intros l v' [<-|I]; [|inversion L; subst; auto]. intros D. apply split_defines in D. congruence.
Qed.
Lemma last_def_app_none key a b : last_def key b None -> forall o, last_def key a o -> last_def key (a ++ b) o.
Proof.
  intros B o A. inversion B as [ls N|]; subst. inversion A as [ls M|a0 l v b0 D M]; subst.
  - constructor. intros l v I. apply in_app_or in I as [I|I]; eauto.
  - rewrite <- app_assoc. cbn [app]. constructor; [exact D|]. intros l' v' I. apply in_app_or in I as [I|I]; eauto.
Qed.
Lemma last_def_app_some key a b v : last_def key b (Some v) -> last_def key (a ++ b) (Some v).
Proof. intros B. inversion B as [|a0 l v0 b0 D M]; subst. rewrite app_assoc. constructor; assumption. Qed.
Lemma load_app a b m : load (a ++ b) m = load b (load a m).
Proof. revert m. induction a as [|l a IH]; intros m; [reflexivity|]. cbn [app load]. destruct (split_line l) as [[k v]|]; apply IH. Qed.
Lemma load_none key ls : (forall l v, In l ls -> ~ defines l key v) -> forall m, load ls m key = m key.
Proof.
  induction ls as [|l r IH]; intros N m; [reflexivity|]. cbn [load].
  assert (N' : forall l0 v, In l0 r -> ~ defines l0 key v) by (intros l0 v I; apply N; right; exact I).
  destruct (split_line l) as [[k v]|] eqn:S; rewrite IH by exact N'; [|reflexivity]. unfold store.
  destruct (str_eqb key k) eqn:K; [|reflexivity]. apply str_eqb_eq in K. subst k. exfalso.
  apply (N l v); [left; reflexivity|apply split_defines; exact S].
Qed.
Lemma load_last key ls o : last_def key ls o -> forall m, load ls m key = match o with Some v => Some v | None => m key end.
Proof.
  intros A m. inversion A as [l1 N1|a l v b D N]; subst; [apply load_none; exact N1|].
  rewrite load_app. cbn [load]. apply split_defines in D. rewrite D. rewrite load_none by exact N. unfold store.
  rewrite str_eqb_refl. reflexivity.
Qed.
Lemma last_def_fun key ls o o' : last_def key ls o -> last_def key ls o' -> o = o'.
Proof.
  intros A B. pose proof (load_last key ls o A (fun _ => None)) as E. rewrite (load_last key ls o' B (fun _ => None)) in E.
  destruct o, o'; congruence.
Qed.
Lemma says_unique content key v v' : file_says content key v -> file_says content key v' -> v = v'.
Proof.
  intros (l1 & o1 & F1 & L1 & ->) (l2 & o2 & F2 & L2 & ->). apply lines_unique in F1, F2. subst.
  rewrite (last_def_fun key _ _ _ L1 L2). reflexivity.
Qed.

(** ** the cache after any requests *)
Definition lines_of (fs : str -> option str) (i : str) : list str := match fs i with Some c => getlines c [] | None => [] end.
Fixpoint all_lines (fs : str -> option str) (l : list str) : list str :=
  match l with [] => [] | i :: r => lines_of fs i ++ all_lines fs r end.
Lemma all_lines_app fs a b : all_lines fs (a ++ b) = all_lines fs a ++ all_lines fs b.
Proof. induction a as [|i a IH]; [reflexivity|]. cbn [app all_lines]. rewrite IH, app_assoc. reflexivity. Qed.
Definition inv (fs : str -> option str) (st : cache) : Prop :=
  cached_values st = load (all_lines fs (cached_inputs st)) (fun _ => None).
Lemma inv0 fs : inv fs cache0. Proof. reflexivity. Qed.
Lemma get_inv fs st i k : inv fs st -> inv fs (snd (get_input (fs i) st i k)) /\
  cached_inputs (snd (get_input (fs i) st i k)) =
    (if existsb (str_eqb i) (cached_inputs st) then cached_inputs st else cached_inputs st ++ [i]).
Proof.
  intros I. unfold get_input. destruct (existsb (str_eqb i) (cached_inputs st)); [auto|].
  destruct (fs i) as [c|] eqn:F; cbn [snd cached_inputs]; (split; [|reflexivity]); unfold inv in *; cbn [cached_inputs cached_values];
    rewrite all_lines_app; cbn [all_lines]; unfold lines_of; rewrite F, app_nil_r.
  - rewrite load_app, <- I. reflexivity.
  - exact I.
Qed.
(** the names in the order of their first request *)
Fixpoint first_uses (seen l : list str) : list str :=
  match l with
  | [] => seen
  | i :: r => first_uses (if existsb (str_eqb i) seen then seen else seen ++ [i]) r
  end.
Lemma requests_inv fs l : forall st, inv fs st -> inv fs (snd (requests fs st l)) /\
  cached_inputs (snd (requests fs st l)) = first_uses (cached_inputs st) (map fst l).
Proof.
  induction l as [|[i k] r IH]; intros st I; [split; [exact I|reflexivity]|]. cbn [requests map fst first_uses].
  pose proof (get_inv fs st i k I) as [I1 E1]. destruct (get_input (fs i) st i k) as [v st1]. cbn [snd] in *.
  destruct (IH st1 I1) as [I2 E2]. destruct (requests fs st1 r) as [vs st2]. cbn [snd] in *. rewrite E2, E1. auto.
Qed.
Lemma existsb_in i l : existsb (str_eqb i) l = true <-> In i l.
Proof.
  rewrite existsb_exists. split; [intros (x & I & E); apply str_eqb_eq in E; subst; exact I|].
  intros I. exists i. split; [exact I|apply str_eqb_refl].
Qed.
Lemma first_uses_in l : forall seen i, In i (first_uses seen l) <-> In i seen \/ In i l.
Proof.
  induction l as [|j r IH]; intros seen i; cbn [first_uses]; [cbn; tauto|]. rewrite IH.
  destruct (existsb (str_eqb j) seen) eqn:E; [apply existsb_in in E|]; split; cbn [In]; try tauto.
  - intros [H|[<-|H]]; tauto.
  - intros [H|H]; [|tauto]. apply in_app_or in H as [H|[H|[]]]; auto.
  - intros [H|[H|H]]; [left; apply in_or_app; auto|left; apply in_or_app; right; left; auto|auto].
Qed.
Lemma first_uses_snoc i l : forall seen, first_uses seen (l ++ [i]) =
  if existsb (str_eqb i) (first_uses seen l) then first_uses seen l else first_uses seen l ++ [i].
Proof. induction l as [|j r IH]; intros seen; [reflexivity|]. cbn [app first_uses]. apply IH. Qed.
Lemma exact_answer fs l i k :
  let st := snd (requests fs cache0 l) in
  (In i (map fst l) \/ fs i <> None ->
   exists o, last_def k (all_lines fs (first_uses [] (map fst l ++ [i]))) o /\ fst (get_input (fs i) st i k) = answer o) /\
  (~ In i (map fst l) -> fs i = None -> fst (get_input (fs i) st i k) = answer None).
Proof.
  intros st. destruct (requests_inv fs l cache0 (inv0 fs)) as [I E]. fold st in I, E. cbn [cached_inputs cache0] in E.
  assert (FU : first_uses [] (map fst l ++ [i]) =
               if existsb (str_eqb i) (cached_inputs st) then cached_inputs st else cached_inputs st ++ [i]).
  { rewrite E. apply first_uses_snoc. }
  assert (IN : existsb (str_eqb i) (cached_inputs st) = true <-> In i (map fst l)).
  { rewrite existsb_in, E, first_uses_in. cbn. tauto. }
  rewrite FU. unfold get_input. destruct (existsb (str_eqb i) (cached_inputs st)) eqn:X.
  - split; [intros _|intros N; exfalso; apply N, IN; reflexivity]. cbn [fst]. rewrite I.
    destruct (load_spec k (all_lines fs (cached_inputs st)) (fun _ => None)) as (o & L & EL).
    exists o. split; [exact L|]. rewrite EL. destruct o; reflexivity.
  - assert (NI : ~ In i (map fst l)) by (intros H; apply IN in H; discriminate). split.
    + intros [H|H]; [contradiction|]. destruct (fs i) as [c|] eqn:F; [|congruence]. cbn [fst cached_values]. rewrite I, <- load_app.
      rewrite all_lines_app. cbn [all_lines]. unfold lines_of. rewrite F, app_nil_r.
      destruct (load_spec k (all_lines fs (cached_inputs st) ++ getlines c []) (fun _ => None)) as (o & L & EL).
      exists o. split; [exact L|]. rewrite EL. destruct o; reflexivity.
    + intros _ F. rewrite F. reflexivity.
Qed.
Lemma all_lines_other fs k i c : fs i = Some c -> forall names, In i names ->
  (forall j, In j names -> j <> i -> forall l v, In l (lines_of fs j) -> ~ defines l k v) ->
  forall o o', last_def k (all_lines fs names) o -> last_def k (getlines c []) o' -> o = o'.
Proof.
  intros F names IN N o o' A B.
  assert (G : forall names m, (forall j, In j names -> j <> i -> forall l v, In l (lines_of fs j) -> ~ defines l k v) ->
     load (all_lines fs names) m k = (if in_dec (list_eq_dec Z.eq_dec) i names then load (getlines c []) m k else m k)).
  { clear - F B. induction names as [|j r IH]; intros m H; [reflexivity|]. cbn [all_lines]. rewrite load_app.
    rewrite IH by (intros j' I; apply H; right; exact I).
    assert (J : forall m, load (lines_of fs j) m k = if list_eq_dec Z.eq_dec j i then load (getlines c []) m k else m k).
    { intros m'. destruct (list_eq_dec Z.eq_dec j i) as [-> |NE]; [unfold lines_of; rewrite F; reflexivity|].
      apply load_none. apply H; [left; reflexivity|exact NE]. }
    rewrite (load_last _ _ _ B (load (lines_of fs j) m)). rewrite (J m). rewrite (load_last _ _ _ B m).
    destruct (in_dec (list_eq_dec Z.eq_dec) i r) as [I|I]; destruct (in_dec (list_eq_dec Z.eq_dec) i (j :: r)) as [I2|I2];
      destruct (list_eq_dec Z.eq_dec j i) as [EJ|EJ]; destruct o'; try reflexivity;
      exfalso; solve [apply I2; right; exact I | apply I2; left; exact EJ | destruct I2 as [I2|I2]; contradiction]. }
  specialize (G names (fun _ => None) N). destruct (in_dec (list_eq_dec Z.eq_dec) i names) as [_|X]; [|contradiction].
  rewrite (load_last _ _ _ A), (load_last _ _ _ B) in G. destruct o, o'; congruence.
Qed.

(** ** the statements of PropsBench.v *)
Lemma names_lines_all fs names : names_lines fs names (all_lines fs names).
Proof.
  induction names as [|i r IH]; [constructor|]. cbn [all_lines]. unfold lines_of. destruct (fs i) as [c|] eqn:F.
  - eapply nl_file; [exact F|apply lines_exist|exact IH].
  - cbn [app]. apply nl_none; assumption.
Qed.
Definition ne (i j : str) : bool := if list_eq_dec Z.eq_dec j i then false else true.
Lemma filter_filter {A} (f g : A -> bool) l : filter f (filter g l) = filter (fun x => g x && f x) l.
Proof.
  induction l as [|x l IH]; [reflexivity|]. cbn [filter]. destruct (g x) eqn:G; cbn [filter andb]; [|exact IH].
  destruct (f x); [f_equal|]; exact IH.
Qed.
Lemma first_uses_firsts l : forall seen,
  first_uses seen l = seen ++ filter (fun j => negb (existsb (str_eqb j) seen)) (firsts l).
Proof.
  induction l as [|i r IH]; intros seen; cbn [first_uses firsts filter]; [rewrite app_nil_r; reflexivity|].
  rewrite IH. destruct (existsb (str_eqb i) seen) eqn:E; cbn [negb].
  - rewrite filter_filter. f_equal. apply filter_ext. intros j.
    destruct (list_eq_dec Z.eq_dec j i) as [-> |]; [rewrite E|]; reflexivity.
  - rewrite <- app_assoc. f_equal. cbn [app]. f_equal. rewrite filter_filter. apply filter_ext. intros j.
    rewrite existsb_app. cbn [existsb]. rewrite orb_false_r. unfold str_eqb at 2.
    destruct (list_eq_dec Z.eq_dec j i); rewrite ?orb_true_r, ?orb_false_r; reflexivity.
Qed.
Lemma first_uses_nil l : first_uses [] l = firsts l.
Proof.
  rewrite first_uses_firsts. cbn [app existsb negb]. induction (firsts l) as [|x r IH]; [reflexivity|]. cbn [filter].
  rewrite IH. reflexivity.
Qed.
Lemma exact_spec fs l i k :
  let st := snd (requests fs cache0 l) in
  (In i (map fst l) \/ fs i <> None ->
   exists ls o, names_lines fs (firsts (map fst l ++ [i])) ls /\ last_def k ls o /\ fst (get_input (fs i) st i k) = answer o) /\
  (~ In i (map fst l) -> fs i = None -> fst (get_input (fs i) st i k) = answer None).
Proof.
  intros st. destruct (exact_answer fs l i k) as [A B]. split; [|exact B]. intros H. destruct (A H) as (o & L & E).
  exists (all_lines fs (first_uses [] (map fst l ++ [i]))), o. rewrite <- first_uses_nil.
  split; [apply names_lines_all|split; assumption].
Qed.
Lemma firsts_in l i : In i (firsts l) <-> In i l.
Proof. rewrite <- first_uses_nil, first_uses_in. cbn. tauto. Qed.
Lemma own_spec fs l i k c : fs i = Some c ->
  (forall j cj lj v, In j (map fst l) -> j <> i -> fs j = Some cj -> (exists ls, file_lines cj ls /\ In lj ls) -> ~ defines lj k v) ->
  file_says c k (fst (get_input (fs i) (snd (requests fs cache0 l)) i k)).
Proof.
  intros F N. destruct (exact_answer fs l i k) as [A _]. destruct A as (o & L & E); [right; congruence|]. rewrite E.
  destruct (load_spec k (getlines c []) (fun _ => None)) as (o' & L' & _).
  assert (o = o') as ->.
  { refine (all_lines_other fs k i c F _ _ _ o o' L L'); [apply first_uses_in; right; apply in_or_app; right; left; reflexivity|].
    intros j J NE lj v I. apply first_uses_in in J. destruct J as [[]|J]. apply in_app_or in J as [J|[J|[]]]; [|congruence].
    unfold lines_of in I. destruct (fs j) as [cj|] eqn:FJ; [|destruct I].
    apply (N j cj lj v J NE FJ). exists (getlines cj []). split; [apply lines_exist|exact I]. }
  exists (getlines c []), o'. split; [apply lines_exist|split; [exact L'|reflexivity]].
Qed.
Lemma one_spec fs i c : fs i = Some c -> forall keys, Forall2 (file_says c) keys (fst (requests fs cache0 (map (fun k => (i, k)) keys))).
Proof.
  intros F keys.
  assert (G : forall keys pre, Forall2 (file_says c) keys
     (fst (requests fs (snd (requests fs cache0 (map (fun k => (i, k)) pre))) (map (fun k => (i, k)) keys)))).
  { clear keys. induction keys as [|k r IH]; intros pre; [constructor|]. cbn [map requests].
    assert (AP : forall l1 l2 st, snd (requests fs st (l1 ++ l2)) = snd (requests fs (snd (requests fs st l1)) l2)).
    { clear. induction l1 as [|[a b] l1 IH]; intros l2 st; [reflexivity|]. cbn [app requests].
      destruct (get_input (fs a) st a b) as [v st1]. specialize (IH l2 st1).
      destruct (requests fs st1 (l1 ++ l2)), (requests fs st1 l1). exact IH. }
    pose proof (own_spec fs (map (fun k => (i, k)) pre) i k c F) as O.
    assert (N : file_says c k (fst (get_input (fs i) (snd (requests fs cache0 (map (fun k => (i, k)) pre))) i k))).
    { apply O. intros j cj lj v J NE. exfalso. apply NE. clear - J. induction pre as [|p r IH]; [destruct J|].
      destruct J as [J|J]; [symmetry; exact J|exact (IH J)]. }
    specialize (IH (pre ++ [k])). rewrite map_app, AP in IH. cbn [map requests] in IH.
    destruct (get_input (fs i) (snd (requests fs cache0 (map (fun k0 => (i, k0)) pre))) i k) as [v st1]. cbn [fst snd] in *.
    destruct (requests fs st1 (map (fun k0 => (i, k0)) r)) as [vs st2]. cbn [fst] in *. constructor; assumption. }
  exact (G keys []).
Qed.
Lemma repeat_spec file file' st i k : In i (cached_inputs st) \/ file <> None ->
  let r := get_input file st i k in
  fst (get_input file' (snd r) i k) = fst r /\ snd (get_input file' (snd r) i k) = snd r.
Proof.
  intros H r. subst r.
  assert (A : forall f s, existsb (str_eqb i) (cached_inputs s) = true ->
     get_input f s i k = (match cached_values s k with Some v => v | None => value_default end, s)).
  { intros f s X. unfold get_input. rewrite X. reflexivity. }
  destruct (existsb (str_eqb i) (cached_inputs st)) eqn:E.
  - rewrite (A file st E). cbn [fst snd]. rewrite (A file' st E). split; reflexivity.
  - destruct file as [c|]; [|destruct H as [H|H]; [apply existsb_in in H; congruence|congruence]].
    set (st1 := {| cached_inputs := cached_inputs st ++ [i]; cached_values := load (getlines c []) (cached_values st) |}).
    assert (R : get_input (Some c) st i k = (match cached_values st1 k with Some v => v | None => value_default end, st1))
      by (unfold get_input; rewrite E; reflexivity).
    rewrite R. cbn [fst snd]. rewrite A; [split; reflexivity|]. cbn [cached_inputs st1]. rewrite existsb_app. cbn [existsb].
    rewrite str_eqb_refl, orb_true_r. reflexivity.
Qed.
Lemma repeat_history fs l i k file file' : In i (map fst l) \/ file <> None ->
  let r := get_input file (snd (requests fs cache0 l)) i k in
  fst (get_input file' (snd r) i k) = fst r /\ snd (get_input file' (snd r) i k) = snd r.
Proof.
  intros H. apply repeat_spec. destruct H as [H|H]; [left|right; exact H].
  destruct (requests_inv fs l cache0 (inv0 fs)) as [_ E]. rewrite E. apply first_uses_in. right. exact H.
Qed.

(** *** witnesses: a = "a", b = "b"; the file a says x=1, the file b says x=2 *)
Definition fs2 (i : str) : option str :=
  if str_eqb i [97] then Some [120; 61; 49; 10] else if str_eqb i [98] then Some [120; 61; 50; 10] else None.
Lemma two_files : fs2 [97] = Some [120; 61; 49; 10] /\ fst (requests fs2 cache0 [([97], [120]); ([98], [120]); ([97], [120])]) = [[49]; [50]; [50]].
Proof. split; reflexivity. Qed.
Lemma says1 : file_says [120; 61; 49; 10] [120] [49].
Proof.
  exists [[120; 61; 49]], (Some [49]). repeat split.
  - constructor; [|constructor]. intros [H|[H|[H|[]]]]; discriminate.
  - left. reflexivity.
  - apply (ld_some [120] [] [120; 61; 49] [49] []); [split; [intros [H|[]]; discriminate|reflexivity]|]. intros l' v' [].
Qed.
Lemma get_refuted : exists fs l i k c, fs i = Some c /\ In i (map fst l) /\
  ~ file_says c k (fst (get_input (fs i) (snd (requests fs cache0 l)) i k)).
Proof.
  exists fs2, [([97], [120]); ([98], [120])], [97], [120], [120; 61; 49; 10].
  split; [reflexivity|]. split; [left; reflexivity|]. intros H. pose proof (says_unique _ _ _ _ H says1) as E. vm_compute in E. discriminate.
Qed.
Lemma repeat_refuted : exists fs l i k, let st := snd (requests fs cache0 l) in
  fst (requests fs st [(i, k); (i, k)]) = [[48]; [49]] /\ fs i = None.
Proof. exists fs2, [([97], [120])], [99], [120]. split; reflexivity. Qed.
