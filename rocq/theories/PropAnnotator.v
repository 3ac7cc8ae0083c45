(** Generated from AnnotatorThms.v by tools/gen_props.py: theorem statements,
    each closed by the lemma of the same name proved there. *)

From Coq Require Import String List Bool Arith ZArith QArith Permutation.
From Verif Require Import Base Manager Spec ManagerThms Sampling SamplingSpec Loop LoopThms Annotator AnnotatorSpec AnnotatorThms.
Import ListNotations.
Open Scope nat_scope.

Definition a := str "a". Definition b := str "b". Definition c := str "c". Definition d := str "d".

(** C106: adding any annotations, as the loops do, never fails on a reachable manager; what is reported is exactly what was refused, in order. *)
Theorem C106_refused_reported :
  forall l m, reachable m -> exists m' log,
    record_annotations l m = (m', Ok log) /\ map fst log = l /\ add_annotations l m = (m', Ok (map fst (filter (fun e => negb (snd e)) log))).
Proof. exact C106_refused_reported_proof. Qed.
Print Assumptions C106_refused_reported.

Example C106_refused_ex :
  snd (add_annotations [(a, b, MUST_LINK); (b, c, MUST_LINK); (a, c, CANNOT_LINK); (a, d, str "?"); (c, d, CANNOT_LINK)] (init [a; b; c; d])) =
  Ok [(a, c, CANNOT_LINK); (a, d, str "?")].
Proof. vm_compute. reflexivity. Qed.

(** C106: whatever the annotator answers, a session only stops early when everything is decided; an annotation is accepted exactly when it is kept: at the end, the added constraints are the former ones and the accepted annotations; every accepted annotation is inferred as given, and the opposite of every well-formed refused one is inferred. *)
Theorem C106_any_annotator :
  forall vec D pairwise ltb draws annotator o nb vectors s m patience,
    (forall i, valid_draw (draws i)) -> o_clusters o = None -> reachable m -> valid_arguments (vec := vec) o m nb None vectors ->
    exists s' m' rounds log,
      free_loop vec D pairwise ltb draws annotator o nb vectors patience 0 (s, m) = ((s', m'), Ok (rounds, log)) /\
      rounds <= patience /\ (rounds < patience -> complete m') /\ reachable m' /\
      ask get_list_of_managed_data_IDs m' = ask get_list_of_managed_data_IDs m /\
      (forall t p q, added m' t p q <-> added m t p q \/ exists a b, In ((a, b, t), true) log /\ same_unordered a b p q) /\
      (forall a b t, In ((a, b, t), true) log -> managed m a /\ managed m b /\ allowed t /\ inferred m' a b (Some t)) /\
      (forall a b t, In ((a, b, t), false) log -> managed m a -> managed m b -> allowed t -> inferred m' a b (Some (opposite t))).
Proof. exact C106_any_annotator_proof. Qed.
Print Assumptions C106_any_annotator.

(** The annotator links a and b, b and c, then separates a and c, which is refused; it also uses an unknown ID. *)
Definition careless (i : nat) (selection : list (pystr * pystr)) : list annotation :=
  [((a, b), MUST_LINK); ((b, c), MUST_LINK); ((c, a), CANNOT_LINK); ((a, str "z"), MUST_LINK); ((a, d), CANNOT_LINK)].
Definition line_loop an nb patience m := free_loop unit unit (fun _ _ _ => tt) (fun _ _ => false) (fun _ l k => firstn k l) an (mkOptions None None true true) nb None
  patience 0 (fresh_sampler unit unit, m).
Example C106_ex : let r := line_loop careless 2%Z 5 (init [a; b; c; d]) in
  snd r = Ok (1, [(((a, b), MUST_LINK), true); (((b, c), MUST_LINK), true); (((c, a), CANNOT_LINK), false); (((a, str "z"), MUST_LINK), false); (((a, d), CANNOT_LINK), true)]) /\
  ask get_connected_components (snd (fst r)) = Ok [[a; b; c]; [d]].
Proof. vm_compute. split; reflexivity. Qed.

(** C106: no annotation is refused exactly when all of them are about managed IDs, with one of the two types, and some labelling agrees with all of them and with the former constraints. *)
Theorem C106_no_refusal_iff :
  forall vec D pairwise ltb draws annotator o nb vectors s m patience s' m' rounds log,
    (forall i, valid_draw (draws i)) -> o_clusters o = None -> reachable m -> valid_arguments (vec := vec) o m nb None vectors ->
    free_loop vec D pairwise ltb draws annotator o nb vectors patience 0 (s, m) = ((s', m'), Ok (rounds, log)) ->
    (refusals log = 0 <->
     (forall a b t accepted, In ((a, b, t), accepted) log -> managed m a /\ managed m b /\ allowed t) /\
     satisfiable (fun x y => added_must m x y \/ said log MUST_LINK x y) (fun x y => added_cannot m x y \/ said log CANNOT_LINK x y)).
Proof. exact C106_no_refusal_iff_proof. Qed.
Print Assumptions C106_no_refusal_iff.

Example C106_refusal_ex : option_map (fun r => refusals (snd r)) (match snd (line_loop careless 2%Z 5 (init [a; b; c; d])) with Ok r => Some r | _ => None end) = Some 2.
Proof. reflexivity. Qed.

(** C106: an annotator who gives one of the two answers for every selected pair, even at random, decides all the pairs within n(n-1)/2 iterations; the first answer of each iteration is accepted, so with one pair at a time none is refused; the components then agree with all accepted answers and with the opposite of all refused ones. *)
Theorem C106_answers_everything :
  forall vec D pairwise ltb draws annotator o nb vectors s m l patience,
    (forall i, valid_draw (draws i)) -> o_clusters o = None -> o_without_inferred o = true -> (1 <= nb)%Z -> answers_everything annotator ->
    reachable m -> valid_arguments (vec := vec) o m nb None vectors -> ask get_list_of_managed_data_IDs m = Ok l ->
    length l * (length l - 1) / 2 < patience ->
    exists s' m' rounds log components,
      free_loop vec D pairwise ltb draws annotator o nb vectors patience 0 (s, m) = ((s', m'), Ok (rounds, log)) /\
      rounds <= length l * (length l - 1) / 2 /\ complete m' /\
      length log <= rounds * Z.to_nat nb /\ refusals log + rounds <= length log /\ (nb = 1%Z -> refusals log = 0) /\
      ask get_connected_components m' = Ok components /\
      forall a b t accepted, In ((a, b, t), accepted) log ->
        ((exists c, In c components /\ In a c /\ In b c) <-> (if accepted : bool then t else opposite t) = MUST_LINK).
Proof. exact C106_answers_everything_proof. Qed.
Print Assumptions C106_answers_everything.

(** One pair at a time: whatever is answered, nothing is refused. *)
Definition erratic (i : nat) (selection : list (pystr * pystr)) : list annotation :=
  map (fun p => (p, if eqb (snd p) d then CANNOT_LINK else if Nat.even i then MUST_LINK else CANNOT_LINK)) selection.
Example C106_erratic_answers : answers_everything erratic.
Proof.
  intros i l. unfold erratic. split; [rewrite map_map; cbn [fst]; apply map_id|]. intros x J. apply in_map_iff in J. destruct J as (p & <- & _). cbn [snd].
  unfold allowed. destruct (eqb (snd p) d); auto. destruct (Nat.even i); auto.
Qed.
Example C106_one_at_a_time_ex : let r := line_loop erratic 1%Z 7 (init [a; b; c; d]) in
  snd r = Ok (4, [(((a, b), MUST_LINK), true); (((a, c), CANNOT_LINK), true); (((a, d), CANNOT_LINK), true); (((c, d), CANNOT_LINK), true)]) /\
  ask get_connected_components (snd (fst r)) = Ok [[a; b]; [c]; [d]].
Proof. vm_compute. split; reflexivity. Qed.
(** All pairs at once: the contradictions are refused. *)
Example C106_all_at_once_ex : let r := line_loop (fun _ => map (fun p => (p, if eqb (fst p ++ snd p) (a ++ c) then CANNOT_LINK else MUST_LINK))) 6%Z 7 (init [a; b; c; d]) in
  snd r = Ok (1, [(((a, b), MUST_LINK), true); (((a, c), CANNOT_LINK), true); (((a, d), MUST_LINK), true); (((b, c), MUST_LINK), false); (((b, d), MUST_LINK), true); (((c, d), MUST_LINK), false)]) /\
  ask get_connected_components (snd (fst r)) = Ok [[a; b; d]; [c]].
Proof. vm_compute. split; reflexivity. Qed.
