(** * Model of the annotation loop of the usage guide (/repo/docs/usage.md:70-124).

    One iteration: stop when [check_completude_of_constraints()], else sample pairs,
    annotate them and add the annotations, catching [ValueError].  The annotator is a
    fixed ground-truth labelling; the random draw may differ in every iteration.  The
    clustering step (126-149) does not touch the manager and is left out. *)

From Coq Require Import String List Bool Arith ZArith QArith.
From Verif Require Import Base Manager Sampling.
Import ListNotations.
Open Scope nat_scope.
Open Scope py_scope.

(** [list_of_annotation] (105): the annotator compares the true labels. *)
Definition annotate (truth : pystr -> nat) (selection : list (pystr * pystr)) : list (pystr * pystr * pystr) :=
  map (fun p => (fst p, snd p, if Nat.eqb (truth (fst p)) (truth (snd p)) then MUST_LINK else CANNOT_LINK)) selection.

(** [for annotation in list_of_annotation: try: add_constraint(...) except ValueError: print(err)]
    (110-123); returns the refused annotations. *)
Fixpoint add_annotations (l : list (pystr * pystr * pystr)) : M mgr (list (pystr * pystr * pystr)) :=
  match l with
  | [] => ret []
  | c :: l' => fun m =>
      match add_constraint (fst (fst c)) (snd (fst c)) (snd c) 1%Q m with
      | (m', Ok _) => add_annotations l' m'
      | (m', Raise ValueError) => (refused <- add_annotations l' ;; ret (c :: refused)) m'
      | (m', Raise e) => (m', Raise e)
      end
  end.

Section WithOracles.
  Variables vec D : Type.
  Variable pairwise : list vec -> nat -> nat -> D.
  Variable ltb : D -> D -> bool.
  Variable draws : nat -> list (pystr * pystr) -> nat -> list (pystr * pystr).
  Variable truth : pystr -> nat.
  Variable o : options.
  Variable nb_to_select : Z.
  Variable vectors : option (dict pystr vec).

  (** Iterations numbered from [iteration]; returns the number of the last one and all
      refused annotations. *)
  Fixpoint annotation_loop (fuel iteration : nat) : M (world vec D) (nat * list (pystr * pystr * pystr)) :=
    match fuel with
    | 0 => raise OutOfFuel
    | S fuel' =>
        is_finish <- on_mgr vec D check_completude_of_constraints ;;                          (* 75-80 *)
        if is_finish : bool then ret (iteration, [])
        else
          selection <- sample vec D pairwise ltb (draws iteration) o nb_to_select None vectors ;;   (* 92-97 *)
          refused <- on_mgr vec D (add_annotations (annotate truth selection)) ;;             (* 110-123 *)
          r <- annotation_loop fuel' (S iteration) ;;
          ret (fst r, refused ++ snd r)
    end.
End WithOracles.
