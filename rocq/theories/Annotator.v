(** * Model of the annotation loop of the usage guide (/repo/docs/usage.md:70-124) with an
    annotator who may answer anything.

    As in Loop.v, but the annotations of an iteration ([list_of_annotation], filled by hand,
    105) are any list of triples, given the number of the iteration and the selected pairs:
    the annotator may be wrong, contradict the annotations given before, answer only some of
    the pairs or others than those asked, use unknown IDs or types, and may stop after any number of
    iterations. *)

From Coq Require Import String List Bool Arith ZArith QArith.
From Verif Require Import Base Manager Sampling.
Import ListNotations.
Open Scope nat_scope.
Open Scope py_scope.

Definition annotation := (pystr * pystr * pystr)%type.

(** [for annotation in list_of_annotation: try: add_constraint(...) except ValueError: print(err)]
    (110-123); every annotation comes back with whether it was accepted. *)
Fixpoint record_annotations (l : list annotation) : M mgr (list (annotation * bool)) :=
  match l with
  | [] => ret []
  | c :: l' => fun m =>
      match add_constraint (fst (fst c)) (snd (fst c)) (snd c) 1%Q m with
      | (m', Ok _) => (log <- record_annotations l' ;; ret ((c, true) :: log)) m'
      | (m', Raise ValueError) => (log <- record_annotations l' ;; ret ((c, false) :: log)) m'
      | (m', Raise e) => (m', Raise e)
      end
  end.

Section WithOracles.
  Variables vec D : Type.
  Variable pairwise : list vec -> nat -> nat -> D.
  Variable ltb : D -> D -> bool.
  Variable draws : nat -> list (pystr * pystr) -> nat -> list (pystr * pystr).
  Variable annotator : nat -> list (pystr * pystr) -> list annotation.
  Variable o : options.
  Variable nb_to_select : Z.
  Variable vectors : option (dict pystr vec).

  (** At most [patience] iterations, numbered from [iteration]; returns the number of the last
      one and all annotations. *)
  Fixpoint free_loop (patience iteration : nat) : M (world vec D) (nat * list (annotation * bool)) :=
    match patience with
    | 0 => ret (iteration, [])
    | S patience' =>
        is_finish <- on_mgr vec D check_completude_of_constraints ;;                          (* 75-80 *)
        if is_finish : bool then ret (iteration, [])
        else
          selection <- sample vec D pairwise ltb (draws iteration) o nb_to_select None vectors ;;   (* 92-97 *)
          log <- on_mgr vec D (record_annotations (annotator iteration selection)) ;;         (* 105-123 *)
          r <- free_loop patience' (S iteration) ;;
          ret (fst r, log ++ snd r)
    end.
End WithOracles.
