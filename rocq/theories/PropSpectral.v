(** Generated from SpectralThms.v by tools/gen_props.py: theorem statements,
    each closed by the lemma of the same name proved there. *)

From Coq Require Import String List Bool Arith ZArith QArith Permutation Lia.
From Verif Require Import Base Manager Spec ManagerThms SamplingSpec ClusterSpec KMeansSpec KMeansThms Spectral SpectralSpec SpectralThms.
Import ListNotations.
Open Scope nat_scope.
Open Scope py_scope.

Definition A := str "a". Definition B := str "b". Definition C := str "c". Definition E := str "d".
Definition ex : mgr := run [CallAddConstraint A C MUST_LINK 1%Q; CallAddConstraint A B CANNOT_LINK 1%Q] (init [A; B; C; E]).
Definition vecs : dict pystr Z := [(E, 12); (A, 0); (B, 1); (C, 10)]%Z.
(** A kernel, and a solver that puts in one cluster the points whose similarity to the first point is at least 900. *)
Definition sim (X : list Z) (i j : nat) : Z := (1000 - 10 * Z.abs (nth i X 0 - nth j X 0))%Z.
Definition solve (n : nat) (M : list (list Z)) : res (list Z) :=
  match M with [] => Raise ValueError | row :: _ => Ok (map (fun v => if (v <? 900)%Z then 7 else 3)%Z row) end.
Definition spectral_Z := cluster Z Z sim 0%Z 1000%Z solve.

(** C42: the solver gets the matrix with 1 for pairs inferred MUST_LINK, 0 for CANNOT_LINK and the kernel elsewhere, and the number of clusters; the matrix is symmetric when the kernel is. *)
Theorem C42_affinity_matrix :
  forall vec D kernel (zero one : D) solver m (vectors : dict pystr vec) nb s l,
    reachable m -> ask get_list_of_managed_data_IDs m = Ok l -> l <> [] -> covers (Some vectors) m -> (2 <= nb)%Z ->
    exists rows M, vectors_are vectors l rows /\ affinity_matrix m l zero one (kernel rows) M /\
      ((forall i j, kernel rows i j = kernel rows j i) -> forall i j, entry M i j = entry M j i) /\
      sp_matrix D (fst (cluster vec D kernel zero one solver m vectors (Some nb) s)) = Some M /\
      match solver (Nat.min (Z.to_nat nb) (length l)) M with
      | Raise e => result (cluster vec D kernel zero one solver m vectors (Some nb)) s = Raise e
      | Ok labels => length labels = length l ->
          exists d, result (cluster vec D kernel zero one solver m vectors (Some nb)) s = Ok d /\ grouped_by l labels d
      end.
Proof. exact C42_affinity_matrix_proof. Qed.
Print Assumptions C42_affinity_matrix.

(** A and C are linked, A and B cannot be: the entries 1000 and 0 replace the kernel. *)
Example C42_ex : (sp_matrix Z (fst (spectral_Z ex vecs (Some 2%Z) (fresh_spectral Z))), ask get_list_of_managed_data_IDs ex) =
  (Some [[1000; 0; 1000; 880]; [0; 1000; 0; 890]; [1000; 0; 1000; 980]; [880; 890; 980; 1000]]%Z, Ok [A; B; C; E]).
Proof. vm_compute; reflexivity. Qed.

(** C43: whatever the solver answers, a result is a canonical clustering of exactly the managed IDs that groups them as the solver did; there is one when the solver labels every ID. *)
Theorem C43_spectral_canonical :
  forall vec D kernel (zero one : D) solver m (vectors : dict pystr vec) nb s s' d l,
    reachable m -> ask get_list_of_managed_data_IDs m = Ok l ->
    cluster vec D kernel zero one solver m vectors nb s = (s', Ok d) ->
    canonical d /\ covers_exactly m d /\ sp_predicted D s' = Some d /\
    exists n M labels, nb = Some n /\ sp_matrix D s' = Some M /\
      solver (Nat.min (Z.to_nat n) (length l)) M = Ok labels /\ length l <= length labels /\ grouped_by l labels d.
Proof. exact C43_spectral_canonical_proof. Qed.
Print Assumptions C43_spectral_canonical.

Example C43_ex : result (spectral_Z ex vecs (Some 2%Z)) (fresh_spectral Z) = Ok [(A, 0); (B, 1); (C, 0); (E, 1)]%Z /\
  solve 2 [[1000; 0; 1000; 880]; [0; 1000; 0; 890]; [1000; 0; 1000; 980]; [880; 890; 980; 1000]]%Z = Ok [3; 7; 3; 7]%Z.
Proof. split; vm_compute; reflexivity. Qed.

(** C67: apart from errors of the solver, spectral clustering raises exactly on a bad number of clusters, a manager without ID or a missing vector; such a call changes nothing. *)
Theorem C67_spectral_errors :
  forall vec D kernel (zero one : D) solver m (vectors : dict pystr vec) nb s e l,
    reachable m -> ask get_list_of_managed_data_IDs m = Ok l ->
    (forall n M, length M = length l -> exists labels, solver n M = Ok labels /\ length labels = length M) ->
    (result (cluster vec D kernel zero one solver m vectors nb) s = Raise e <->
     (e = ValueError /\ (nb = None \/ (exists n, nb = Some n /\ (n < 2)%Z) \/ ~ has_ids m)) \/
     (e = KeyError /\ (exists n, nb = Some n /\ (2 <= n)%Z) /\ exists x, managed m x /\ ~ In x (keys vectors))) /\
    (result (cluster vec D kernel zero one solver m vectors nb) s = Raise e -> fst (cluster vec D kernel zero one solver m vectors nb s) = s).
Proof. exact C67_spectral_errors_proof. Qed.
Print Assumptions C67_spectral_errors.

Example C67_errors_ex : result (spectral_Z ex [(A, 0)]%Z (Some 2%Z)) (fresh_spectral Z) = Raise KeyError /\
  result (spectral_Z (init []) vecs (Some 2%Z)) (fresh_spectral Z) = Raise ValueError /\
  result (spectral_Z ex vecs (Some 1%Z)) (fresh_spectral Z) = Raise ValueError /\
  make_spectral (str "CCSR") None = Raise ValueError /\ make_spectral (str "SPEC") (Some 1%Z) = Raise ValueError /\ make_spectral (str "SPEC") None = Ok tt.
Proof. repeat split; vm_compute; reflexivity. Qed.

(** C67: the constructor accepts exactly the model SPEC with no or at least two components. *)
Theorem C67_spectral_constructor :
  forall model nb_components,
    (make_spectral model nb_components = Ok tt <->
     model = str "SPEC" /\ match nb_components with None => True | Some n => (2 <= n)%Z end) /\
    (make_spectral model nb_components <> Ok tt -> make_spectral model nb_components = Raise ValueError).
Proof. exact C67_spectral_constructor_proof. Qed.
Print Assumptions C67_spectral_constructor.

(** C68: a spectral clustering object can be reused: results and attributes do not depend on earlier calls. *)
Theorem C68_spectral_no_memory :
  forall vec D kernel (zero one : D) solver m (vectors : dict pystr vec) nb s1 s2,
    result (cluster vec D kernel zero one solver m vectors nb) s1 = result (cluster vec D kernel zero one solver m vectors nb) s2 /\
    forall s1' s2' d1 d2, cluster vec D kernel zero one solver m vectors nb s1 = (s1', Ok d1) ->
      cluster vec D kernel zero one solver m vectors nb s2 = (s2', Ok d2) -> s1' = s2'.
Proof. exact C68_spectral_no_memory_proof. Qed.
Print Assumptions C68_spectral_no_memory.

Example C68_ex : forall s, result (spectral_Z ex vecs (Some 2%Z)) s = Ok [(A, 0); (B, 1); (C, 0); (E, 1)]%Z.
Proof. intro s. transitivity (result (spectral_Z ex vecs (Some 2%Z)) (fresh_spectral Z)); [apply C68_spectral_no_memory|vm_compute; reflexivity]. Qed.
