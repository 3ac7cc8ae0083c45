(** Generated from GuideThms.v by tools/gen_props.py: theorem statements,
    each closed by the lemma of the same name proved there. *)

From Coq Require Import String List Bool Arith ZArith QArith Permutation.
From Verif Require Import Base Manager Spec ManagerThms Sampling SamplingSpec MinMax ClusterSpec KMeans KMeansSpec Loop Usage
  Text TextSpec GuideThms.
Import ListNotations.
Open Scope nat_scope.
Open Scope py_scope.


(** C87: following the guide from raw texts: when the texts are preprocessed and vectorized without error and belong to at least two true clusters, the session with the manager made from the same IDs ends within n(n-1)/2 iterations, refuses no annotation and its last clustering is exactly the ground truth over the IDs of the texts. *)
Theorem C87_guide :
  forall lower strip nfkd combining nlp_load words D (eqD : EqB D) weight normalize vector_load sampling_distances pairwise ltb dzero dsum mean
         draws shuffles set_orders node_orders truth o model it tol p nb_to_select texts stop parse lemma language vectorizer language' clean vectors,
    (forall i, valid_draw (draws i)) -> (forall i, valid_shuffle (shuffles i)) ->
    (forall i, valid_set_order (set_orders i)) -> (forall i, valid_orders (node_orders i)) ->
    o_clusters o = None -> o_without_inferred o = true -> (1 <= nb_to_select)%Z -> make_kmeans D ltb dzero model it tol = Ok p ->
    NoDup (keys texts) ->
    preprocess lower strip nfkd combining nlp_load texts stop parse lemma language = Ok clean ->
    vectorize D words weight normalize vector_load clean vectorizer language' = Ok vectors ->
    (exists a b, In a (keys texts) /\ In b (keys texts) /\ truth a <> truth b) ->
    let n := length texts in
    exists rounds clusters,
      result (session (list D) D sampling_distances pairwise ltb dsum mean draws shuffles set_orders node_orders truth o p nb_to_select vectors
                (S (n * (n - 1) / 2))) (init (keys texts)) = Ok (rounds, clusters, []) /\
      rounds <= n * (n - 1) / 2 /\ canonical clusters /\ (forall x, In x (keys clusters) <-> In x (keys texts)) /\
      forall a b, In a (keys texts) -> In b (keys texts) -> (dget a clusters = dget b clusters <-> truth a = truth b).
Proof. exact C87_guide_proof. Qed.
Print Assumptions C87_guide.

(** Three short texts, two topics; one word is one token, a vector counts the common words. *)
Fixpoint split_words (w s : pystr) : list pystr :=
  match s with
  | [] => [w]
  | c :: s' => if N.eqb c 32 then w :: split_words [] s' else split_words (w ++ [c]) s'
  end.
Definition ex_nlp (s : pystr) : list token := map (fun w => mkToken w w (eqb w []) false false false 0) (split_words [] s).
Definition texts : dict pystr pystr := [(str "0", str "lost card!"); (str "1", str "open account"); (str "2", str "the lost account?")].
Definition clean : dict pystr pystr := [(str "0", str "lost card"); (str "1", str "open account"); (str "2", str "the lost account")].
Definition vecs : dict pystr (list Z) := [(str "0", [0; 1]); (str "1", [1; 0]); (str "2", [1; 1])]%Z.
Definition truth (x : pystr) : nat := if eqb x (str "1") then 1 else 0.
Definition dist (X Y : list (list Z)) (i j : nat) : Z :=
  fold_right Z.add 0%Z (map (fun e => Z.abs (fst e - snd e)) (combine (nth i X []) (nth j Y []))).
Definition zmean (l : list (list Z)) : list Z := nth 0 l [].
Example C87_ex :
  preprocess (fun s => s) (fun s => s) (fun s => s) (fun _ => false) (fun _ => Some ex_nlp) texts false false false (str "en") = Ok clean /\
  vectorize Z (split_words []) (fun tf df n => Z.of_nat tf) (fun r => r) (fun _ => None) clean (str "tfidf") (str "en") = Ok vecs /\
  result (session (list Z) Z (fun X => dist X X) dist Z.ltb (fold_right Z.add 0%Z) zmean (fun _ l k => firstn k l) (fun _ l => l) (fun _ => nodup Z.eq_dec)
     (fun _ _ g => g_nodes g) truth (mkOptions None None true true) (mkKParams Z 5 1%Z) 1 vecs 4) (init (keys texts))
  = Ok (2, [(str "0", 0); (str "1", 1); (str "2", 0)]%Z, []).
Proof. split; [vm_compute; reflexivity|]. split; vm_compute; reflexivity. Qed.
