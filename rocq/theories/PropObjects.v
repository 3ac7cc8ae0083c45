(** Generated from ObjectsThms.v by tools/gen_props.py: theorem statements,
    each closed by the lemma of the same name proved there. *)

From Coq Require Import String List Bool Arith ZArith NArith QArith Lia.
From Verif Require Import Base Manager Spec ManagerThms Json JsonSpec SamplingSpec ClusterSpec KMeansSpec Hierarchical HierSpec Objects ObjectsSpec ObjectsThms.
Import ListNotations.
Open Scope nat_scope.

(** An instance for the examples: points on a line. *)
Definition A := str "a". Definition B := str "b". Definition C := str "c".
Definition points : dict pystr Z := [(A, 0); (B, 1); (C, 10)]%Z.
Definition zmean (l : list Z) : Z := (fold_right Z.add 0 l / Z.of_nat (length l))%Z.
Definition hier_Z := cluster Z Z (fun X i j => Z.abs (nth i X 0 - nth j X 0)%Z) (fun x y => Z.abs (x - y)%Z) Z.ltb (fold_right Z.add 0%Z)
  (fun d n => (d / Z.of_nat n)%Z) 1000000%Z zmean.
(** One object per ID. *)
Definition leaves_of (l : list pystr) : heap Z := fold_left (fun h x => fst (construct Z zmean points 0 0 None (Some [x]) h)) l [].
Definition three : heap Z :=
  fst (construct Z zmean points 2 1 (Some [0; 1]) None
    (fst (construct Z zmean points (-7) 0 None (Some [B]) (fst (construct Z zmean points 0 0 None (Some [A]) []))))).


(** C91: the constructor makes the objects that Hierarchical.v models as trees: the new object is the tree described there, the others are unchanged, and the errors are the same. *)
Theorem C91_constructor :
  forall vec (mean : list vec -> vec) vectors h children trees members id it,
    children_are vectors h children trees ->
    match new_cluster vec mean vectors id it trees members with
    | Ok t => exists o, construct vec mean vectors id (Z.of_nat it) children members h = (h ++ [o], Ok (length h)) /\
                represents vectors (h ++ [o]) (length h) t /\
                forall a u, represents vectors h a u -> represents vectors (h ++ [o]) a u
    | Raise e => construct vec mean vectors id (Z.of_nat it) children members h = (h, Raise e)
    end.
Proof. exact C91_constructor_proof. Qed.
Print Assumptions C91_constructor.

(** The parent of two leaves; and a parent of nothing. *)
Example C91_constructor_ex :
  let h2 := fst (construct Z zmean points 1 0 None (Some [B]) (fst (construct Z zmean points 0 0 None (Some [A]) []))) in
  snd (construct Z zmean points 2 1 (Some [0; 1]) None h2) = Ok 2 /\
  map (o_members Z) (fst (construct Z zmean points 2 1 (Some [0; 1]) None h2)) = [[A]; [B]; [A; B]] /\
  construct Z zmean points 2 1 (Some []) None h2 = (h2, Raise ZeroDivisionError) /\
  construct Z zmean points 2 1 None None h2 = (h2, Raise ValueError).
Proof. vm_compute; auto. Qed.

(** C91: to_dict of a tree of objects describes that tree and nothing else; it fails exactly when the tree has as many levels as nested calls are allowed, and then with RecursionError. *)
Theorem C91_description :
  forall vec vectors (h : heap vec) a t limit,
    represents vectors h a t ->
    (height t < limit -> exists v, to_dict vec limit h a = Ok v /\ describes v (outline_of t) /\
       forall other, describes v other -> other = outline_of t) /\
    (limit <= height t -> to_dict vec limit h a = Raise RecursionError).
Proof. exact C91_description_proof. Qed.
Print Assumptions C91_description.

(** Three objects, two levels. *)
Example C91_description_ex :
  represents points three 2 (Node Z 2 1 [Node Z 0 0 [] 0 [A] 0%Z; Node Z (-7) 0 [] 0 [B] 1%Z] 1 [A; B] 0%Z) /\
  to_dict Z 1 three 2 = Raise RecursionError /\
  to_dict Z 2 three 2 = Ok (JObj
    [(str "cluster_ID", JNum (str "2")); (str "clustering_iteration", JNum (str "1"));
     (str "children", JArr
        [JObj [(str "cluster_ID", JNum (str "0")); (str "clustering_iteration", JNum (str "0")); (str "children", JArr []);
               (str "cluster_inverse_depth", JNum (str "0")); (str "members", JArr [JStr A])];
         JObj [(str "cluster_ID", JNum (str "-7")); (str "clustering_iteration", JNum (str "0")); (str "children", JArr []);
               (str "cluster_inverse_depth", JNum (str "0")); (str "members", JArr [JStr B])]]);
     (str "cluster_inverse_depth", JNum (str "1")); (str "members", JArr [JStr A; JStr B])]).
Proof.
  split; [|split; vm_compute; reflexivity].
  eapply represents_node; try reflexivity. repeat constructor; eapply represents_node; try reflexivity; constructor.
Qed.

(** C91: the tree kept by a hierarchical clustering can be made of objects; its description takes at most one nested call per ID, and written as JSON text and read again it still describes the tree. *)
Theorem C91_clustering_description :
  forall vec D (eqD : EqB D) pairwise cdistance ltb dsum ddiv inf mean name linkage m vectors nb s s' d ids,
    reachable m -> make_hierarchical name = Ok linkage ->
    cluster vec D pairwise cdistance ltb dsum ddiv inf mean linkage m vectors nb s = (s', Ok d) ->
    ask get_list_of_managed_data_IDs m = Ok ids ->
    exists root, h_root vec s' = Some root /\
      (exists h a, constructed mean h /\ represents vectors h a root) /\
      forall h a limit, represents vectors h a root -> length ids <= limit ->
        exists v, to_dict vec limit h a = Ok v /\ describes v (outline_of root) /\
          ((forall x, In x ids -> python_string x /\ ~ splits_a_character x) -> loads (dump 0 v) = Ok v).
Proof. exact C91_clustering_description_proof. Qed.
Print Assumptions C91_clustering_description.

Example C91_clustering_ex :
  exists root d, fst (hier_Z (str "single") (init [A; B; C]) points (Some 2%Z) (fresh_hier Z)) = mkHier Z (Some [A; B; C]) (Some root) (Some d) /\
    height root = 2 /\ python_string A /\ ~ splits_a_character A.
Proof.
  eexists. eexists. split; [vm_compute; reflexivity|]. split; [vm_compute; reflexivity|]. split.
  - intros c [<-|[]]. reflexivity.
  - intros (p & hi & lo & q & Q & _). destruct p as [|x [|y p]]; discriminate.
Qed.

(** C91: no smaller number of nested calls is enough in general: for every number of data some clustering keeps a tree whose description takes that many. *)
Theorem C91_deep_clusterings :
  forall n limit, 1 <= n -> limit < n ->
    exists m vectors inf s d root ids, reachable m /\ ask get_list_of_managed_data_IDs m = Ok ids /\ length ids = n /\
      cluster nat nat (fun X i j => if nth i X 0 =? nth j X 0 then 0 else Nat.max (nth i X 0) (nth j X 0)) (fun x y => x - y + (y - x))
        Nat.ltb (fold_right Nat.add 0) Nat.div inf (fun l => Nat.div (fold_right Nat.add 0 l) (length l)) (str "single")
        m vectors (Some 2%Z) (fresh_hier nat) = (s, Ok d) /\
      h_root nat s = Some root /\
      forall h a, represents vectors h a root -> to_dict nat limit h a = Raise RecursionError.
Proof. exact C91_deep_clusterings_proof. Qed.
Print Assumptions C91_deep_clusterings.

(** Python allows 1000 nested calls by default. *)
Example C91_deep_ex : exists m vectors inf s d root ids, reachable m /\ ask get_list_of_managed_data_IDs m = Ok ids /\ length ids = 1001 /\
      cluster nat nat (fun X i j => if nth i X 0 =? nth j X 0 then 0 else Nat.max (nth i X 0) (nth j X 0)) (fun x y => x - y + (y - x))
        Nat.ltb (fold_right Nat.add 0) Nat.div inf (fun l => Nat.div (fold_right Nat.add 0 l) (length l)) (str "single")
        m vectors (Some 2%Z) (fresh_hier nat) = (s, Ok d) /\
      h_root nat s = Some root /\
      forall h a, represents vectors h a root -> to_dict nat 1000 h a = Raise RecursionError.
Proof. apply (C91_deep_clusterings_proof 1001 1000); lia. Qed.

(** C92, what holds of one call: for an object that agrees with its children and is not added to itself, the call appends the new children that it did not have, their members, and updates the level; nothing else changes in the other objects. An error comes from the centroid only, which then keeps its old value. *)
Theorem C92_add_children_partial :
  forall vec (mean : list vec -> vec) h a o new_children it,
    nth_error h a = Some o -> o_children vec o <> [] -> up_to_date h o ->
    (forall c, In c new_children -> c < length h) -> ~ In a (o_children vec o) -> ~ In a new_children ->
    let added := filter (fun c => if in_dec Nat.eq_dec c (o_children vec o) then false else true) new_children in
    exists objs h' r o', Forall2 (fun c oc => nth_error h c = Some oc) added objs /\
      add_new_children vec mean a new_children it h = (h', r) /\
      length h' = length h /\ (forall b, b <> a -> nth_error h' b = nth_error h b) /\
      nth_error h' a = Some o' /\ up_to_date h' o' /\
      o_vectors vec o' = o_vectors vec o /\ o_id vec o' = o_id vec o /\ o_iteration vec o' = it /\
      o_children vec o' = o_children vec o ++ added /\
      o_members vec o' = o_members vec o ++ flat_map (o_members vec) objs /\
      o_depth vec o' = Nat.max (o_depth vec o) (S (list_max (map (o_depth vec) objs))) /\
      match r with
      | Ok _ => exists rows, vectors_are (o_vectors vec o) (o_members vec o') rows /\ rows <> [] /\ o_centroid vec o' = mean rows
      | Raise e => o_centroid vec o' = o_centroid vec o /\
                   ((e = KeyError /\ exists x, In x (o_members vec o') /\ ~ In x (keys (o_vectors vec o))) \/
                    (e = ZeroDivisionError /\ o_members vec o' = []))
      end.
Proof. exact C92_add_children_partial_proof. Qed.
Print Assumptions C92_add_children_partial.

(** Object 3 gets object 2, which it did not have, and object 0, which it had. *)
Example C92_add_ex :
  let h := fst (construct Z zmean points 2 1 (Some [0; 1]) None (leaves_of [A; B; C])) in
  nth_error (fst (add_new_children Z zmean 3 [2; 0] 5 h)) 3 = Some (mkObj Z points 2 5 [0; 1; 2] 1 [A; B; C] 3%Z).
Proof. vm_compute; auto. Qed.

(** C92, what holds of histories: if children are only added to objects that have some already, are nobody's child and are not their own new children, then after any calls, failed ones included, every object agrees with its children and can be described with as many nested calls as it has levels. *)
Theorem C92_bottom_up_partial :
  forall vec (mean : list vec -> vec) h a o limit,
    bottom_up mean h -> nth_error h a = Some o ->
    (o_children vec o <> [] -> up_to_date h o) /\ (o_children vec o = [] -> o_depth vec o = 0) /\
    (o_depth vec o < limit -> exists v, to_dict vec limit h a = Ok v) /\
    (limit <= o_depth vec o -> to_dict vec limit h a = Raise RecursionError).
Proof. exact C92_bottom_up_partial_proof. Qed.
Print Assumptions C92_bottom_up_partial.

(** The call fails ("z" has no vector); the level and the members are those of the children. *)
Example C92_bottom_up_ex :
  let h0 := fst (construct Z zmean points 2 1 (Some [0; 1]) None (leaves_of [A; B])) in
  let h := fst (construct Z zmean [(str "z", 0%Z)] 3 1 None (Some [str "z"]) h0) in
  snd (add_new_children Z zmean 2 [3] 5 h) = Raise KeyError /\ bottom_up zmean (fst (add_new_children Z zmean 2 [3] 5 h)) /\
  option_map (o_members Z) (nth_error (fst (add_new_children Z zmean 2 [3] 5 h)) 2) = Some [A; B; str "z"].
Proof.
  cbn zeta. split; [vm_compute; auto|]. split; [|vm_compute; auto].
  eapply bottom_up_add with (o := mkObj Z points 2 1 [0; 1] 1 [A; B] 0%Z).
  - repeat (eapply bottom_up_construct); constructor.
  - vm_compute; reflexivity.
  - discriminate.
  - intros [|[|[|[|b]]]] o E; vm_compute in E; try discriminate; try (destruct b; discriminate); injection E as <-; cbn; intuition discriminate.
  - intros [K|[]]. discriminate.
  - intros c [<-|[]]. vm_compute. lia.
Qed.

(** C92, refuted: a successful call can lose members (of an object made from members). *)
Theorem C92_members_lost_refuted :
  exists (mean : list Z -> Z) h a o new_children it h' o', constructed mean h /\ nth_error h a = Some o /\
    (forall c, In c new_children -> c < length h /\ c <> a) /\
    add_new_children Z mean a new_children it h = (h', Ok tt) /\ nth_error h' a = Some o' /\
    exists x, In x (o_members Z o) /\ ~ In x (o_members Z o').
Proof. exact C92_members_lost_refuted_proof. Qed.
Print Assumptions C92_members_lost_refuted.

(** C92, refuted: after a successful call an object can disagree with its child (the parent of the changed one is not told). *)
Theorem C92_parent_stale_refuted :
  exists (mean : list Z -> Z) h a o new_children it h' b ob oa, constructed mean h /\ nth_error h a = Some o /\
    o_children Z o <> [] /\ up_to_date h o /\ (forall c, In c new_children -> c < length h /\ c <> a) /\
    add_new_children Z mean a new_children it h = (h', Ok tt) /\
    nth_error h' b = Some ob /\ In a (o_children Z ob) /\ nth_error h' a = Some oa /\
    (exists x, In x (o_members Z oa) /\ ~ In x (o_members Z ob)) /\ ~ up_to_date h' ob.
Proof. exact C92_parent_stale_refuted_proof. Qed.
Print Assumptions C92_parent_stale_refuted.

(** C92, refuted: a failed call can leave the object changed. *)
Theorem C92_failed_call_refuted :
  exists (mean : list Z -> Z) h a o h' o' e, constructed mean h /\ nth_error h a = Some o /\
    add_new_children Z mean a [] 7 h = (h', Raise e) /\ nth_error h' a = Some o' /\ o_iteration Z o' <> o_iteration Z o.
Proof. exact C92_failed_call_refuted_proof. Qed.
Print Assumptions C92_failed_call_refuted.

(** C92, refuted: a child given twice is added twice, and so are its members. *)
Theorem C92_duplicates_refuted :
  exists (mean : list Z -> Z) h a o c new_children it h' o', constructed mean h /\ nth_error h a = Some o /\
    o_children Z o <> [] /\ up_to_date h o /\ NoDup (o_members Z o) /\ new_children = [c; c] /\ c < length h /\ c <> a /\
    add_new_children Z mean a new_children it h = (h', Ok tt) /\ nth_error h' a = Some o' /\
    ~ NoDup (o_children Z o') /\ ~ NoDup (o_members Z o').
Proof. exact C92_duplicates_refuted_proof. Qed.
Print Assumptions C92_duplicates_refuted.

(** C92, refuted: two successful calls can make a cycle, and then no number of nested calls is enough to describe the object. *)
Theorem C92_cycle_refuted :
  exists (mean : list Z -> Z) h h' h'' a b, constructed mean h /\ a < length h /\ b < length h /\ a <> b /\
    add_new_children Z mean a [b] 1 h = (h', Ok tt) /\ add_new_children Z mean b [a] 1 h' = (h'', Ok tt) /\
    forall limit, to_dict Z limit h'' a = Raise RecursionError.
Proof. exact C92_cycle_refuted_proof. Qed.
Print Assumptions C92_cycle_refuted.
