(** * Runs in two systems of coordinates. *)

From Coq Require Import String List Bool Arith ZArith Lia Field Qcanon.
From Verif Require Import Base Manager Sampling Rename KMeans Hierarchical Dbscan UnitProofs MoveSpec.
Import ListNotations.
Open Scope nat_scope.
Open Scope py_scope.

Lemma vals_vmap {K V W} (f : V -> W) (d : dict K V) : vals (vmap f d) = map f (vals d).
Proof. unfold vals, vmap. rewrite !map_map. auto. Qed.
Lemma enum_fst {A} (l : list A) e : In e (enum l) -> fst e < length l.
Proof. intro J. destruct e as [i x]. apply in_combine_l in J. apply in_seq in J. simpl. lia. Qed.
Lemma fold_left_in {A B} (f g : B -> A -> B) l : (forall b x, In x l -> f b x = g b x) -> forall b, fold_left f l b = fold_left g l b.
Proof.
  induction l as [|x l IH]; intros E b; auto. simpl. rewrite E by (left; auto). apply IH. intros; apply E; right; auto.
Qed.
Lemma rmap_len {A B} (k : A -> res B) : forall l r, rmap k l = Ok r -> length r = length l.
Proof.
  induction l as [|x l IH]; simpl; intros r E; [injection E as <-; auto|]. destruct (k x); [|discriminate].
  simpl in E. destruct (rmap k l) as [r'|]; [|discriminate]. injection E as <-. simpl. f_equal. apply IH; auto.
Qed.

Section Move.
  Variables vec vec' D : Type.
  Context `{ED : EqB D}.
  Variable T : vec -> vec'.
  Variable ltb : D -> D -> bool.

  Lemma rows_T vectors l : rmap (fun x => dlookup x (moved T vectors)) l = rok (map T) (rmap (fun x => dlookup x vectors) l).
  Proof using. apply rmap_rok. intro x. apply (dlookup_vmap T). Qed.

  Section Table.
    Variable pw : list vec -> nat -> nat -> D.
    Variable pw' : list vec' -> nat -> nat -> D.
    Hypothesis P : keeps_pairwise T pw pw'.
    Lemma table_T (rows : list vec) (l : list pystr) : length rows = length l ->
      fold_left (fun t e => dset (snd e) (fold_left (fun r e' => dset (snd e') (pw' (map T rows) (fst e) (fst e')) r) (enum l) []) t) (enum l) [] =
      fold_left (fun t (e : nat * pystr) => dset (snd e) (fold_left (fun r (e' : nat * pystr) => dset (snd e') (pw rows (fst e) (fst e')) r) (enum l) []) t) (enum l) [].
    Proof using P.
      intro L. apply fold_left_in. intros t e J. f_equal. apply fold_left_in. intros r e' J'. rewrite P; auto; rewrite L; apply enum_fst; auto.
    Qed.
    Lemma pairwise_table_T m vectors : pairwise_table vec' D pw' m (moved T vectors) = pairwise_table vec D pw m vectors.
    Proof using P.
      unfold pairwise_table. rewrite <- rok_id. apply same_bind. intro managed. rewrite rok_id, rows_T.
      destruct (rmap (fun x => dlookup x vectors) managed) as [[|r rows]|e] eqn:E; cbn [rok rbind map]; auto.
      f_equal. apply (table_T (r :: rows) managed). exact (rmap_len _ _ _ E).
    Qed.
  End Table.

  (** ** Hierarchical clustering. *)
  Section Hier.
    Variable cd : vec -> vec -> D.
    Variable cd' : vec' -> vec' -> D.
    Hypothesis C : keeps_distance T cd cd'.
    Variable dsum : list D -> D.
    Variable ddiv : D -> nat -> D.
    Variable inf : D.
    Variable mean : list vec -> vec.
    Variable mean' : list vec' -> vec'.
    Hypothesis MN : keeps_mean T mean mean'.
    Variable m : mgr.
    Variable linkage : pystr.
    Variable table : dict pystr (dict pystr D).
    Variable vectors : dict pystr vec.
    Notation mt := (moved_tree T).

    Lemma mt_members t : t_members vec' (mt t) = t_members vec t.
    Proof using. destruct t; auto. Qed.
    Lemma mt_depth t : t_depth vec' (mt t) = t_depth vec t.
    Proof using. destruct t; auto. Qed.
    Lemma mt_centroid t : t_centroid vec' (mt t) = T (t_centroid vec t).
    Proof using. destruct t; auto. Qed.
    Lemma mt_id t : t_id vec' (mt t) = t_id vec t.
    Proof using. destruct t; auto. Qed.
    Lemma mt_iteration t : t_iteration vec' (mt t) = t_iteration vec t.
    Proof using. destruct t; auto. Qed.
    Lemma mt_children t : t_children vec' (mt t) = map mt (t_children vec t).
    Proof using. destruct t; auto. Qed.

    Lemma new_cluster_T id it c l :
      new_cluster vec' mean' (moved T vectors) id it (option_map (map mt) c) l = rok mt (new_cluster vec mean vectors id it c l).
    Proof using MN.
      assert (Q : forall c l,
        (rows <-- rmap (fun x => dlookup x (moved T vectors)) l ;;;
         match rows with
         | [] => Raise ZeroDivisionError
         | _ => Ok (Node vec' id it (map mt c) (match map mt c with [] => 0 | _ => list_max (map (t_depth vec') (map mt c)) + 1 end) l (mean' rows))
         end) =
        rok mt (rows <-- rmap (fun x => dlookup x vectors) l ;;;
         match rows with
         | [] => Raise ZeroDivisionError
         | _ => Ok (Node vec id it c (match c with [] => 0 | _ => list_max (map (t_depth vec) c) + 1 end) l (mean rows))
         end)).
      { intros c0 l0. rewrite rows_T. apply rok_bind. intros [|r rows]; auto. cbn [map rok].
        change (T r :: map T rows) with (map T (r :: rows)). rewrite MN by discriminate. cbn [moved_tree]. do 2 f_equal.
        destruct c0 as [|c1 c0]; auto. cbn [map]. f_equal. change (mt c1 :: map mt c0) with (map mt (c1 :: c0)). f_equal.
        change (map (t_depth vec') (map mt (c1 :: c0)) = map (t_depth vec) (c1 :: c0)). rewrite map_map. apply map_ext. apply mt_depth. }
      unfold new_cluster. destruct c as [c|], l as [l|]; cbn [option_map]; auto.
      - assert (E : flat_map (t_members vec') (map mt c) = flat_map (t_members vec) c).
        { rewrite !flat_map_concat_map, map_map. f_equal. apply map_ext. apply mt_members. }
        rewrite E. apply Q.
      - apply (Q [] l).
    Qed.

    Definition fT (x : forest vec D) : forest vec' D :=
      mkForest vec' D (f_current vec D x) (vmap mt (f_storage vec D x)) (f_distance vec D x).

    Lemma add_by_members_T it x l :
      add_by_members vec' D mean' (moved T vectors) it (fT x) l = rok fT (add_by_members vec D mean vectors it x l).
    Proof using MN.
      unfold add_by_members. cbn [fT f_storage f_current f_distance].
      replace (match vmap mt (f_storage vec D x) with [] => Ok 0%Z | _ => mx <-- py_max_Z (keys (vmap mt (f_storage vec D x))) ;;; Ok (mx + 1)%Z end)
        with (match f_storage vec D x with [] => Ok 0%Z | _ => mx <-- py_max_Z (keys (f_storage vec D x)) ;;; Ok (mx + 1)%Z end)
        by (rewrite keys_vmap; destruct (f_storage vec D x); reflexivity).
      apply same_bind. intro n. change (@None (list (tree vec'))) with (option_map (map mt) None). rewrite new_cluster_T. apply rok_bind. intro t. cbn [rok]. unfold fT. cbn [f_current f_storage f_distance].
      rewrite dset_vmap. reflexivity.
    Qed.
    Definition zT (r : forest vec D * Z) : forest vec' D * Z := (fT (fst r), snd r).
    Lemma add_by_merging_T it x l :
      add_by_merging vec' D mean' (moved T vectors) it (fT x) l = rok zT (add_by_merging vec D mean vectors it x l).
    Proof using MN.
      unfold add_by_merging. cbn [fT f_storage f_current f_distance]. apply same_bind. intro cur. rewrite keys_vmap. apply same_bind. intro mx.
      rewrite (rmap_rok mt (fun c => dlookup c (f_storage vec D x))) by (intro c; apply dlookup_vmap). apply rok_bind. intro trees.
      change (Some (map mt trees)) with (option_map (map mt) (Some trees)). rewrite new_cluster_T. apply rok_bind. intro t. cbn [rok]. unfold zT, fT. cbn [fst snd f_current f_storage f_distance].
      rewrite dset_vmap. reflexivity.
    Qed.

    Lemma tree_distance_T ti tj :
      tree_distance vec' D cd' ltb dsum ddiv inf m linkage table (mt ti) (mt tj) = tree_distance vec D cd ltb dsum ddiv inf m linkage table ti tj.
    Proof using C. unfold tree_distance. rewrite !mt_members, !mt_centroid, C. reflexivity. Qed.
    Lemma update_distance_T x p :
      update_distance vec' D cd' ltb dsum ddiv inf m linkage table (fT x) p = rok fT (update_distance vec D cd ltb dsum ddiv inf m linkage table x p).
    Proof using C.
      unfold update_distance, compute_distance. cbn [fT f_storage f_current f_distance]. rewrite !dlookup_vmap.
      destruct (dlookup (fst p) (f_storage vec D x)) as [ti|]; cbn [rok rbind]; auto.
      destruct (dlookup (snd p) (f_storage vec D x)) as [tj|]; cbn [rok rbind]; auto. rewrite tree_distance_T. apply same_bind. intro d. reflexivity.
    Qed.
    Lemma two_closest_T x : two_closest vec' D ltb inf (fT x) = two_closest vec D ltb inf x.
    Proof using.
      unfold two_closest. cbn [fT f_storage f_current f_distance].
      rewrite (rmap_rok (fun c : Z * Z * D * nat => c) (fun p : Z * Z =>
                     d <-- get_distance D (f_distance vec D x) (fst p) (snd p) ;;;
                     t1 <-- dlookup (fst p) (f_storage vec D x) ;;;
                     t2 <-- dlookup (snd p) (f_storage vec D x) ;;;
                     Ok (fst p, snd p, d, length (t_members vec t1) + length (t_members vec t2)))).
      - rewrite <- rok_id. apply rok_bind. intro cs. rewrite map_id, rok_id. reflexivity.
      - intro p. apply same_bind. intro d. rewrite !dlookup_vmap.
        destruct (dlookup (fst p) (f_storage vec D x)) as [t1|]; cbn [rok rbind]; auto.
        destruct (dlookup (snd p) (f_storage vec D x)) as [t2|]; cbn [rok rbind]; auto. rewrite !mt_members. auto.
    Qed.
    Definition nT (r : forest vec D * nat) : forest vec' D * nat := (fT (fst r), snd r).
    Lemma merge_loop_T : forall fuel it x,
      merge_loop vec' D cd' ltb dsum ddiv inf mean' fuel m linkage table (moved T vectors) it (fT x) =
      rok nT (merge_loop vec D cd ltb dsum ddiv inf mean fuel m linkage table vectors it x).
    Proof using C MN.
      induction fuel as [|fuel IH]; intros it x; cbn [merge_loop]; cbn [fT f_current];
        (destruct (Nat.leb (length (f_current vec D x)) 1); [reflexivity|]); [reflexivity|].
      change (mkForest vec' D (f_current vec D x) (vmap mt (f_storage vec D x)) (f_distance vec D x)) with (fT x).
      rewrite two_closest_T. apply same_bind. intros [[c1 c2]|]; [|reflexivity].
      rewrite add_by_merging_T. apply rok_bind. intros [y merged]. cbn [zT fst snd].
      change (f_current vec' D (fT y)) with (f_current vec D y).
      rewrite (rfold_rok fT (update_distance vec D cd ltb dsum ddiv inf m linkage table)) by apply update_distance_T.
      apply rok_bind. intro z. apply IH.
    Qed.
    Lemma build_tree_T :
      build_tree vec' D cd' ltb dsum ddiv inf mean' m linkage (moved T vectors) table =
      rok mt (build_tree vec D cd ltb dsum ddiv inf mean m linkage vectors table).
    Proof using C MN.
      unfold build_tree. apply same_bind. intro components.
      change (mkForest vec' D [] [] []) with (fT (mkForest vec D [] [] [])).
      rewrite (rfold_rok fT (add_by_members vec D mean vectors 0)) by apply add_by_members_T.
      apply rok_bind. intro x. change (f_current vec' D (fT x)) with (f_current vec D x).
      rewrite (rfold_rok fT (update_distance vec D cd ltb dsum ddiv inf m linkage table)) by apply update_distance_T.
      apply rok_bind. intro y. change (f_current vec' D (fT y)) with (f_current vec D y).
      rewrite merge_loop_T. apply rok_bind. intros [z it]. cbn [nT fst snd]. change (f_current vec' D (fT z)) with (f_current vec D z).
      destruct (Nat.ltb 1 (length (f_current vec D z))).
      - rewrite add_by_merging_T. destruct (add_by_merging vec D mean vectors it z (f_current vec D z)) as [[w n]|]; cbn [rok rbind zT fst snd]; auto.
        change (f_current vec' D (fT w)) with (f_current vec D w). destruct (f_current vec D w); auto. apply dlookup_vmap.
      - cbn [rbind]. change (f_current vec' D (fT z)) with (f_current vec D z). destruct (f_current vec D z); auto. apply dlookup_vmap.
    Qed.

    (** Cutting the tree. *)
    Lemma to_split_T by_ l : to_split vec' by_ (map mt l) = rok mt (to_split vec by_ l).
    Proof using.
      unfold to_split. destruct (eqb by_ (str "size")); apply py_max_rok; intros a b; [rewrite !mt_members|rewrite !mt_iteration]; auto.
    Qed.
    Lemma remove_tree_T t : forall l, remove_tree vec' (mt t) (map mt l) = map mt (remove_tree vec t l).
    Proof using. induction l as [|u l IH]; simpl; auto. rewrite !mt_id. destruct (Z.eqb (t_id vec t) (t_id vec u)); auto. simpl. rewrite IH. auto. Qed.
    Lemma explore_T by_ nb : forall fuel l, explore vec' fuel by_ nb (map mt l) = rok (map mt) (explore vec fuel by_ nb l).
    Proof using.
      induction fuel as [|fuel IH]; intro l; cbn [explore]; rewrite map_length; (destruct (Z.of_nat (length l) <? nb)%Z; [|reflexivity]);
        rewrite to_split_T; apply rok_bind; intro t; rewrite mt_children; destruct (t_children vec t) as [|c cs]; auto.
      cbn [map]. change (mt c :: map mt cs) with (map mt (c :: cs)). rewrite remove_tree_T, <- map_app. apply IH.
    Qed.
    Lemma tree_size_T : forall t, tree_size vec' (mt t) = tree_size vec t.
    Proof using.
      fix IH 1. intros [i it c d l v]. cbn [moved_tree tree_size]. f_equal. f_equal. rewrite map_map.
      revert c. fix IHc 1. intros [|t c]; [reflexivity|]. cbn [map]. f_equal; [apply IH|apply IHc].
    Qed.
    Lemma labels_of_T ids l : labels_of vec' ids (map mt l) = labels_of vec ids l.
    Proof using.
      unfold labels_of. generalize (dcomp (fun _ => (-1)%Z) ids) as d. induction l as [|t l IH]; intro d; auto. cbn [map fold_left].
      rewrite mt_members, mt_id. apply IH.
    Qed.
    Lemma cut_T nb by_ s :
      compute_predicted_clusters vec' nb by_ (moved_hier T s) =
      (moved_hier T (fst (compute_predicted_clusters vec nb by_ s)), snd (compute_predicted_clusters vec nb by_ s)).
    Proof using.
      destruct s as [ids [root|] pr]; [|reflexivity]. unfold compute_predicted_clusters, bind, gets, lift, moved_hier, raise. cbn [h_ids h_root h_predicted option_map].
      rewrite tree_size_T. change [mt root] with (map mt [root]). rewrite explore_T.
      destruct (explore vec (tree_size vec root) by_ nb [root]) as [l|]; cbn [rok]; auto. destruct ids as [ids|]; auto. rewrite labels_of_T. auto.
    Qed.
  End Hier.

  Lemma hier_T pw pw' cd cd' dsum ddiv inf mean mean' linkage m vectors nb s :
    keeps_pairwise T pw pw' -> keeps_distance T cd cd' -> keeps_mean T mean mean' ->
    Hierarchical.cluster vec' D pw' cd' ltb dsum ddiv inf mean' linkage m (moved T vectors) nb (moved_hier T s) =
    (moved_hier T (fst (Hierarchical.cluster vec D pw cd ltb dsum ddiv inf mean linkage m vectors nb s)),
     snd (Hierarchical.cluster vec D pw cd ltb dsum ddiv inf mean linkage m vectors nb s)).
  Proof using.
    intros P C MN. unfold Hierarchical.cluster, bind, lift, modify, raise, ret. destruct (ask get_list_of_managed_data_IDs m) as [ids|]; auto.
    destruct nb as [nb|]; auto. destruct (nb <? 2)%Z; auto.
    rewrite (pairwise_table_T pw pw' P). destruct (pairwise_table vec D pw m vectors) as [t|]; auto.
    rewrite (build_tree_T cd cd' C dsum ddiv inf mean mean' MN).
    destruct (build_tree vec D cd ltb dsum ddiv inf mean m linkage vectors t) as [root|]; cbn [rok]; auto.
    match goal with |- context [compute_predicted_clusters vec' ?k ?b ?s0] =>
      match goal with |- context [compute_predicted_clusters vec k b ?s1] =>
        change s0 with (moved_hier T s1); rewrite (cut_T k b s1); destruct (compute_predicted_clusters vec k b s1) as [s2 [d|]] end end; auto.
  Qed.
  (** ** KMeans. *)
  Section Km.
    Variable pw : list vec -> list vec -> nat -> nat -> D.
    Variable pw' : list vec' -> list vec' -> nat -> nat -> D.
    Hypothesis P : keeps_pairwise2 T pw pw'.
    Variable dsum : list D -> D.
    Variable mean : list vec -> vec.
    Variable mean' : list vec' -> vec'.
    Hypothesis MN : keeps_mean T mean mean'.
    Variable shuffle : list pystr -> list pystr.
    Variable set_order : list Z -> list Z.
    Variable p : kparams D.
    Variable m : mgr.
    Variable ids : list pystr.
    Variable vectors : dict pystr vec.
    Variable nb : nat.
    Notation cmap := (vmap (K := Z) T).

    Lemma initialize_T : initialize_centroids vec' shuffle ids (moved T vectors) nb = rok cmap (initialize_centroids vec shuffle ids vectors nb).
    Proof using.
      unfold initialize_centroids. change (@nil (Z * vec')) with (cmap []). apply rfold_rok. intros d i. apply same_bind. intro x.
      change (moved T vectors) with (vmap T vectors). rewrite dlookup_vmap. apply rok_bind. intro v. cbn [rok]. f_equal. apply dset_vmap.
    Qed.
    Lemma compute_centroids_T c : compute_centroids vec' mean' set_order m (moved T vectors) c = rok cmap (compute_centroids vec mean set_order m vectors c).
    Proof using MN.
      unfold compute_centroids. change (@nil (Z * vec')) with (cmap []). apply rfold_rok. intros d i. apply same_bind. intro managed. apply same_bind. intro l.
      rewrite rows_T. apply rok_bind. intros [|r rows]; auto. cbn [map]. change (T r :: map T rows) with (map T (r :: rows)).
      rewrite MN by discriminate. cbn [rok]. f_equal. apply dset_vmap.
    Qed.
    Lemma distance_table_T cen : distance_table vec' D pw' m (moved T vectors) (cmap cen) = distance_table vec D pw m vectors cen.
    Proof using P.
      unfold distance_table. rewrite <- rok_id. apply same_bind. intro managed. rewrite rok_id, rows_T, keys_vmap, vals_vmap.
      destruct (rmap (fun x => dlookup x vectors) managed) as [[|r rows]|] eqn:E; cbn [rok rbind map]; auto.
      destruct (vals cen) as [|v vs] eqn:Ev; auto. cbn [map]. f_equal. apply fold_left_in. intros t e J. f_equal. apply fold_left_in. intros r0 e' J'.
      change (T r :: map T rows) with (map T (r :: rows)). change (T v :: map T vs) with (map T (v :: vs)). rewrite P; auto.
      - apply rmap_len in E. rewrite E. apply enum_fst; auto.
      - rewrite <- Ev. unfold vals. rewrite map_length. apply enum_fst in J'. unfold keys in J'. rewrite map_length in J'. auto.
    Qed.
    Lemma choose_T cen table new x : choose_cluster vec' D ltb m ids nb (cmap cen) table new x = choose_cluster vec D ltb m ids nb cen table new x.
    Proof using. unfold choose_cluster. rewrite keys_vmap. reflexivity. Qed.
    Lemma assign_loop_T cen table : forall fuel todo new,
      assign_loop vec' D ltb m ids nb fuel (cmap cen) table todo new = assign_loop vec D ltb m ids nb fuel cen table todo new.
    Proof using.
      induction fuel as [|fuel IH]; intros todo new; cbn [assign_loop]; destruct (pop_last todo) as [[todo' x]|]; auto.
      rewrite choose_T. rewrite <- rok_id. apply same_bind. intro c. rewrite rok_id. rewrite <- rok_id. apply same_bind. intro st.
      rewrite rok_id. apply IH.
    Qed.
    Lemma assign_T cen : assign vec' D pw' ltb m ids (moved T vectors) nb (cmap cen) = assign vec D pw ltb m ids vectors nb cen.
    Proof using P.
      unfold assign. rewrite distance_table_T. rewrite <- rok_id. apply same_bind. intro t. rewrite rok_id. apply assign_loop_T.
    Qed.
    Lemma has_converged_T c n cen ncen :
      has_converged vec' D pw' ltb dsum p c n (cmap cen) (cmap ncen) = has_converged vec D pw ltb dsum p c n cen ncen.
    Proof using P.
      unfold has_converged. destruct (set_eqb (vals c) (vals n)); auto. rewrite keys_vmap, vals_vmap.
      rewrite (rmap_rok T (fun c => dlookup c ncen)) by (intro; apply dlookup_vmap).
      destruct (rmap (fun c => dlookup c ncen) (keys cen)) as [vs|] eqn:E; cbn [rok rbind]; auto.
      destruct (vals cen) as [|v l] eqn:Ev; auto. cbn [map]. f_equal. f_equal. f_equal. apply map_ext_in. intros i J. apply in_seq in J.
      change (T v :: map T l) with (map T (v :: l)). apply P.
      - rewrite <- Ev. unfold vals, keys in *. rewrite !map_length in *. lia.
      - apply rmap_len in E. rewrite E. lia.
    Qed.
    Lemma iterate_T : forall rounds new conv s,
      iterate vec' D pw' ltb dsum mean' set_order p m ids (moved T vectors) nb rounds new conv (moved_kmeans T s) =
      (moved_kmeans T (fst (iterate vec D pw ltb dsum mean set_order p m ids vectors nb rounds new conv s)),
       snd (iterate vec D pw ltb dsum mean set_order p m ids vectors nb rounds new conv s)).
    Proof using P MN.
      induction rounds as [|rounds IH]; intros new conv s; cbn [iterate]; destruct conv; auto.
      unfold bind, gets, lift, modify. cbn [moved_kmeans k_centroids k_clusters]. change (map (fun e => (fst e, T (snd e))) (k_centroids vec s)) with (cmap (k_centroids vec s)).
      rewrite assign_T. destruct (assign vec D pw ltb m ids vectors nb (k_centroids vec s)) as [nc|]; auto.
      rewrite compute_centroids_T. destruct (compute_centroids vec mean set_order m vectors nc) as [ncen|]; cbn [rok]; auto.
      rewrite has_converged_T. destruct (has_converged vec D pw ltb dsum p (k_clusters vec s) nc (k_centroids vec s) ncen); auto.
      match goal with |- iterate _ _ _ _ _ _ _ _ _ _ _ _ _ _ _ ?s0 = (moved_kmeans T (fst (iterate _ _ _ _ _ _ _ _ _ _ _ _ _ _ _ ?s1)), _) =>
        change s0 with (moved_kmeans T s1) end. apply IH.
    Qed.
    Lemma clustering_COP_T s :
      clustering_COP vec' D pw' ltb dsum mean' shuffle set_order p m ids (moved T vectors) nb (moved_kmeans T s) =
      (moved_kmeans T (fst (clustering_COP vec D pw ltb dsum mean shuffle set_order p m ids vectors nb s)),
       snd (clustering_COP vec D pw ltb dsum mean shuffle set_order p m ids vectors nb s)).
    Proof using P MN.
      unfold clustering_COP, bind, gets, lift, modify, raise, ret. rewrite initialize_T.
      destruct (initialize_centroids vec shuffle ids vectors nb) as [cen|]; cbn [rok]; auto.
      match goal with |- context [iterate vec' _ _ _ _ _ _ _ _ _ _ _ _ _ _ ?s0] =>
        match goal with |- context [iterate vec D pw ltb dsum mean set_order p m ids vectors nb ?r ?n ?c ?s1] =>
          change s0 with (moved_kmeans T s1); rewrite iterate_T; destruct (iterate vec D pw ltb dsum mean set_order p m ids vectors nb r n c s1) as [s2 [new|]] end end; auto.
      cbn [fst snd moved_kmeans k_clusters]. destruct (rename_clusters_by_order (k_clusters vec s2)) as [cl|]; auto.
      destruct new as [new|]; auto. rewrite compute_centroids_T. destruct (compute_centroids vec mean set_order m vectors new); auto.
    Qed.
  End Km.

  Lemma kmeans_T pw pw' dsum mean mean' shuffle set_order p m vectors nb s :
    keeps_pairwise2 T pw pw' -> keeps_mean T mean mean' ->
    KMeans.cluster vec' D pw' ltb dsum mean' shuffle set_order p m (moved T vectors) nb (moved_kmeans T s) =
    (moved_kmeans T (fst (KMeans.cluster vec D pw ltb dsum mean shuffle set_order p m vectors nb s)),
     snd (KMeans.cluster vec D pw ltb dsum mean shuffle set_order p m vectors nb s)).
  Proof using.
    intros P MN. unfold KMeans.cluster, bind, lift, modify, raise, ret. destruct (ask get_list_of_managed_data_IDs m) as [ids|]; auto.
    destruct nb as [nb|]; auto. destruct (nb <? 2)%Z; auto.
    match goal with |- context [clustering_COP vec D pw ltb dsum mean shuffle set_order p m ids vectors ?k ?s1] =>
      change (set_predicted vec' None (moved_kmeans T s)) with (moved_kmeans T s1); rewrite (clustering_COP_T pw pw' P dsum mean mean' MN shuffle set_order p m ids vectors k s1);
      destruct (clustering_COP vec D pw ltb dsum mean shuffle set_order p m ids vectors k s1) as [s2 [d|]] end; auto.
  Qed.

  (** ** Sampling. *)
  Section Sample.
    Variable pw : list vec -> nat -> nat -> D.
    Variable pw' : list vec' -> nat -> nat -> D.
    Hypothesis P : keeps_pairwise T pw pw'.
    Variable draw : list (pystr * pystr) -> nat -> list (pystr * pystr).
    Variable o : options.

    Definition wT (w : world vec D) : world vec' D := (moved_sampler T (fst w), snd w).
    Definition simT {A A'} (g : A -> A') (c : M (world vec D) A) (c' : M (world vec' D) A') : Prop :=
      forall w, c' (wT w) = (wT (fst (c w)), rok g (snd (c w))).
    Definition sameT {A} (c : M (world vec D) A) (c' : M (world vec' D) A) : Prop := simT (fun a => a) c c'.

    Lemma sameT_bind {A B} c c' (k : A -> M _ B) (k' : A -> M _ B) : sameT c c' -> (forall a, sameT (k a) (k' a)) -> sameT (bind c k) (bind c' k').
    Proof using. intros Sc Sk w. unfold bind. rewrite Sc. destruct (c w) as [w1 [a|e]]; simpl; auto. apply Sk. Qed.
    Lemma sameT_ret {A} (a : A) : sameT (ret a) (ret a).
    Proof using. intro w. reflexivity. Qed.
    Lemma sameT_raise {A} e : sameT (A := A) (raise e) (raise e).
    Proof using. intro w. reflexivity. Qed.
    Lemma sameT_lift {A} (r : res A) : sameT (lift r) (lift r).
    Proof using. intro w. unfold lift. simpl. rewrite rok_id. reflexivity. Qed.
    Lemma sameT_on_mgr {A} (q : M mgr A) : sameT (on_mgr vec D q) (on_mgr vec' D q).
    Proof using. intros [s m]. unfold on_mgr. simpl. destruct (q m) as [m1 r]. simpl. rewrite rok_id. reflexivity. Qed.
    Lemma sameT_clustering : sameT (attr vec D (s_clustering vec D)) (attr vec' D (s_clustering vec' D)).
    Proof using. intros [[c v d] m]. destruct c; reflexivity. Qed.
    Lemma sameT_distances : sameT (attr vec D (s_distances vec D)) (attr vec' D (s_distances vec' D)).
    Proof using. intros [[c v d] m]. destruct d; reflexivity. Qed.
    Lemma sameT_cluster_of x : sameT (cluster_of vec D x) (cluster_of vec' D x).
    Proof using. unfold cluster_of. apply sameT_bind; [apply sameT_clustering|]. intro d. apply sameT_lift. Qed.
    Lemma sameT_keep p : sameT (keep vec D o p) (keep vec' D o p).
    Proof using.
      destruct p as [x y]. unfold keep. destruct (str_leb y x); [apply sameT_ret|].
      apply sameT_bind.
      - unfold mor, mand. apply sameT_bind.
        + destruct (opt_is (o_clusters o) SAME_CLUSTER); [|apply sameT_ret].
          apply sameT_bind; [apply sameT_cluster_of|]. intro c1. apply sameT_bind; [apply sameT_cluster_of|]. intro c2. apply sameT_ret.
        + intros [|]; [apply sameT_ret|]. destruct (opt_is (o_clusters o) DIFFERENT_CLUSTERS); [|apply sameT_ret].
          apply sameT_bind; [apply sameT_cluster_of|]. intro c1. apply sameT_bind; [apply sameT_cluster_of|]. intro c2. apply sameT_ret.
      - intros [|]; [apply sameT_ret|]. apply sameT_bind; [|intro; apply sameT_ret].
        unfold mor, mand. apply sameT_bind.
        + destruct (o_without_added o); [|apply sameT_ret]. apply sameT_bind; [apply sameT_on_mgr|]. intro c. apply sameT_ret.
        + intros [|]; [apply sameT_ret|]. destruct (o_without_inferred o); [|apply sameT_ret].
          apply sameT_bind; [apply sameT_on_mgr|]. intro c. apply sameT_ret.
    Qed.
    Lemma sameT_mfilter {A} (k : A -> M (world vec D) bool) k' : (forall x, sameT (k x) (k' x)) -> forall l, sameT (mfilter k l) (mfilter k' l).
    Proof using.
      intros E. induction l as [|x l IH]; [apply sameT_ret|]. cbn [mfilter]. apply sameT_bind; [apply E|]. intro b.
      apply sameT_bind; [apply IH|]. intro r. apply sameT_ret.
    Qed.
    Lemma sameT_compute_distances ids : sameT (compute_distances vec D pw ids) (compute_distances vec' D pw' ids).
    Proof using P.
      intros [[c v d] m]. unfold compute_distances, attr, bind, gets, lift, modify, raise, ret. cbn [wT moved_sampler fst snd s_vectors option_map].
      destruct v as [v|]; cbn [option_map]; auto. cbn [s_clustering s_distances s_vectors fst snd]. cbn beta iota. rewrite rows_T.
      destruct (rmap (fun x => dlookup x v) ids) as [[|r rows]|] eqn:E; cbn [rok map]; auto. cbn [fst snd moved_sampler s_clustering s_vectors s_distances].
      change (T r :: map T rows) with (map T (r :: rows)). rewrite (table_T pw pw' P) by (exact (rmap_len _ _ _ E)). reflexivity.
    Qed.
    Lemma sameT_with_keys : forall l, sameT (with_keys vec D l) (with_keys vec' D l).
    Proof using.
      induction l as [|p l IH]; [intro w; reflexivity|]. cbn [with_keys]. apply sameT_bind.
      - unfold distance_of. apply sameT_bind; [apply sameT_distances|]. intro t. apply sameT_bind; [apply sameT_lift|]. intro r. apply sameT_lift.
      - intro k. apply sameT_bind; [apply IH|]. intro r. apply sameT_ret.
    Qed.
    Lemma sample_T nb clustering vectors :
      sameT (sample vec D pw ltb draw o nb clustering vectors) (sample vec' D pw' ltb draw o nb clustering (option_map (moved T) vectors)).
    Proof using P.
      unfold sample. destruct (nb <? 0)%Z; [apply sameT_raise|]. destruct (nb =? 0)%Z; [apply sameT_ret|].
      apply sameT_bind.
      { destruct (o_clusters o); [|apply sameT_ret]. destruct clustering; [|apply sameT_raise]. intros w. reflexivity. }
      intro u1. apply sameT_bind.
      { destruct (o_distance o); [|apply sameT_ret]. destruct vectors; [|apply sameT_raise]. intros w. reflexivity. }
      intro u2. apply sameT_bind; [apply sameT_on_mgr|]. intro ids. apply sameT_bind; [apply sameT_mfilter, sameT_keep|]. intro pairs.
      apply sameT_bind.
      { destruct (o_distance o); [|apply sameT_ret]. apply sameT_compute_distances. }
      intro u3. destruct (opt_is (o_distance o) CLOSEST).
      { apply sameT_bind; [apply sameT_with_keys|]. intro keyed. apply sameT_ret. }
      destruct (opt_is (o_distance o) FARTHEST).
      { apply sameT_bind; [apply sameT_with_keys|]. intro keyed. apply sameT_ret. }
      apply sameT_ret.
    Qed.
  End Sample.
End Move.

(** ** Isometries. *)
Open Scope Qc_scope.
Lemma over_ext n f g : (forall i, (i < n)%nat -> f i = g i) -> over n f = over n g.
Proof. intro E. unfold over. f_equal. apply map_ext_in. intros i J. apply in_seq in J. apply E. lia. Qed.
Lemma total_plus {A} (f g : A -> Qc) l : total (map (fun i => f i + g i) l) = total (map f l) + total (map g l).
Proof. induction l as [|x l IH]; simpl; [ring|]. rewrite IH. ring. Qed.
Lemma total_scale {A} (f : A -> Qc) c l : total (map (fun i => c * f i) l) = c * total (map f l).
Proof. induction l as [|x l IH]; simpl; [ring|]. rewrite IH. ring. Qed.
Lemma total_zero {A} (l : list A) : total (map (fun _ => 0) l) = 0.
Proof. induction l as [|x l IH]; simpl; [reflexivity|]. rewrite IH. ring. Qed.
Lemma total_swap {A B} (f : A -> B -> Qc) la lb :
  total (map (fun a => total (map (f a) lb)) la) = total (map (fun b => total (map (fun a => f a b) la)) lb).
Proof. induction la as [|a la IH]; simpl; [rewrite total_zero; reflexivity|]. rewrite IH, <- total_plus. reflexivity. Qed.
Lemma total_mult {A B} (f : A -> Qc) (g : B -> Qc) la lb :
  total (map f la) * total (map g lb) = total (map (fun a => total (map (fun b => f a * g b) lb)) la).
Proof. induction la as [|a la IH]; simpl; [ring|]. rewrite <- IH, total_scale. ring. Qed.
Lemma total_ext {A} (f g : A -> Qc) l : (forall x, In x l -> f x = g x) -> total (map f l) = total (map g l).
Proof. intro E. f_equal. apply map_ext_in. auto. Qed.
Lemma total_minus {A} (f g : A -> Qc) l : total (map (fun i => f i - g i) l) = total (map f l) - total (map g l).
Proof. induction l as [|x l IH]; simpl; [ring|]. rewrite IH. ring. Qed.
Lemma total_pick (f : nat -> Qc) j l : NoDup l -> In j l -> total (map (fun k => (if (j =? k)%nat then 1 else 0) * f k) l) = f j.
Proof.
  induction l as [|x l IH]; intros N J; [destruct J|]. inversion N as [|? ? Nx Nl]; subst. simpl. destruct (Nat.eqb_spec j x) as [->|D].
  - assert (E : total (map (fun k => (if (x =? k)%nat then 1 else 0) * f k) l) = 0).
    { transitivity (total (map (fun _ : nat => 0) l)); [|apply total_zero]. apply total_ext. intros k K. destruct (Nat.eqb_spec x k) as [->|_]; [contradiction|ring]. }
    rewrite E. ring.
  - destruct J as [->|J]; [congruence|]. rewrite IH; auto. ring.
Qed.
Lemma at_map n (f : nat -> Qc) i : (i < n)%nat -> at_ (map f (seq 0 n)) i = f i.
Proof.
  intro L. unfold at_. rewrite (nth_indep _ 0 (f 0%nat)) by (rewrite map_length, seq_length; auto). rewrite map_nth, seq_nth by auto. reflexivity.
Qed.

Lemma isometry_apart n M t u v : orthogonal n M -> apart2 n (isometry n M t u) (isometry n M t v) = apart2 n u v.
Proof.
  intro O. unfold apart2. set (w := fun i => at_ u i - at_ v i).
  transitivity (over n (fun i => over n (fun j => M i j * w j) * over n (fun k => M i k * w k))).
  { apply over_ext. intros i L. unfold isometry. rewrite !at_map by auto.
    assert (E : over n (fun j => M i j * w j) = over n (fun j => M i j * at_ u j) - over n (fun j => M i j * at_ v j)).
    { unfold over, w. rewrite <- total_minus. apply total_ext. intros j _. ring. }
    rewrite E. ring. }
  unfold over. transitivity (total (map (fun i => total (map (fun j => total (map (fun k => w j * w k * (M i j * M i k)) (seq 0 n))) (seq 0 n))) (seq 0 n))).
  { apply total_ext. intros i _. rewrite total_mult. apply total_ext. intros j _. apply total_ext. intros k _. ring. }
  rewrite total_swap. apply total_ext. intros j J. rewrite total_swap.
  transitivity (total (map (fun k => (if (j =? k)%nat then 1 else 0) * (w j * w k)) (seq 0 n))).
  { apply total_ext. intros k K. rewrite total_scale. apply in_seq in J, K. change (total (map (fun i => M i j * M i k) (seq 0 n))) with (over n (fun i => M i j * M i k)).
    rewrite (O j k) by lia. ring. }
  rewrite (total_pick (fun k => w j * w k)); [reflexivity|apply seq_NoDup|auto].
Qed.

Lemma count_pos {A} (l : list A) : l <> [] -> Q2Qc (QArith_base.inject_Z (Z.of_nat (length l))) <> 0.
Proof.
  intros N E. assert (Q : QArith_base.Qeq (QArith_base.inject_Z (Z.of_nat (length l))) (QArith_base.inject_Z 0)).
  { apply (f_equal this) in E. change (Qreduction.Qred (QArith_base.inject_Z (Z.of_nat (length l))) = this 0) in E.
    rewrite <- (Qreduction.Qred_correct (QArith_base.inject_Z (Z.of_nat (length l)))), E. reflexivity. }
  apply (proj1 (QArith_base.inject_Z_injective _ _)) in Q. destruct l as [|x l]; [congruence|]. cbn [length] in Q. lia.
Qed.
Lemma total_const {A} (c : Qc) (l : list A) : total (map (fun _ => c) l) = Q2Qc (QArith_base.inject_Z (Z.of_nat (length l))) * c.
Proof.
  induction l as [|x l IH]; [change (0 = 0 * c); ring|]. cbn [map length]. change (total (c :: map (fun _ => c) l)) with (c + total (map (fun _ => c) l)). rewrite IH.
  assert (E : Q2Qc (QArith_base.inject_Z (Z.of_nat (S (length l)))) = 1 + Q2Qc (QArith_base.inject_Z (Z.of_nat (length l)))).
  { apply Qc_is_canon. rewrite Nat2Z.inj_succ. unfold Z.succ. set (z := Z.of_nat (length l)).
    change (QArith_base.Qeq (Qreduction.Qred (QArith_base.inject_Z (z + 1))) (Qreduction.Qred (QArith_base.Qplus (this 1) (Qreduction.Qred (QArith_base.inject_Z z))))).
    assert (R := Qreduction.Qred_correct). eapply QArith_base.Qeq_trans; [apply R|]. apply QArith_base.Qeq_sym. eapply QArith_base.Qeq_trans; [apply R|].
    eapply QArith_base.Qeq_trans; [apply QArith_base.Qplus_comp; [apply QArith_base.Qeq_refl|apply R]|].
    eapply QArith_base.Qeq_trans; [apply QArith_base.Qplus_comm|]. apply QArith_base.Qeq_sym. exact (QArith_base.Qeq_refl (QArith_base.inject_Z (z + 1))) || (rewrite QArith_base.inject_Z_plus; apply QArith_base.Qeq_refl). }
  rewrite E. ring.
Qed.

Lemma isometry_gravity n M t l : l <> [] -> gravity n (map (isometry n M t) l) = isometry n M t (gravity n l).
Proof.
  intro NE. assert (K := count_pos l NE). unfold gravity at 1, isometry at 2. rewrite map_length. apply map_ext_in. intros i J. apply in_seq in J.
  set (c := Q2Qc (QArith_base.inject_Z (Z.of_nat (length l)))) in *. rewrite map_map.
  transitivity ((over n (fun j => M i j * total (map (fun v => at_ v j) l)) + c * at_ t i) / c).
  { f_equal. unfold c. rewrite <- (total_const (at_ t i) l). unfold over.
    transitivity (total (map (fun v => over n (fun j => M i j * at_ v j) + at_ t i) l)).
    { apply total_ext. intros v _. unfold isometry. rewrite at_map by lia. reflexivity. }
    rewrite total_plus. f_equal. unfold over. rewrite total_swap. apply total_ext. intros j _. rewrite <- total_scale. reflexivity. }
  unfold Qcdiv. rewrite Qcmult_plus_distr_l. f_equal; [|field; auto].
  rewrite Qcmult_comm. unfold over. rewrite <- total_scale. apply total_ext. intros j L. apply in_seq in L. unfold gravity. rewrite at_map by lia. fold c. unfold Qcdiv. ring.
Qed.
