(** * Runs in two units. *)

From Coq Require Import String List Bool Arith ZArith Lia.
From Verif Require Import Base Manager Sampling Rename KMeans Hierarchical Dbscan UnitSpec.
Import ListNotations.
Open Scope nat_scope.
Open Scope py_scope.

(** ** Values of dictionaries and results. *)
Definition vmap {K V W} (f : V -> W) (d : dict K V) : dict K W := map (fun e => (fst e, f (snd e))) d.
Definition rok {A B} (g : A -> B) (r : res A) : res B := match r with Ok a => Ok (g a) | Raise e => Raise e end.

Lemma dget_vmap {K V W} `{EqB K} (f : V -> W) k (d : dict K V) : dget k (vmap f d) = option_map f (dget k d).
Proof. induction d as [|[k' v] d IH]; simpl; auto. destruct (eqb k k'); auto. Qed.
Lemma dset_vmap {K V W} `{EqB K} (f : V -> W) k v (d : dict K V) : dset k (f v) (vmap f d) = vmap f (dset k v d).
Proof. induction d as [|[k' v'] d IH]; simpl; auto. destruct (eqb k k'); simpl; auto. f_equal. apply IH. Qed.
Lemma dlookup_vmap {K V W} `{EqB K} (f : V -> W) k (d : dict K V) : dlookup k (vmap f d) = rok f (dlookup k d).
Proof. unfold dlookup. rewrite dget_vmap. destruct (dget k d); auto. Qed.
Lemma keys_vmap {K V W} (f : V -> W) (d : dict K V) : keys (vmap f d) = keys d.
Proof. unfold keys, vmap. rewrite map_map. auto. Qed.

Lemma rok_bind {A A' B B'} (g : A -> A') (h : B -> B') r (k : A -> res B) k' :
  (forall a, k' (g a) = rok h (k a)) -> rbind (rok g r) k' = rok h (rbind r k).
Proof. intro E. destruct r; simpl; auto. Qed.
Lemma same_bind {A B B'} (h : B -> B') (r : res A) (k : A -> res B) k' :
  (forall a, k' a = rok h (k a)) -> rbind r k' = rok h (rbind r k).
Proof. intro E. destruct r; simpl; auto. Qed.
Lemma rok_id {A} (r : res A) : rok (fun a => a) r = r.
Proof. destruct r; auto. Qed.

Lemma rmap_rok {A B B'} (g : B -> B') (k : A -> res B) k' : (forall x, k' x = rok g (k x)) ->
  forall l, rmap k' l = rok (map g) (rmap k l).
Proof. intros E l. induction l as [|x l IH]; simpl; auto. rewrite E, IH. destruct (k x); simpl; auto. destruct (rmap k l); auto. Qed.
Lemma rfilter_ext {A} (k k' : A -> res bool) : (forall x, k' x = k x) -> forall l, rfilter k' l = rfilter k l.
Proof. intros E l. induction l as [|x l IH]; simpl; auto. rewrite E, IH. auto. Qed.
Lemma rfold_rok {A B B'} (g : B -> B') (k : B -> A -> res B) k' : (forall b x, k' (g b) x = rok g (k b x)) ->
  forall l b, rfold k' l (g b) = rok g (rfold k l b).
Proof. intros E l. induction l as [|x l IH]; simpl; intro b; auto. rewrite E. destruct (k b x); simpl; auto. Qed.
Lemma rfold_ext {A B} (k k' : B -> A -> res B) : (forall b x, k' b x = k b x) -> forall l b, rfold k' l b = rfold k l b.
Proof. intros E l. induction l as [|x l IH]; simpl; intro b; auto. rewrite E. destruct (k b x); simpl; auto. Qed.

Lemma fold_pick {A A'} (g : A -> A') (lt : A -> A -> bool) lt' : (forall a b, lt' (g a) (g b) = lt a b) ->
  forall l x, fold_left (fun best y => if lt' y best then y else best) (map g l) (g x) =
              g (fold_left (fun best y => if lt y best then y else best) l x).
Proof. intros E l. induction l as [|y l IH]; simpl; intro x; auto. rewrite E. destruct (lt y x); apply IH. Qed.
Lemma py_min_rok {A A'} (g : A -> A') (lt : A -> A -> bool) lt' : (forall a b, lt' (g a) (g b) = lt a b) ->
  forall l, py_min lt' (map g l) = rok g (py_min lt l).
Proof. intros E [|x l]; auto. unfold py_min. simpl map. cbn beta iota. rewrite (fold_pick g lt lt' E). auto. Qed.
Lemma py_max_rok {A A'} (g : A -> A') (lt : A -> A -> bool) lt' : (forall a b, lt' (g a) (g b) = lt a b) ->
  forall l, py_max lt' (map g l) = rok g (py_max lt l).
Proof. intros E [|x l]; auto. unfold py_max. simpl map. cbn beta iota.
  rewrite (fold_pick g (fun a b => lt b a) (fun a b => lt' b a)); auto. Qed.
Lemma insert_rok {A A'} (g : A -> A') (lt : A -> A -> bool) lt' : (forall a b, lt' (g a) (g b) = lt a b) ->
  forall x l, insert_before lt' (g x) (map g l) = map g (insert_before lt x l).
Proof. intros E x l. induction l as [|y l IH]; simpl; auto. rewrite E. destruct (lt y x); simpl; congruence. Qed.
Lemma sorted_rok {A A'} (g : A -> A') (lt : A -> A -> bool) lt' : (forall a b, lt' (g a) (g b) = lt a b) ->
  forall l, sorted_by lt' (map g l) = map g (sorted_by lt l).
Proof.
  intros E l. unfold sorted_by. induction l as [|x l IH]; simpl; auto. rewrite IH. apply insert_rok; auto.
Qed.

Section TwoUnits.
  Variables vec D D' : Type.
  Context `{ED : EqB D} `{ED' : EqB D'}.
  Variable f : D -> D'.
  Variable ltb : D -> D -> bool.
  Variable ltb' : D' -> D' -> bool.
  Hypothesis F : increasing ltb ltb' f.

  Lemma ltb_f a b : ltb' (f a) (f b) = ltb a b.
  Proof using F. apply F. Qed.
  Lemma eqb_f a b : eqb (f a) (f b) = eqb a b.
  Proof using F.
    destruct (eqb_spec a b) as [->|N]; [apply eqb_refl|]. apply eqb_neq. intro E. apply N. apply F. exact E.
  Qed.

  Lemma in_unit_vmap t : in_unit f t = vmap (vmap f) t.
  Proof using. reflexivity. Qed.
  Lemma table_get_f t p : table_get D' (in_unit f t) p = rok f (table_get D t p).
  Proof using.
    unfold table_get. rewrite in_unit_vmap, dlookup_vmap. apply rok_bind. intro r. apply dlookup_vmap.
  Qed.

  Section Table.
    Variable pw : list vec -> nat -> nat -> D.
    Variable pw' : list vec -> nat -> nat -> D'.
    Hypothesis P : forall rows i j, pw' rows i j = f (pw rows i j).

    Lemma row_f (rows : list vec) i : forall l r,
      fold_left (fun r e' => dset (snd e') (pw' rows i (fst e')) r) l (vmap f r) =
      vmap f (fold_left (fun r (e' : nat * pystr) => dset (snd e') (pw rows i (fst e')) r) l r).
    Proof using P. induction l as [|e l IH]; simpl; intro r; auto. rewrite P, dset_vmap. apply IH. Qed.
    Lemma rows_f (rows : list vec) es : forall l t,
      fold_left (fun t e => dset (snd e) (fold_left (fun r e' => dset (snd e') (pw' rows (fst e) (fst e')) r) es []) t) l (in_unit f t) =
      in_unit f (fold_left (fun t (e : nat * pystr) => dset (snd e)
         (fold_left (fun r (e' : nat * pystr) => dset (snd e') (pw rows (fst e) (fst e')) r) es []) t) l t).
    Proof using P.
      induction l as [|e l IH]; intro t; cbn [fold_left]; auto. rewrite <- IH. f_equal.
      rewrite !in_unit_vmap, <- dset_vmap. f_equal. apply (row_f rows (fst e) es []).
    Qed.
    Lemma pairwise_table_f m vectors :
      pairwise_table vec D' pw' m vectors = rok (in_unit f) (pairwise_table vec D pw m vectors).
    Proof using P.
      unfold pairwise_table. apply same_bind. intro managed. apply same_bind. intros [|r rows]; auto.
      unfold rok. f_equal. apply (rows_f (r :: rows) (enum managed) (enum managed) []).
    Qed.
  End Table.

  (** ** Hierarchical clustering. *)
  Section Hier.
    Variable cd : vec -> vec -> D.
    Variable cd' : vec -> vec -> D'.
    Hypothesis C : forall u v, cd' u v = f (cd u v).
    Variable dsum : list D -> D.
    Variable dsum' : list D' -> D'.
    Variable ddiv : D -> nat -> D.
    Variable ddiv' : D' -> nat -> D'.
    Variable inf : D.
    Variable mean : list vec -> vec.
    Variable m : mgr.
    Variable linkage : pystr.
    Hypothesis L : In linkage [str "average"; str "complete"; str "single"] \/
      (forall l, dsum' (map f l) = f (dsum l)) /\ (forall d n, ddiv' (f d) n = f (ddiv d n)).
    Variable table : dict pystr (dict pystr D).
    Variable vectors : dict pystr vec.

    Lemma tree_distance_f ti tj :
      tree_distance vec D' cd' ltb' dsum' ddiv' (f inf) m linkage (in_unit f table) ti tj =
      rok f (tree_distance vec D cd ltb dsum ddiv inf m linkage table ti tj).
    Proof using F C L.
      unfold tree_distance. apply same_bind. intros [|]; auto.
      destruct (eqb_spec linkage (str "complete")) as [Ec|Nc].
      { rewrite (rmap_rok f (table_get D table)) by apply table_get_f. apply rok_bind. intro ds. apply py_max_rok, ltb_f. }
      destruct (eqb_spec linkage (str "average")) as [Ea|Na].
      { cbn [rok]. rewrite C. auto. }
      destruct (eqb_spec linkage (str "single")) as [Es|Ns].
      { rewrite (rmap_rok f (table_get D table)) by apply table_get_f. apply rok_bind. intro ds. apply py_min_rok, ltb_f. }
      destruct L as [[E|[E|[E|[]]]]|[Ls Ld]]; [congruence..|].
      rewrite (rmap_rok f (table_get D table)) by apply table_get_f. apply rok_bind. intro ds.
      destruct (Nat.eqb _ 0); auto. rewrite Ls, Ld. auto.
    Qed.

    Definition fo (x : forest vec D) : forest vec D' :=
      mkForest vec D' (f_current vec D x) (f_storage vec D x) (vmap (vmap f) (f_distance vec D x)).

    Lemma update_distance_f x p :
      update_distance vec D' cd' ltb' dsum' ddiv' (f inf) m linkage (in_unit f table) (fo x) p =
      rok fo (update_distance vec D cd ltb dsum ddiv inf m linkage table x p).
    Proof using F C L.
      unfold update_distance, compute_distance. cbn [f_storage fo].
      destruct (dlookup (fst p) (f_storage vec D x)) as [ti|]; cbn [rbind]; auto.
      destruct (dlookup (snd p) (f_storage vec D x)) as [tj|]; cbn [rbind]; auto.
      rewrite tree_distance_f. destruct (tree_distance vec D cd ltb dsum ddiv inf m linkage table ti tj) as [d|]; cbn [rok rbind]; auto.
      f_equal. unfold fo. cbn [f_current f_storage f_distance]. f_equal. unfold set_distance. rewrite dget_vmap.
      destruct (dget (Z.min (fst p) (snd p)) (f_distance vec D x)) as [row|]; cbn [option_map].
      - rewrite dset_vmap, dset_vmap. auto.
      - rewrite <- (dset_vmap (vmap f)). f_equal.
    Qed.

    Lemma two_closest_f x : two_closest vec D' ltb' (f inf) (fo x) = two_closest vec D ltb inf x.
    Proof using F.
      unfold two_closest. set (g := fun c : Z * Z * D * nat => (fst (fst c), f (snd (fst c)), snd c)).
      rewrite (rmap_rok g (fun p : Z * Z =>
                     d <-- get_distance D (f_distance vec D x) (fst p) (snd p) ;;;
                     t1 <-- dlookup (fst p) (f_storage vec D x) ;;;
                     t2 <-- dlookup (snd p) (f_storage vec D x) ;;;
                     Ok (fst p, snd p, d, length (t_members vec t1) + length (t_members vec t2)))).
      - cbn [fo f_current]. rewrite <- rok_id. apply rok_bind. intro cs.
        rewrite (py_min_rok g (closer D ltb)).
        + apply rok_bind. intro best. cbn [g fst snd]. rewrite eqb_f, rok_id. auto.
        + intros a b. unfold closer. cbn [g fst snd]. rewrite eqb_f, ltb_f. auto.
      - intro p. cbn [fo f_distance f_storage]. unfold get_distance. rewrite dlookup_vmap.
        destruct (dlookup (Z.min (fst p) (snd p)) (f_distance vec D x)) as [row|]; cbn [rok rbind]; auto.
        rewrite dlookup_vmap. destruct (dlookup (Z.max (fst p) (snd p)) row) as [d|]; cbn [rok rbind]; auto.
        destruct (dlookup (fst p) (f_storage vec D x)) as [t1|]; cbn [rok rbind]; auto.
        destruct (dlookup (snd p) (f_storage vec D x)) as [t2|]; cbn [rok rbind]; auto.
    Qed.

    Lemma add_by_members_f it x l :
      add_by_members vec D' mean vectors it (fo x) l = rok fo (add_by_members vec D mean vectors it x l).
    Proof using.
      unfold add_by_members. cbn [fo f_storage]. apply same_bind. intro n. apply same_bind. intro t. auto.
    Qed.
    Definition fz (r : forest vec D * Z) : forest vec D' * Z := (fo (fst r), snd r).
    Lemma add_by_merging_f it x l :
      add_by_merging vec D' mean vectors it (fo x) l = rok fz (add_by_merging vec D mean vectors it x l).
    Proof using.
      unfold add_by_merging. cbn [fo f_storage f_current]. apply same_bind. intro n. apply same_bind. intro mx.
      apply same_bind. intro trees. apply same_bind. intro t. auto.
    Qed.

    Definition fn (r : forest vec D * nat) : forest vec D' * nat := (fo (fst r), snd r).
    Lemma merge_loop_f : forall fuel it x,
      merge_loop vec D' cd' ltb' dsum' ddiv' (f inf) mean fuel m linkage (in_unit f table) vectors it (fo x) =
      rok fn (merge_loop vec D cd ltb dsum ddiv inf mean fuel m linkage table vectors it x).
    Proof using F C L.
      induction fuel as [|fuel IH]; intros it x; cbn [merge_loop]; cbn [fo f_current];
        (destruct (Nat.leb (length (f_current vec D x)) 1); [reflexivity|]); [reflexivity|].
      rewrite two_closest_f. apply same_bind. intros [[c1 c2]|]; [|reflexivity].
      rewrite add_by_merging_f. apply rok_bind. intros [y merged]. cbn [fz fst snd fo f_current].
      change (mkForest vec D' (f_current vec D y) (f_storage vec D y) (vmap (vmap f) (f_distance vec D y))) with (fo y).
      rewrite (rfold_rok fo (update_distance vec D cd ltb dsum ddiv inf m linkage table)) by apply update_distance_f.
      apply rok_bind. intro z. apply IH.
    Qed.

    Lemma build_tree_f :
      build_tree vec D' cd' ltb' dsum' ddiv' (f inf) mean m linkage vectors (in_unit f table) =
      build_tree vec D cd ltb dsum ddiv inf mean m linkage vectors table.
    Proof using F C L.
      unfold build_tree. rewrite <- rok_id. apply same_bind. intro components. rewrite rok_id.
      change (mkForest vec D' [] [] []) with (fo (mkForest vec D [] [] [])).
      rewrite (rfold_rok fo (add_by_members vec D mean vectors 0)) by apply add_by_members_f.
      rewrite <- rok_id. apply rok_bind. intro x. rewrite rok_id. cbn [fo f_current].
      change (mkForest vec D' (f_current vec D x) (f_storage vec D x) (vmap (vmap f) (f_distance vec D x))) with (fo x).
      rewrite (rfold_rok fo (update_distance vec D cd ltb dsum ddiv inf m linkage table)) by apply update_distance_f.
      rewrite <- rok_id. apply rok_bind. intro y. rewrite rok_id. cbn [fo f_current].
      change (mkForest vec D' (f_current vec D y) (f_storage vec D y) (vmap (vmap f) (f_distance vec D y))) with (fo y).
      rewrite merge_loop_f. rewrite <- rok_id. apply rok_bind. intros [z it]. rewrite rok_id. cbn [fn fst snd fo f_current].
      change (mkForest vec D' (f_current vec D z) (f_storage vec D z) (vmap (vmap f) (f_distance vec D z))) with (fo z).
      rewrite <- rok_id. destruct (Nat.ltb 1 (length (f_current vec D z))).
      - rewrite add_by_merging_f. destruct (add_by_merging vec D mean vectors it z (f_current vec D z)) as [r|]; cbn [rok rbind]; auto.
        rewrite rok_id. destruct r as [x1 n]. reflexivity.
      - cbn [rbind]. rewrite rok_id. reflexivity.
    Qed.
  End Hier.

  (** ** Sampling. *)
  Section Sample.
    Variable pw : list vec -> nat -> nat -> D.
    Variable pw' : list vec -> nat -> nat -> D'.
    Hypothesis P : forall rows i j, pw' rows i j = f (pw rows i j).
    Variable draw : list (pystr * pystr) -> nat -> list (pystr * pystr).
    Variable o : options.

    Definition fw (w : world vec D) : world vec D' := (sampler_in_unit f (fst w), snd w).
    (** The same computation in the other unit. *)
    Definition sim {A A'} (g : A -> A') (c : M (world vec D) A) (c' : M (world vec D') A') : Prop :=
      forall w, c' (fw w) = (fw (fst (c w)), rok g (snd (c w))).
    Definition same {A} (c : M (world vec D) A) (c' : M (world vec D') A) : Prop := sim (fun a => a) c c'.

    Lemma sim_bind {A A' B B'} (g : A -> A') (h : B -> B') c c' (k : A -> M _ B) (k' : A' -> M _ B') :
      sim g c c' -> (forall a, sim h (k a) (k' (g a))) -> sim h (bind c k) (bind c' k').
    Proof using. intros Sc Sk w. unfold bind. rewrite Sc. destruct (c w) as [w1 [a|e]]; simpl; auto. apply Sk. Qed.
    Lemma same_bindM {A B B'} (h : B -> B') c c' (k : A -> M _ B) (k' : A -> M _ B') :
      same c c' -> (forall a, sim h (k a) (k' a)) -> sim h (bind c k) (bind c' k').
    Proof using. apply (sim_bind (fun a => a)). Qed.
    Lemma sim_ret {A A'} (g : A -> A') a : sim g (ret a) (ret (g a)).
    Proof using. intro w. reflexivity. Qed.
    Lemma same_ret {A} (a : A) : same (ret a) (ret a).
    Proof using. intro w. reflexivity. Qed.
    Lemma sim_raise {A A'} (g : A -> A') e : sim g (raise e) (raise e).
    Proof using. intro w. reflexivity. Qed.
    Lemma sim_lift {A A'} (g : A -> A') r : sim g (lift r) (lift (rok g r)).
    Proof using. intro w. reflexivity. Qed.
    Lemma same_lift {A} (r : res A) : same (lift r) (lift r).
    Proof using. intro w. unfold lift. simpl. rewrite rok_id. reflexivity. Qed.
    Lemma same_on_mgr {A} (q : M mgr A) : same (on_mgr vec D q) (on_mgr vec D' q).
    Proof using. intros [s m]. unfold on_mgr. simpl. destruct (q m) as [m1 r]. simpl. rewrite rok_id. reflexivity. Qed.
    Lemma same_clustering : same (attr vec D (s_clustering vec D)) (attr vec D' (s_clustering vec D')).
    Proof using. intros [[c v d] m]. destruct c; reflexivity. Qed.
    Lemma same_vectors : same (attr vec D (s_vectors vec D)) (attr vec D' (s_vectors vec D')).
    Proof using. intros [[c v d] m]. destruct v; reflexivity. Qed.
    Lemma sim_distances : sim (in_unit f) (attr vec D (s_distances vec D)) (attr vec D' (s_distances vec D')).
    Proof using. intros [[c v d] m]. destruct d; reflexivity. Qed.

    Lemma same_cluster_of x : same (cluster_of vec D x) (cluster_of vec D' x).
    Proof using. unfold cluster_of. eapply same_bindM; [apply same_clustering|]. intro d. apply same_lift. Qed.

    Lemma same_keep p : same (keep vec D o p) (keep vec D' o p).
    Proof using.
      destruct p as [x y]. unfold keep. destruct (str_leb y x); [apply same_ret|].
      eapply same_bindM.
      - unfold mor, mand. eapply same_bindM.
        + destruct (opt_is (o_clusters o) SAME_CLUSTER); [|apply same_ret].
          eapply same_bindM; [apply same_cluster_of|]. intro c1. eapply same_bindM; [apply same_cluster_of|]. intro c2. apply same_ret.
        + intros [|]; [apply same_ret|]. destruct (opt_is (o_clusters o) DIFFERENT_CLUSTERS); [|apply same_ret].
          eapply same_bindM; [apply same_cluster_of|]. intro c1. eapply same_bindM; [apply same_cluster_of|]. intro c2. apply same_ret.
      - intros [|]; [apply same_ret|]. eapply same_bindM; [|intro; apply same_ret].
        unfold mor, mand. eapply same_bindM.
        + destruct (o_without_added o); [|apply same_ret]. eapply same_bindM; [apply same_on_mgr|]. intro c. apply same_ret.
        + intros [|]; [apply same_ret|]. destruct (o_without_inferred o); [|apply same_ret].
          eapply same_bindM; [apply same_on_mgr|]. intro c. apply same_ret.
    Qed.

    Lemma same_mfilter {A} (k : A -> M (world vec D) bool) k' : (forall x, same (k x) (k' x)) ->
      forall l, same (mfilter k l) (mfilter k' l).
    Proof using.
      intros E. induction l as [|x l IH]; [apply same_ret|]. cbn [mfilter]. eapply same_bindM; [apply E|]. intro b.
      eapply same_bindM; [apply IH|]. intro r. apply same_ret.
    Qed.

    Lemma same_compute_distances ids : same (compute_distances vec D pw ids) (compute_distances vec D' pw' ids).
    Proof using P.
      unfold compute_distances. eapply same_bindM; [apply same_vectors|]. intro vecs. eapply same_bindM; [apply same_lift|].
      intros [|r rows]; [intro w; reflexivity|]. intros [s m]. unfold bind, ret, modify, fw. cbn [fst snd].
      unfold sampler_in_unit. cbn [s_clustering s_vectors s_distances fst snd option_map rok]. do 4 f_equal.
      apply (rows_f pw pw' P (r :: rows) (enum ids) (enum ids) []).
    Qed.

    Lemma sim_distance_of p : sim f (distance_of vec D p) (distance_of vec D' p).
    Proof using.
      unfold distance_of. eapply sim_bind; [apply sim_distances|]. intro t.
      rewrite in_unit_vmap, dlookup_vmap. eapply sim_bind; [apply sim_lift|]. intro r. rewrite dlookup_vmap. apply sim_lift.
    Qed.
    Definition fk (k : D * (pystr * pystr)) : D' * (pystr * pystr) := (f (fst k), snd k).
    Lemma sim_with_keys : forall l, sim (map fk) (with_keys vec D l) (with_keys vec D' l).
    Proof using.
      induction l as [|p l IH]; [intro w; reflexivity|]. cbn [with_keys]. eapply sim_bind; [apply sim_distance_of|]. intro k.
      eapply sim_bind; [apply IH|]. intro r. apply (sim_ret (map fk) ((k, p) :: r)).
    Qed.
    Lemma snd_fk l : map snd (map fk l) = map snd l.
    Proof using. rewrite map_map. auto. Qed.

    Lemma same_sample nb clustering vectors :
      same (sample vec D pw ltb draw o nb clustering vectors) (sample vec D' pw' ltb' draw o nb clustering vectors).
    Proof using F P.
      unfold sample. destruct (nb <? 0)%Z; [apply sim_raise|]. destruct (nb =? 0)%Z; [apply same_ret|].
      eapply same_bindM.
      { destruct (o_clusters o); [|apply same_ret]. destruct clustering; [|apply sim_raise]. intros w. reflexivity. }
      intro u1. eapply same_bindM.
      { destruct (o_distance o); [|apply same_ret]. destruct vectors; [|apply sim_raise]. intros w. reflexivity. }
      intro u2. eapply same_bindM; [apply same_on_mgr|]. intro ids. eapply same_bindM; [apply same_mfilter, same_keep|]. intro pairs.
      eapply same_bindM.
      { destruct (o_distance o); [|apply same_ret]. apply same_compute_distances. }
      intro u3. destruct (opt_is (o_distance o) CLOSEST).
      { eapply sim_bind; [apply sim_with_keys|]. intro keyed.
        rewrite (sorted_rok fk (fun p q => ltb (fst p) (fst q))), snd_fk by (intros a b; apply ltb_f). apply same_ret. }
      destruct (opt_is (o_distance o) FARTHEST).
      { eapply sim_bind; [apply sim_with_keys|]. intro keyed.
        rewrite (sorted_rok fk (fun p q => ltb (fst q) (fst p))), snd_fk by (intros a b; apply ltb_f). apply same_ret. }
      apply same_ret.
    Qed.
  End Sample.

  (** ** DBScan. *)
  Section Db.
    Variable pw : list vec -> nat -> nat -> D.
    Variable pw' : list vec -> nat -> nat -> D'.
    Hypothesis P : forall rows i j, pw' rows i j = f (pw rows i j).
    Variable leb : D -> D -> bool.
    Variable leb' : D' -> D' -> bool.
    Hypothesis Le : forall a b, leb' (f a) (f b) = leb a b.
    Variable of_nat : nat -> D.
    Variable of_nat' : nat -> D'.
    Variable setlist : list pystr -> list pystr.
    Variable eps : D.
    Variable ms : nat.
    Variable m : mgr.
    Let p := mkDBParams D eps ms.
    Let p' := mkDBParams D' (f eps) ms.

    Section OneTable.
      Variable table : dict pystr (dict pystr D).
      Variable l : list pystr.

      Lemma local_step_f s x : local_step D' leb' p' m (in_unit f table) l s x = local_step D leb p m table l s x.
      Proof using Le.
        destruct s as [labels local]. unfold local_step. rewrite <- rok_id. apply same_bind. intro lab. rewrite rok_id.
        destruct (is_single lab); auto. rewrite <- rok_id. apply same_bind. intro possible. rewrite rok_id.
        rewrite (rfilter_ext (fun y => d <-- table_get D table (x, y) ;;; Ok (leb d (db_eps D p)))).
        - reflexivity.
        - intro y. rewrite table_get_f. destruct (table_get D table (x, y)); simpl; auto. rewrite Le. auto.
      Qed.
      Lemma local_clusters_f : local_clusters D' leb' p' m (in_unit f table) l = local_clusters D leb p m table l.
      Proof using Le. unfold local_clusters. apply rfold_ext. apply local_step_f. Qed.

      Lemma cluster_distance_f xs ys :
        cluster_distance D' ltb' (in_unit f table) xs ys = rok f (cluster_distance D ltb table xs ys).
      Proof using F.
        unfold cluster_distance. rewrite (rmap_rok f (table_get D table)) by apply table_get_f. apply rok_bind. intro ds.
        apply py_min_rok, ltb_f.
      Qed.
      Lemma absorb_f : forall fuel core local,
        absorb D' ltb' setlist p' m (in_unit f table) fuel core local = absorb D ltb setlist p m table fuel core local.
      Proof using F.
        induction fuel as [|fuel IH]; intros core local; [reflexivity|]. cbn [absorb]. destruct local as [|e0 local0] eqn:El; [reflexivity|].
        rewrite <- El. clear El.
        rewrite (rmap_rok (fun e : pystr * D => (fst e, f (snd e))) (fun e => d <-- cluster_distance D ltb table core (snd e) ;;; Ok (fst e, d))).
        - rewrite <- rok_id. apply rok_bind. intro ds. rewrite rok_id. change (map (fun e => (fst e, f (snd e))) ds) with (vmap f ds).
          rewrite keys_vmap. rewrite <- rok_id. apply same_bind. intro closest. rewrite rok_id, dlookup_vmap.
          rewrite <- rok_id. apply rok_bind. intro d. rewrite rok_id. cbn [p' p db_eps]. rewrite ltb_f. destruct (ltb eps d); auto.
          rewrite <- rok_id. apply same_bind. intro pts. rewrite rok_id. rewrite <- rok_id. apply same_bind. intros [|]; rewrite rok_id; auto.
        - intro e. rewrite cluster_distance_f. destruct (cluster_distance D ltb table core (snd e)); auto.
      Qed.
      Lemma merge_cannot_links_f : forall core local,
        merge_cannot_links D' ltb' setlist p' m (in_unit f table) core local = merge_cannot_links D ltb setlist p m table core local.
      Proof using F.
        induction core as [|[k pts] core IH]; intro local; [reflexivity|]. cbn [merge_cannot_links]. rewrite absorb_f.
        rewrite <- rok_id. apply same_bind. intro r. rewrite rok_id, IH. reflexivity.
      Qed.
    End OneTable.

    (** The sizes that are compared with eps. *)
    Lemma final_local_f B : (forall n, n <= B -> leb' (f eps) (of_nat' n) = leb eps (of_nat n)) ->
      forall cs s, Forall (fun c => length c <= B) cs -> final_local D' leb' of_nat' p' cs s = final_local D leb of_nat p cs s.
    Proof using.
      intro N. induction cs as [|c cs IH]; intros s A; [reflexivity|]. inversion A as [|? ? Lc Lcs]; subst. cbn [final_local].
      cbn [p' p db_eps]. rewrite N; [apply IH; auto|].
      assert (FL : forall (q : pystr -> bool) l, length (filter q l) <= length l)
        by (clear; intros q l; induction l as [|y l IHl]; simpl; auto; destruct (q y); simpl; lia).
      etransitivity; [apply FL|]. auto.
    Qed.
  End Db.

  (** ** KMeans. *)
  Section Km.
    Variable pw : list vec -> list vec -> nat -> nat -> D.
    Variable pw' : list vec -> list vec -> nat -> nat -> D'.
    Hypothesis P : forall a b i j, pw' a b i j = f (pw a b i j).
    Variable dsum : list D -> D.
    Variable dsum' : list D' -> D'.
    Hypothesis Sm : forall l, dsum' (map f l) = f (dsum l).
    Variable mean : list vec -> vec.
    Variable shuffle : list pystr -> list pystr.
    Variable set_order : list Z -> list Z.
    Variable it : nat.
    Variable tol : D.
    Variable m : mgr.
    Variable ids : list pystr.
    Variable vectors : dict pystr vec.
    Variable nb : nat.
    Let p := mkKParams D it tol.
    Let p' := mkKParams D' it (f tol).

    Lemma krow_f (a b : list vec) i : forall l r,
      fold_left (fun r e' => dset (snd e') (pw' a b i (fst e')) r) l (vmap f r) =
      vmap f (fold_left (fun r (e' : nat * Z) => dset (snd e') (pw a b i (fst e')) r) l r).
    Proof using P. induction l as [|e l IH]; simpl; intro r; auto. rewrite P, dset_vmap. apply IH. Qed.
    Lemma krows_f (a b : list vec) es : forall l t,
      fold_left (fun t e => dset (snd e) (fold_left (fun r e' => dset (snd e') (pw' a b (fst e) (fst e')) r) es []) t) l (vmap (vmap f) t) =
      vmap (vmap f) (fold_left (fun t (e : nat * pystr) => dset (snd e)
         (fold_left (fun r (e' : nat * Z) => dset (snd e') (pw a b (fst e) (fst e')) r) es []) t) l t).
    Proof using P.
      induction l as [|e l IH]; intro t; cbn [fold_left]; auto. rewrite <- IH. f_equal.
      rewrite <- dset_vmap. f_equal. apply (krow_f a b (fst e) es []).
    Qed.
    Lemma distance_table_f c : distance_table vec D' pw' m vectors c = rok (vmap (vmap f)) (distance_table vec D pw m vectors c).
    Proof using P.
      unfold distance_table. apply same_bind. intro managed. apply same_bind. intros [|r rows]; auto.
      destruct (vals c) as [|v vs] eqn:E; auto. rewrite <- E. unfold rok. f_equal. apply (krows_f _ _ _ _ []).
    Qed.

    Definition fd (e : D * Z) : D' * Z := (f (fst e), snd e).
    Lemma dget_fd d (t : dict D Z) : dget (f d) (map fd t) = dget d t.
    Proof using F. induction t as [|[k v] t IH]; simpl; auto. rewrite eqb_f. destruct (eqb d k); auto. Qed.
    Lemma dset_fd d c (t : dict D Z) : dset (f d) c (map fd t) = map fd (dset d c t).
    Proof using F. induction t as [|[k v] t IH]; simpl; auto. rewrite eqb_f. destruct (eqb d k); simpl; auto. f_equal. apply IH. Qed.

    Lemma choose_f cen table new x :
      choose_cluster vec D' ltb' m ids nb cen (vmap (vmap f) table) new x = choose_cluster vec D ltb m ids nb cen table new x.
    Proof using F.
      unfold choose_cluster. rewrite <- rok_id. apply same_bind. intro nc. rewrite rok_id.
      destruct (filter (fun c => negb (mem c nc)) (keys cen)) as [|c0 cs] eqn:E; [reflexivity|]. rewrite <- E. clear E.
      change (@nil (D' * Z)) with (map fd []).
      rewrite (rfold_rok (map fd) (fun d c => row <-- dlookup x table ;;; dist <-- dlookup c row ;;; Ok (dset dist c d))).
      - rewrite <- rok_id. apply rok_bind. intro ds. rewrite rok_id.
        replace (keys (map fd ds)) with (map f (keys ds)) by (unfold keys; rewrite !map_map; auto).
        rewrite (py_min_rok f ltb) by apply ltb_f. rewrite <- rok_id. apply rok_bind. intro d. rewrite rok_id.
        unfold dlookup. rewrite dget_fd. auto.
      - intros d c. rewrite dlookup_vmap. apply rok_bind. intro row. rewrite dlookup_vmap. apply rok_bind. intro z.
        cbn [rok]. f_equal. apply dset_fd.
    Qed.
    Lemma assign_loop_f cen table : forall fuel todo new,
      assign_loop vec D' ltb' m ids nb fuel cen (vmap (vmap f) table) todo new = assign_loop vec D ltb m ids nb fuel cen table todo new.
    Proof using F.
      induction fuel as [|fuel IH]; intros todo new; cbn [assign_loop]; destruct (pop_last todo) as [[todo' x]|]; auto.
      rewrite choose_f. rewrite <- rok_id. apply same_bind. intro c. rewrite rok_id. rewrite <- rok_id. apply same_bind. intro st.
      rewrite rok_id. apply IH.
    Qed.
    Lemma assign_f cen : assign vec D' pw' ltb' m ids vectors nb cen = assign vec D pw ltb m ids vectors nb cen.
    Proof using F P.
      unfold assign. rewrite distance_table_f. rewrite <- rok_id. apply rok_bind. intro t. rewrite rok_id. apply assign_loop_f.
    Qed.
    Lemma has_converged_f c n cen ncen :
      has_converged vec D' pw' ltb' dsum' p' c n cen ncen = has_converged vec D pw ltb dsum p c n cen ncen.
    Proof using F P Sm.
      unfold has_converged. destruct (set_eqb (vals c) (vals n)); auto. rewrite <- rok_id. apply same_bind. intro vs. rewrite rok_id.
      destruct (vals cen) as [|v l] eqn:E; auto. rewrite <- E. f_equal. cbn [p p' kp_tolerance]. rewrite <- ltb_f, <- Sm, map_map.
      f_equal. f_equal. apply map_ext. intro i. apply P.
    Qed.
    Lemma iterate_f : forall rounds new conv s,
      iterate vec D' pw' ltb' dsum' mean set_order p' m ids vectors nb rounds new conv s =
      iterate vec D pw ltb dsum mean set_order p m ids vectors nb rounds new conv s.
    Proof using F P Sm.
      induction rounds as [|rounds IH]; intros new conv s; cbn [iterate]; destruct conv; auto.
      unfold bind, gets, lift, modify. cbn beta iota. rewrite assign_f.
      destruct (assign vec D pw ltb m ids vectors nb (k_centroids vec s)) as [nc|]; auto.
      destruct (compute_centroids vec mean set_order m vectors nc) as [ncen|]; auto.
      rewrite has_converged_f. destruct (has_converged vec D pw ltb dsum p (k_clusters vec s) nc (k_centroids vec s) ncen); auto.
    Qed.
    Lemma clustering_COP_f s :
      clustering_COP vec D' pw' ltb' dsum' mean shuffle set_order p' m ids vectors nb s =
      clustering_COP vec D pw ltb dsum mean shuffle set_order p m ids vectors nb s.
    Proof using F P Sm.
      unfold clustering_COP. unfold bind at 1. unfold bind at 5. unfold lift. destruct (initialize_centroids vec shuffle ids vectors nb); auto.
      unfold bind, modify. cbn beta iota. rewrite iterate_f. reflexivity.
    Qed.
  End Km.
End TwoUnits.
