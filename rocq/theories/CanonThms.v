(** * The file of a manager is determined by its content (C127). *)

From Coq Require Import String List Bool Arith ZArith QArith Lia.
(*HEADER
From Coq Require Import String List Bool Arith ZArith QArith.
From Verif Require Import Base Manager Spec ManagerThms Json JsonSpec JsonThms ResumeSpec CanonSpec CanonThms.
Import ListNotations.
Open Scope nat_scope.

(** Two histories that end with the same content: IDs and constraints come and go in the first one. *)
Definition x : pystr := str "x".
Definition y : pystr := str "y".
Definition z : pystr := str "z".
Definition direct : mgr := run [CallAddConstraint x z MUST_LINK 1%Q; CallAddConstraint y z CANNOT_LINK 1%Q] (init [y; z; x]).
Definition detour : mgr := run
  [CallAddConstraint z y CANNOT_LINK 1%Q; CallAddConstraint x y MUST_LINK 1%Q; CallDeleteDataID x; CallAddDataID x; CallAddDataID (str "w");
   CallAddConstraint z x MUST_LINK 1%Q; CallDeleteConstraint x z; CallAddConstraint x z MUST_LINK 1%Q; CallDeleteDataID (str "w")] (init [y; x; z; y]).
Lemma detour_same : same_content direct detour.
Proof.
  split; [vm_compute; reflexivity|]. intros a b. unfold ask.
  rewrite (ManagerInv.run_added direct a b (ManagerQueries.reachable_inv direct (run_reachable _ _))), (ManagerInv.run_added detour a b (ManagerQueries.reachable_inv detour (run_reachable _ _))).
  change (ManagerInv.both detour a b) with (ManagerInv.both direct a b). destruct (ManagerInv.both direct a b); reflexivity.
Qed.
Lemma direct_strings : forall u, managed direct u -> python_string u /\ ~ splits_a_character u.
Proof.
  intros u (l & E & H). vm_compute in E. injection E. intros <-. apply text_ok_spec.
  destruct H as [<-|[<-|[<-|[]]]]; simpl; repeat split; auto; discriminate.
Qed.
HEADER*)
From Verif Require Import Base Manager Spec Closure ManagerProofs ManagerInv ManagerQueries ManagerSem ManagerThms Json JsonSpec JsonProofs JsonThms ResumeSpec CanonSpec.
From Verif Require Import HeapCalls.
Import ListNotations.
Open Scope nat_scope.
Open Scope py_scope.

(** Rows list the IDs in the order of the dictionary. *)
Definition in_order (D : dict pystr (dict pystr (option constr))) : Prop :=
  forall a row, dget a D = Some row -> keys row = filter (str_leb a) (keys D).

Lemma in_order_set D a b v row : in_order D -> dget a D = Some row -> In a (keys D) -> In b (keys D) -> str_leb a b = true -> in_order (dset a (dset b v row) D).
Proof.
  intros O E Ia Ib L c r G. rewrite (keys_dset_in _ _ _ Ia). rewrite dget_dset in G. destruct (eqb_spec c a) as [->|N]; [|auto].
  injection G as <-. rewrite keys_dset_in; [auto|]. rewrite (O a row E). apply filter_In. auto.
Qed.

Lemma filter_swap {A} (f g : A -> bool) l : filter f (filter g l) = filter g (filter f l).
Proof. induction l as [|x l IH]; simpl; auto. destruct (g x) eqn:G, (f x) eqn:F; simpl; rewrite ?G, ?F, IH; auto. Qed.

Lemma filter_whole {A} (f : A -> bool) l : (forall x, In x l -> f x = true) -> filter f l = l.
Proof. induction l as [|x l IH]; simpl; intro H; auto. rewrite (H x (or_introl eq_refl)), IH; auto. Qed.

Lemma filter_dedup {K} `{EqB K} (f : K -> bool) (l : list K) : dedup (filter f l) = filter f (dedup l).
Proof.
  induction l as [|x l IH]; [reflexivity|]. cbn [filter dedup]. destruct (f x) eqn:F; cbn [dedup]; rewrite IH, filter_swap; auto.
  symmetry. apply filter_whole. intros y Y. apply filter_In in Y as [_ Y]. destruct (eqb_spec x y); auto. congruence.
Qed.

Lemma in_order_init l : in_order (cdict (init l)).
Proof.
  intros a row E. unfold init in *. cbn [cdict] in *. rewrite dget_dcomp in E. destruct (mem a l); [|discriminate]. injection E as <-.
  rewrite !keys_dcomp. apply filter_dedup.
Qed.

Lemma same_rows_generate : same_rows generate_constraints_transitivity.
Proof.
  unfold generate_constraints_transitivity. apply same_rows_bind; [intro m; reflexivity|]. intros _.
  apply same_rows_bind; [intro m; reflexivity|]. intro l. apply same_rows_for. intro a.
  apply same_rows_bind; [intro m; reflexivity|]. intro row. apply same_rows_bind; [intro m; unfold lift; destruct row; reflexivity|]. intro r.
  apply same_rows_for. intro b. apply same_rows_bind.
  - intro m. unfold get_constraint, bind, gets, lift. destruct (dlookup a (cdict m)) as [rw|]; auto.
  - intros [c|]; [|apply same_rows_ret]. apply same_rows_bind; [apply same_rows_transitivity|intro; apply same_rows_ret].
Qed.

Lemma set_in_order a b v m : Inv m -> in_order (cdict m) -> In a (ids m) -> In b (ids m) ->
  in_order (cdict (fst ((if str_leb a b then set_constraint a b v else set_constraint b a v) m))).
Proof.
  intros I O Ia Ib. destruct (str_leb a b) eqn:L.
  - destruct (set_constraint_run a b v m Ia) as (row & E & ->). apply in_order_set; auto.
  - destruct (set_constraint_run b a v m Ib) as (row & E & ->). apply in_order_set; auto. apply str_leb_false; auto.
Qed.

(** What is left of a bind once the state of the first part is known. *)
Lemma then_rows {A B} (p : M mgr A) (f : A -> M mgr B) (P : dict pystr (dict pystr (option constr)) -> Prop) m :
  P (cdict (fst (p m))) -> (forall x, same_rows (f x)) -> P (cdict (fst (bind p f m))).
Proof. intros H F. unfold bind. destruct (p m) as [m1 [x|e]]; cbn [fst] in *; auto. rewrite F. auto. Qed.

Lemma add_constraint_order a b t v m : Inv m -> in_order (cdict m) -> in_order (cdict (fst (add_constraint a b t v m))).
Proof.
  intros I O. unfold add_constraint. unfold bind at 1, in_dict at 1, gets at 1. destruct (mem a (ids m)) eqn:A; [|exact O].
  unfold bind at 1. cbn [require]. unfold ret at 1. unfold bind at 1, in_dict at 1, gets at 1. destruct (mem b (ids m)) eqn:B; [|exact O].
  unfold bind at 1. cbn [require]. unfold ret at 1. unfold bind at 1. destruct (mem t allowed_types); [|exact O]. cbn [require]. unfold ret at 1.
  unfold bind at 1. rewrite run_inferred by auto. unfold both. rewrite A, B. cbn [andb].
  unfold bind at 1. apply mem_In in A, B.
  assert (G : in_order (cdict (fst ((added <- get_added_constraint a b ;;
    match added with
    | Some _ => ret true
    | None => (if str_leb a b then set_constraint a b (Some (t, 1%Q)) else set_constraint b a (Some (t, 1%Q))) ;;
              add_constraint_transitivity a b t ;; ret true
    end) m)))).
  { unfold bind at 1. rewrite run_added by auto. unfold both. rewrite (proj2 (mem_In a (ids m)) A), (proj2 (mem_In b (ids m)) B). cbn [andb].
    destruct (addf m a b); [exact O|]. apply then_rows; [apply set_in_order; auto|].
    intro. apply same_rows_bind; [apply same_rows_transitivity|intro; apply same_rows_ret]. }
  destruct (infer m a b) as [u|]; [|exact G]. destruct (eqb u t); [exact G|exact O].
Qed.

Lemma delete_constraint_order a b m : Inv m -> in_order (cdict m) -> in_order (cdict (fst (delete_constraint a b m))).
Proof.
  intros I O. unfold delete_constraint. unfold bind at 1, in_dict at 1, gets at 1. destruct (mem a (ids m)) eqn:A; [|exact O].
  unfold bind at 1. cbn [require]. unfold ret at 1. unfold bind at 1, in_dict at 1, gets at 1. destruct (mem b (ids m)) eqn:B; [|exact O].
  unfold bind at 1. cbn [require]. unfold ret at 1. apply mem_In in A, B.
  apply then_rows; [apply set_in_order; auto|]. intro. apply same_rows_bind; [apply same_rows_generate|intro; apply same_rows_ret].
Qed.

Lemma delete_data_ID_order x m : Inv m -> in_order (cdict m) -> in_order (cdict (fst (delete_data_ID x m))).
Proof.
  intros (W & _) O. unfold delete_data_ID. unfold bind at 1, in_dict at 1, gets at 1. destruct (mem x (ids m)) eqn:X; [|exact O].
  unfold bind at 1. cbn [require]. unfold ret at 1. unfold bind at 1, modify at 1. unfold bind at 1, gets at 1. cbn [cdict ctrans].
  set (D1 := dpop x (cdict m)).
  assert (K1 : keys D1 = filter (fun y => negb (eqb x y)) (ids m)) by (apply keys_dpop, (wf_nodup _ W)).
  assert (N1 : NoDup (keys D1)) by (rewrite K1; apply NoDup_filter_list, (wf_nodup _ W)).
  destruct (for_set_row (dpop x) (keys D1) (mkMgr D1 (ctrans m)) N1 (incl_refl _)) as (D2 & Run & K2 & G2). cbn [cdict ctrans] in K2, G2, Run.
  apply then_rows; [|intro; apply same_rows_bind; [apply same_rows_generate|intro; apply same_rows_ret]].
  change (in_order (cdict (fst (for_ (keys D1) (set_row (dpop x)) (mkMgr D1 (ctrans m)))))). rewrite Run. cbn [fst cdict].
  intros a row E. rewrite K2. rewrite G2 in E.
  destruct (mem a (keys D1)) eqn:M1.
  2:{ apply mem_nIn in M1. exfalso. apply M1. eapply dget_Some_key; eauto. }
  destruct (dget a D1) as [r|] eqn:E1; [|discriminate]. injection E as <-.
  assert (Na : a <> x). { intros ->. apply mem_In in M1. rewrite K1 in M1. apply filter_In in M1 as [_ M1]. rewrite eqb_refl in M1. discriminate. }
  unfold D1 in E1. rewrite dget_dpop_other in E1 by auto.
  rewrite keys_dpop by (eapply wf_row_nodup; eauto). rewrite (O a r E1), K1. apply filter_swap.
Qed.

(** The row of the new ID. *)
Lemma add_loop_row x T l : forall D0 rx, dget x D0 = Some rx -> incl l (keys D0) -> NoDup l -> (forall b, In b l -> ~ In b (keys rx)) ->
  exists D' rx', for_ l (add_body x) (mkMgr D0 T) = (mkMgr D' T, Ok tt) /\ dget x D' = Some rx' /\ keys rx' = keys rx ++ filter (str_leb x) l.
Proof.
  induction l as [|o l IH]; intros D0 rx E Il ND F.
  - exists D0, rx. rewrite app_nil_r. auto.
  - inversion ND; subst. assert (Ix : In x (keys D0)) by (eapply dget_Some_key; eauto). assert (Io : In o (keys D0)) by (apply Il; left; auto).
    assert (Step : forall b v, (b = o /\ str_leb x o = true) -> exists D' rx', for_ l (add_body x) (mkMgr (dset x (dset b v rx) D0) T) = (mkMgr D' T, Ok tt) /\ dget x D' = Some rx' /\
        keys rx' = keys rx ++ filter (str_leb x) (o :: l)).
    { intros b v [-> L]. destruct (IH (dset x (dset o v rx) D0) (dset o v rx)) as (D' & rx' & R & G & K); auto.
      - apply dget_dset_same.
      - rewrite keys_dset_in by auto. intros c C. apply Il. right; auto.
      - intros c C J. apply In_keys_dset in J as [->|J]; [auto|]. apply (F c); [right; auto|auto].
      - exists D', rx'. split; auto. split; auto. rewrite K, keys_dset_out by (apply F; left; auto). rewrite <- app_assoc. cbn [filter]. rewrite L. reflexivity. }
    cbn [for_]. unfold bind at 1. unfold add_body at 1. destruct (eqb_spec x o) as [<-|N].
    + destruct (set_constraint_run x x (Some (MUST_LINK, 1%Q)) (mkMgr D0 T) Ix) as (row & Er & Q). cbn [cdict ctrans] in *. rewrite E in Er. injection Er as <-.
      rewrite Q. apply Step. split; auto. apply str_leb_refl.
    + destruct (str_ltb x o) eqn:Lt.
      * destruct (set_constraint_run x o None (mkMgr D0 T) Ix) as (row & Er & Q). cbn [cdict ctrans] in *. rewrite E in Er. injection Er as <-.
        rewrite Q. apply Step. split; auto. apply str_ltb_spec in Lt. tauto.
      * destruct (set_constraint_run o x None (mkMgr D0 T) Io) as (row & Er & Q). cbn [cdict ctrans] in *. rewrite Q.
        destruct (IH (dset o (dset x None row) D0) rx) as (D' & rx' & R & G & K); auto.
        -- rewrite dget_dset_other; auto.
        -- rewrite keys_dset_in by auto. intros c C. apply Il. right; auto.
        -- intros c C. apply F. right; auto.
        -- exists D', rx'. split; auto. split; auto. rewrite K. cbn [filter]. replace (str_leb x o) with false; auto.
           symmetry. destruct (str_leb x o) eqn:L; auto. assert (str_ltb x o = true) by (apply str_ltb_spec; auto). congruence.
Qed.

Lemma add_data_ID_order x m : Inv m -> in_order (cdict m) -> in_order (cdict (fst (add_data_ID x m))).
Proof.
  intros (W & _) O. unfold add_data_ID. unfold bind at 1, in_dict at 1, gets at 1. destruct (mem x (ids m)) eqn:X; [exact O|]. assert (Nx := X). apply mem_nIn in Nx.
  cbn [negb]. unfold bind at 1. cbn [require]. unfold ret at 1. unfold bind at 1, modify at 1. unfold bind at 1, gets at 1. cbn [cdict ctrans].
  set (D1 := dset x [] (cdict m)). assert (K1 : keys D1 = ids m ++ [x]) by (apply keys_dset_out; auto).
  apply then_rows; [|intro; apply same_rows_bind; [intro; reflexivity|intro; apply same_rows_ret]].
  change (in_order (cdict (fst (for_ (keys D1) (add_body x) (mkMgr D1 (ctrans m)))))).
  assert (P0 : AddP x (cdict m) [] D1).
  { constructor; auto.
    - exists []. split; [apply dget_dset_same|]. split; [constructor|]. reflexivity.
    - intros a Na. simpl. unfold D1. rewrite dget_dset_other; auto. }
  destruct (add_loop x (cdict m) (ctrans m) (keys D1) [] D1 P0) as (D2 & Run & P2). { rewrite K1. apply incl_refl. }
  destruct (add_loop_row x (ctrans m) (keys D1) D1 []) as (D3 & rx & Run' & Ex & Kx).
  { apply dget_dset_same. } { apply incl_refl. }
  { rewrite K1. apply NoDup_app_intro; [apply (wf_nodup _ W)|constructor; [simpl; tauto|constructor]|]. intros c C [<-|[]]; auto. } { simpl; tauto. }
  rewrite Run' in Run. injection Run as <-. rewrite Run'. cbn [fst cdict]. cbn [app] in Kx, P2.
  assert (K2 := ap_keys _ _ _ _ P2). intros a row E. rewrite K2, <- K1. destruct (eqb_spec a x) as [->|Na].
  - rewrite Ex in E. injection E as <-. exact Kx.
  - rewrite (ap_o _ _ _ _ P2 a Na) in E. rewrite K1, filter_app. cbn [filter].
    assert (LE : str_ltb a x = str_leb a x). { unfold str_ltb. destruct (eqb_spec a x); [tauto|]. apply andb_true_r. }
    rewrite LE in E. destruct (mem a (keys D1)) eqn:M1.
    2:{ cbn [andb] in E. apply mem_nIn in M1. exfalso. apply M1. rewrite K1. apply in_or_app. left. eapply dget_Some_key; eauto. }
    cbn [andb] in E. destruct (str_leb a x) eqn:L.
    + destruct (dget a (cdict m)) as [r|] eqn:Er; [|discriminate]. injection E as <-. rewrite keys_dset_out, (O a r Er); auto.
      intro J. apply (wf_row _ W a r Er) in J. tauto.
    + rewrite app_nil_r. auto.
Qed.

Lemma reachable_in_order m : reachable m -> in_order (cdict m).
Proof.
  induction 1 as [l|m c R IH]; [apply in_order_init|]. assert (I := reachable_inv _ R).
  destruct c; cbn [exec]; (apply then_rows; [|intro; apply same_rows_ret]).
  - apply add_data_ID_order; auto.
  - apply delete_data_ID_order; auto.
  - exact IH.
  - apply add_constraint_order; auto.
  - apply delete_constraint_order; auto.
  - rewrite (proj1 (proj2 (getters_change_nothing m a b MUST_LINK))). exact IH.
  - rewrite (proj1 (proj2 (proj2 (getters_change_nothing m a b MUST_LINK)))). exact IH.
  - exact IH.
  - destruct (getters_change_nothing m [] [] MUST_LINK) as (_ & _ & _ & _ & Q & _). rewrite Q. exact IH.
  - destruct (getters_change_nothing m a b t) as (_ & _ & _ & _ & _ & Q). rewrite Q. exact IH.
Qed.

(** Every dictionary is the list of its keys with their values. *)
Lemma dict_listing {V} (d : dict pystr V) : NoDup (keys d) -> forall (v0 : V), d = map (fun k => (k, match dget k d with Some v => v | None => v0 end)) (keys d).
Proof.
  induction d as [|[k v] d IH]; intros N v0; [reflexivity|]. cbn [keys map fst] in *. inversion N; subst. cbn [map]. f_equal.
  - cbn [dget]. rewrite eqb_refl. reflexivity.
  - rewrite (IH H2 v0) at 1. apply map_ext_in. intros j J. cbn [dget]. destruct (eqb_spec j k) as [->|]; [contradiction|]. reflexivity.
Qed.

Lemma flat_map_filter {A B} (f : A -> bool) (g : A -> list B) l : flat_map g (filter f l) = flat_map (fun x => if f x then g x else []) l.
Proof. induction l as [|x l IH]; simpl; auto. destruct (f x); simpl; rewrite IH; auto. Qed.

Lemma flat_map_map {A B C} (f : A -> B) (g : B -> list C) l : flat_map g (map f l) = flat_map (fun x => g (f x)) l.
Proof. induction l as [|x l IH]; simpl; auto. rewrite IH; auto. Qed.

Lemma flat_map_same {A B} (f g : A -> list B) l : (forall x, In x l -> f x = g x) -> flat_map f l = flat_map g l.
Proof. intro H. induction l as [|x l IH]; simpl; auto. rewrite (H x (or_introl eq_refl)), IH; auto. intros; apply H; right; auto. Qed.

(** ** The records of a manager, from its answers *)
Lemma stored_list_records m l : Inv m -> in_order (cdict m) -> ask get_list_of_managed_data_IDs m = Ok l -> stored_list m = records m l.
Proof.
  intros I O E. assert (K : l = ids m). { unfold ask in E. rewrite run_managed in E. cbn [snd] in E. congruence. } subst l. clear E.
  assert (W := proj1 I). unfold stored_list, records. rewrite (dict_listing (cdict m) (wf_nodup _ W) []) at 1. rewrite flat_map_map.
  apply flat_map_same. intros a A. cbn [fst snd]. destruct (dget a (cdict m)) as [row|] eqn:Er.
  2:{ exfalso. apply dget_None in Er. auto. }
  rewrite (dict_listing row (wf_row_nodup _ W a row Er) None) at 1. rewrite flat_map_map, (O a row Er), flat_map_filter.
  apply flat_map_same. intros b B. cbn [fst snd]. destruct (str_leb a b) eqn:L; auto. unfold ask. rewrite run_added by auto. unfold both.
  rewrite (proj2 (mem_In a (ids m)) A), (proj2 (mem_In b (ids m)) B). cbn [andb snd]. unfold addf. rewrite L. unfold sget. rewrite Er.
  destruct (dget b row) as [[[t v]|]|]; reflexivity.
Qed.

Lemma managed_list m : ask get_list_of_managed_data_IDs m = Ok (ids m).
Proof. unfold ask. rewrite run_managed. reflexivity. Qed.

(*PROP C127: the file of a manager is the document with its IDs, in the order in which they are managed, and with one record for every added constraint, sorted by the positions of the two IDs in that order. *)
Lemma C127_contents_proof :
  forall m l, reachable m -> ask get_list_of_managed_data_IDs m = Ok l -> to_json_text m = dump 0 (document l (records m l)).
Proof.
  intros m l R E. unfold to_json_text. rewrite (stored_list_records m l (reachable_inv _ R) (reachable_in_order _ R) E).
  rewrite managed_list in E. injection E as <-. reflexivity.
Qed.

(*EX
Example C127_contents_ex : reachable detour /\ ask get_list_of_managed_data_IDs detour = Ok [y; z; x] /\
  records detour [y; z; x] = [(y, y, MUST_LINK); (y, z, CANNOT_LINK); (z, z, MUST_LINK); (x, z, MUST_LINK); (x, x, MUST_LINK)].
Proof. split; [apply run_reachable|]. split; vm_compute; reflexivity. Qed.
EX*)

(*PROP C127: managers with the same IDs in the same order and the same added constraints write the same file, whatever their histories. *)
Lemma C127_same_file_proof :
  forall m1 m2, reachable m1 -> reachable m2 -> same_content m1 m2 -> to_json_text m1 = to_json_text m2.
Proof.
  intros m1 m2 R1 R2 [K A]. rewrite (C127_contents_proof m1 _ R1 (managed_list m1)). rewrite managed_list in K.
  rewrite (C127_contents_proof m2 (ids m1) R2) by auto. f_equal. f_equal. unfold records.
  apply flat_map_same. intros a _. apply flat_map_same. intros b _. rewrite A. reflexivity.
Qed.

(*EX
Example C127_same_file_ex : reachable direct /\ reachable detour /\ same_content direct detour /\ direct <> detour.
Proof. split; [apply run_reachable|]. split; [apply run_reachable|]. split; [exact detour_same|]. vm_compute. discriminate. Qed.
EX*)

(*PROP C127: conversely, managers that write the same file have the same IDs in the same order and the same added constraints. *)
Lemma C127_file_tells_proof :
  forall m1 m2, reachable m1 -> reachable m2 ->
    (forall u, managed m1 u \/ managed m2 u -> python_string u /\ ~ splits_a_character u) ->
    to_json_text m1 = to_json_text m2 -> same_content m1 m2.
Proof.
  intros m1 m2 R1 R2 S E. apply reachable_inv in R1, R2. unfold to_json_text in E.
  assert (L1 := loads_document_ok _ _ (manager_strings m1 R1 (fun u M => S u (or_introl M)))).
  assert (L2 := loads_document_ok _ _ (manager_strings m2 R2 (fun u M => S u (or_intror M)))).
  rewrite E, L2 in L1. injection L1 as K A.
  assert (K' : ids m1 = ids m2). { clear -K. revert K. generalize (ids m1) (ids m2). intros l1 l2. revert l1. induction l2 as [|u l2 IH]; intros [|v l1] Q; try discriminate; auto. injection Q as -> Q. f_equal; auto. }
  assert (A' : stored_list m1 = stored_list m2).
  { clear -A. revert A. generalize (stored_list m1) (stored_list m2). intros l1 l2. revert l1.
    induction l2 as [|[[a b] t] l2 IH]; intros [|[[c d] u] l1] Q; try discriminate; auto. injection Q as -> -> -> Q. f_equal; auto. }
  split. { rewrite !managed_list. congruence. }
  intros a b. apply added_addf; auto. intro t. rewrite <- !stored_batch by auto. rewrite A'. tauto.
Qed.

(*EX
Example C127_file_tells_ex : (forall u, managed direct u \/ managed detour u -> python_string u /\ ~ splits_a_character u) /\
  to_json_text direct = to_json_text detour /\ to_json_text (init [y; z; x]) <> to_json_text (init [x; y; z]).
Proof.
  split.
  - intros u [H|H]; apply direct_strings; auto.
  - split; [vm_compute; reflexivity|vm_compute; discriminate].
Qed.
EX*)

(*PROP C127: saving what was loaded writes the same file again, at once if no constraint of an ID with itself was deleted, and otherwise from the second time on. *)
Lemma C127_save_again_proof :
  forall m, reachable m -> (forall u, managed m u -> python_string u /\ ~ splits_a_character u) ->
    exists m1 m2, load_text (to_json_text m) = Ok m1 /\ load_text (to_json_text m1) = Ok m2 /\
      to_json_text m2 = to_json_text m1 /\
      ((forall u, managed m u -> added m MUST_LINK u u) -> to_json_text m1 = to_json_text m).
Proof.
  intros m R S. assert (I := reachable_inv _ R). destruct (load_saved m I S) as (m1 & E1 & R1 & I1 & K1 & A1).
  assert (S1 : forall u, managed m1 u -> python_string u /\ ~ splits_a_character u).
  { intros u U. apply S. apply managed_ids in U. apply managed_ids. rewrite <- K1. exact U. }
  destruct (load_saved m1 I1 S1) as (m2 & E2 & R2 & I2 & K2 & A2). exists m1, m2. split; auto. split; auto. split.
  - apply C127_same_file_proof; auto. split. { rewrite !managed_list. congruence. }
    intros a b. apply added_addf; auto. intro t. rewrite A2. split; auto. intros [H|H]; auto. apply A1. right. rewrite <- K1. exact H.
  - intro Z. apply C127_same_file_proof; auto. split. { rewrite !managed_list. congruence. }
    intros a b. apply added_addf; auto. intro t. rewrite A1. split; auto. intros [H|(H & <- & ->)]; auto. apply Z, managed_ids. exact H.
Qed.

(*EX
Example C127_save_again_ex : reachable direct /\ (forall u, managed direct u -> python_string u /\ ~ splits_a_character u) /\
  (forall u, managed direct u -> added direct MUST_LINK u u).
Proof.
  split; [apply run_reachable|]. split; [exact direct_strings|].
  intros u (l & E & H). vm_compute in E. injection E. intros <-. exists 1%Q. destruct H as [<-|[<-|[<-|[]]]]; vm_compute; reflexivity.
Qed.
EX*)
