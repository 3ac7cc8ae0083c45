(** * The JSON decoder inverts the encoder, is insensitive to what follows a value,
    and never runs out of fuel. *)

From Coq Require Import List Bool Arith NArith ZArith QArith Lia.
From Verif Require Import Base Manager Json.
Import ListNotations.
Open Scope nat_scope.
Open Scope py_scope.

Local Arguments N.eqb : simpl never.
Local Arguments N.leb : simpl never.
Local Arguments N.ltb : simpl never.
Local Arguments N.add : simpl never.
Local Arguments N.sub : simpl never.
Local Arguments N.mul : simpl never.
Local Arguments unhex4 : simpl never.
Local Arguments is_high : simpl never.
Local Arguments is_low : simpl never.
Local Arguments unescape : simpl never.

Lemma res_bind_Ok {A B} (m : res A) (f : A -> res B) b : rbind m f = Ok b -> exists a, m = Ok a /\ f a = Ok b.
Proof. destruct m; simpl; [eauto|discriminate]. Qed.

(** Evaluates comparisons of character literals. *)
Ltac chars := repeat match goal with
  | |- context[(?a =? ?b)%N] =>
      let v := eval vm_compute in (a =? b)%N in
      match v with true => change (a =? b)%N with true | false => change (a =? b)%N with false end
  | |- context[is_ws ?a] =>
      let v := eval vm_compute in (is_ws a) in
      match v with true => change (is_ws a) with true | false => change (is_ws a) with false end
  end; cbv iota.

(** ** Strings *)
Lemma unhex_hexdig d : (d < 16)%N -> unhex (hexdig d) = Some d.
Proof.
  intro H. unfold hexdig, unhex.
  destruct (N.ltb_spec d 10).
  - assert (E : ((48 <=? 48 + d) && (48 + d <=? 57))%N = true).
    { apply andb_true_iff. rewrite !N.leb_le. lia. }
    rewrite E. f_equal. lia.
  - assert (E : ((48 <=? 87 + d) && (87 + d <=? 57))%N = false).
    { apply andb_false_iff. right. apply N.leb_gt. lia. }
    rewrite E.
    assert (E2 : ((97 <=? 87 + d) && (87 + d <=? 102))%N = true).
    { apply andb_true_iff. rewrite !N.leb_le. lia. }
    rewrite E2. f_equal. lia.
Qed.

Lemma unhex4_hex4 n : (n < 65536)%N ->
  unhex4 (hexdig (n / 4096)) (hexdig (n / 256 mod 16)) (hexdig (n / 16 mod 16)) (hexdig (n mod 16)) = Some n.
Proof.
  intro H. unfold unhex4.
  assert (E1 : (n / 4096 < 16)%N) by (apply N.div_lt_upper_bound; lia).
  assert (E2 : (n / 256 mod 16 < 16)%N) by (apply N.mod_lt; lia).
  assert (E3 : (n / 16 mod 16 < 16)%N) by (apply N.mod_lt; lia).
  assert (E4 : (n mod 16 < 16)%N) by (apply N.mod_lt; lia).
  rewrite !unhex_hexdig by auto. f_equal.
  assert (A1 : (n = 16 * (n / 16) + n mod 16)%N) by (apply N.div_mod; lia).
  assert (A2 : (n / 16 = 16 * (n / 16 / 16) + n / 16 mod 16)%N) by (apply N.div_mod; lia).
  assert (A3 : (n / 16 / 16 = 16 * (n / 16 / 16 / 16) + n / 16 / 16 mod 16)%N) by (apply N.div_mod; lia).
  rewrite !N.div_div in * by lia. change (16 * 16)%N with 256%N in *. change (256 * 16)%N with 4096%N in *. lia.
Qed.

(** Strings the escaping is lossless for: code points, without a high surrogate
    immediately followed by a low one. *)
Fixpoint text_ok (s : pystr) : Prop :=
  match s with
  | [] => True
  | c :: s' => (c < 1114112)%N /\
               (is_high c = true -> match s' with d :: _ => is_low d = false | [] => True end) /\
               text_ok s'
  end.

Definition quoted (s rest : pystr) : pystr := flat_map enc_char s ++ 34%N :: rest.

(** One escaped code unit is read back; [t] is what follows. *)
Lemma scan_unit u t : (u < 65536)%N ->
  scan_string (92%N :: 117%N :: hex4 u ++ t) =
  if is_high u then
    match t with
    | b :: w :: s4 =>
        if ((b =? 92) && (w =? 117))%N then
          match s4 with
          | g1 :: g2 :: g3 :: g4 :: s5 =>
              match unhex4 g1 g2 g3 g4 with
              | None => Raise JSONDecodeError
              | Some u2 => if is_low u2
                           then pcons (65536 + (u - 55296) * 1024 + (u2 - 56320))%N (scan_string s5)
                           else pcons u (scan_string t)
              end
          | _ => Raise JSONDecodeError
          end
        else pcons u (scan_string t)
    | _ => pcons u (scan_string t)
    end
  else pcons u (scan_string t).
Proof.
  intro H. unfold hex4. cbn [app]. 
  match goal with |- scan_string (92%N :: 117%N :: ?a1 :: ?a2 :: ?a3 :: ?a4 :: t) = _ =>
    change (scan_string (92%N :: 117%N :: a1 :: a2 :: a3 :: a4 :: t)) with
      (match unhex4 a1 a2 a3 a4 with
       | None => Raise JSONDecodeError
       | Some u =>
           if is_high u then
             match t with
             | b :: w :: s4 =>
                 if ((b =? 92) && (w =? 117))%N then
                   match s4 with
                   | g1 :: g2 :: g3 :: g4 :: s5 =>
                       match unhex4 g1 g2 g3 g4 with
                       | None => Raise JSONDecodeError
                       | Some u2 => if is_low u2
                                    then pcons (65536 + (u - 55296) * 1024 + (u2 - 56320))%N (scan_string s5)
                                    else pcons u (scan_string t)
                       end
                   | _ => Raise JSONDecodeError
                   end
                 else pcons u (scan_string t)
             | _ => pcons u (scan_string t)
             end
           else pcons u (scan_string t)
       end) end.
  rewrite unhex4_hex4 by auto. reflexivity.
Qed.

Ltac case_eqN := repeat match goal with |- context[(?a =? ?b)%N] => destruct (N.eqb_spec a b); subst end.

Lemma scan_string_simple c s : c <> 34%N -> c <> 92%N -> (32 <= c)%N -> scan_string (c :: s) = pcons c (scan_string s).
Proof.
  intros. simpl. destruct (N.eqb_spec c 34); [tauto|]. destruct (N.ltb_spec c 32); [lia|].
  destruct (N.eqb_spec c 92); [tauto|]. auto.
Qed.

Definition esc_of (e : N) := unescape e.

Lemma scan_string_escape e x s : e <> 117%N -> unescape e = Some x -> scan_string (92%N :: e :: s) = pcons x (scan_string s).
Proof.
  intros H E. simpl. destruct (N.eqb_spec e 117); [tauto|]. rewrite E. auto.
Qed.

(** What the encoding of a string looks like at its front. *)
Lemma quoted_front s rest : text_ok s ->
  (forall d s', s = d :: s' -> is_low d = false) ->
  forall b w s4, quoted s rest = b :: w :: s4 -> ((b =? 92) && (w =? 117))%N = true ->
  exists g1 g2 g3 g4 s5 u2, s4 = g1 :: g2 :: g3 :: g4 :: s5 /\ unhex4 g1 g2 g3 g4 = Some u2 /\ is_low u2 = false.
Proof.
  intros T NL b w s4 E B. apply andb_true_iff in B. rewrite !N.eqb_eq in B. destruct B as [-> ->].
  destruct s as [|d s']; [unfold quoted in E; simpl in E; inversion E|].
  specialize (NL d s' eq_refl). destruct T as (Td & _).
  unfold quoted in E. cbn [flat_map] in E. rewrite <- app_assoc in E. revert E.
  set (t := flat_map enc_char s' ++ 34%N :: rest). unfold enc_char.
  destruct (N.eqb_spec d 34); [intro E; inversion E|].
  destruct (N.eqb_spec d 92); [intro E; inversion E|].
  destruct (N.eqb_spec d 10); [intro E; inversion E|].
  destruct (N.eqb_spec d 13); [intro E; inversion E|].
  destruct (N.eqb_spec d 9); [intro E; inversion E|].
  destruct (N.eqb_spec d 12); [intro E; inversion E|].
  destruct (N.eqb_spec d 8); [intro E; inversion E|].
  destruct (((32 <=? d) && (d <=? 126))%N) eqn:P; [intro E; inversion E; congruence|].
  destruct (N.ltb_spec d 65536) as [L|L].
  - intro E. unfold hex4 in E. cbn [app] in E. inversion E; subst.
    do 6 eexists. split; [reflexivity|]. split; [apply unhex4_hex4; auto|auto].
  - assert (V : (55296 <= 55296 + (d - 65536) / 1024 < 56320)%N).
    { assert ((d - 65536) / 1024 < 1024)%N by (apply N.div_lt_upper_bound; lia).
      generalize dependent ((d - 65536) / 1024)%N. intros; lia. }
    set (h := (55296 + (d - 65536) / 1024)%N) in *. clearbody h.
    intro E. unfold hex4 in E. cbn [app] in E. injection E. intros <-.
    do 6 eexists. split; [reflexivity|]. split; [apply unhex4_hex4; lia|].
    unfold is_low. apply andb_false_iff. left. apply N.leb_gt. lia.
Qed.

Lemma pcons_ok c x r : pcons c (Ok (x, r)) = Ok (c :: x, r).
Proof. reflexivity. Qed.

Lemma scan_quoted s rest : text_ok s -> scan_string (quoted s rest) = Ok (s, rest).
Proof.
  revert rest. induction s as [|c s IH]; intros rest T; [reflexivity|].
  destruct T as (Tc & Th & T). specialize (IH rest T).
  unfold quoted in *. cbn [flat_map]. rewrite <- app_assoc. set (t := flat_map enc_char s ++ 34%N :: rest) in *.
  unfold enc_char.
  destruct (N.eqb_spec c 34); [subst; cbn [app]; rewrite (scan_string_escape _ 34%N) by (auto; lia); rewrite IH; auto|].
  destruct (N.eqb_spec c 92); [subst; cbn [app]; rewrite (scan_string_escape _ 92%N) by (auto; lia); rewrite IH; auto|].
  destruct (N.eqb_spec c 10); [subst; cbn [app]; rewrite (scan_string_escape _ 10%N) by (auto; lia); rewrite IH; auto|].
  destruct (N.eqb_spec c 13); [subst; cbn [app]; rewrite (scan_string_escape _ 13%N) by (auto; lia); rewrite IH; auto|].
  destruct (N.eqb_spec c 9); [subst; cbn [app]; rewrite (scan_string_escape _ 9%N) by (auto; lia); rewrite IH; auto|].
  destruct (N.eqb_spec c 12); [subst; cbn [app]; rewrite (scan_string_escape _ 12%N) by (auto; lia); rewrite IH; auto|].
  destruct (N.eqb_spec c 8); [subst; cbn [app]; rewrite (scan_string_escape _ 8%N) by (auto; lia); rewrite IH; auto|].
  destruct (((32 <=? c) && (c <=? 126))%N) eqn:P.
  { apply andb_true_iff in P. rewrite !N.leb_le in P. cbn [app]. rewrite scan_string_simple by (auto; lia). rewrite IH. auto. }
  destruct (N.ltb_spec c 65536) as [L|L].
  - change ((92%N :: 117%N :: hex4 c) ++ t) with (92%N :: 117%N :: hex4 c ++ t).
    rewrite scan_unit by auto. destruct (is_high c) eqn:Hc; [|rewrite IH; auto].
    destruct t as [|b [|w s4]] eqn:Et; try (rewrite IH; auto; fail).
    destruct ((b =? 92) && (w =? 117))%N eqn:B; [|rewrite IH; auto].
    destruct (quoted_front s rest T) with (b := b) (w := w) (s4 := s4) as (g1 & g2 & g3 & g4 & s5 & u2 & -> & U & Lw); auto.
    { intros d s' ->. apply Th; auto. }
    rewrite U, Lw, IH. auto.
  - assert (V1 : ((c - 65536) / 1024 < 1024)%N) by (apply N.div_lt_upper_bound; lia).
    assert (V2 : ((c - 65536) mod 1024 < 1024)%N) by (apply N.mod_lt; lia).
    assert (D : (c - 65536 = 1024 * ((c - 65536) / 1024) + (c - 65536) mod 1024)%N) by (apply N.div_mod; lia).
    set (a := ((c - 65536) / 1024)%N) in *. set (b := ((c - 65536) mod 1024)%N) in *. clearbody a b. cbv zeta.
    rewrite <- app_assoc.
    change ((92%N :: 117%N :: hex4 (55296 + a)) ++ (92%N :: 117%N :: hex4 (56320 + b)) ++ t)
      with (92%N :: 117%N :: hex4 (55296 + a) ++ (92%N :: 117%N :: hex4 (56320 + b) ++ t)).
    rewrite scan_unit by lia.
    assert (Hh : is_high (55296 + a) = true).
    { unfold is_high. apply andb_true_iff. rewrite !N.leb_le. lia. }
    rewrite Hh. change ((92 =? 92) && (117 =? 117))%N with true. cbv iota. unfold hex4 at 1. cbn [app].
    rewrite unhex4_hex4 by lia.
    assert (Hl : is_low (56320 + b) = true).
    { unfold is_low. apply andb_true_iff. rewrite !N.leb_le. lia. }
    rewrite Hl, IH, pcons_ok. do 3 f_equal. lia.
Qed.

(** Reading a string does not look beyond its closing quote. *)
Lemma scan_string_ext_len n : forall s q x r, List.length s <= n -> scan_string s = Ok (x, r) ->
  scan_string (s ++ q) = Ok (x, r ++ q) /\ List.length r < List.length s.
Proof.
  induction n as [|n IH]; intros s q x r L E.
  { destruct s; [discriminate|simpl in L; lia]. }
  destruct s as [|c s1]; [discriminate|]. simpl in L.
  assert (Step : forall y s', List.length s' <= n -> List.length s' <= List.length s1 -> pcons y (scan_string s') = Ok (x, r) ->
     pcons y (scan_string (s' ++ q)) = Ok (x, r ++ q) /\ List.length r < S (List.length s1)).
  { intros y s' L1 L2 E1. unfold pcons in E1. apply res_bind_Ok in E1. destruct E1 as ((x', r') & E1 & E2).
    simpl in E2. inversion E2; subst. destruct (IH s' q x' r L1 E1) as [H1 H2]. rewrite H1. split; [reflexivity|lia]. }
  simpl in E. simpl.
  destruct (c =? 34)%N. { inversion E; subst. split; auto. }
  destruct (c <? 32)%N; [discriminate|].
  destruct (c =? 92)%N; [|apply Step; auto; lia].
  destruct s1 as [|e s2]; [discriminate|]. simpl in L. simpl.
  destruct (e =? 117)%N.
  2:{ destruct (unescape e); [|discriminate]. apply Step; simpl; auto; lia. }
  destruct s2 as [|h1 [|h2 [|h3 [|h4 s3]]]]; try discriminate. simpl.
  destruct (unhex4 h1 h2 h3 h4) as [u|]; [|discriminate].
  simpl in L, Step.
  assert (Single : pcons u (scan_string s3) = Ok (x, r) ->
      pcons u (scan_string (s3 ++ q)) = Ok (x, r ++ q) /\ List.length r < S (S (S (S (S (S (List.length s3))))))).
  { apply Step; lia. }
  destruct (is_high u); [|auto].
  destruct s3 as [|b [|w s4]].
  - simpl in E. discriminate.
  - destruct q as [|q0 q]; [simpl; rewrite app_nil_r; split; auto; apply Single; auto|].
    cbn [app]. assert (B : (b =? 92)%N = false).
    { destruct (N.eqb_spec b 92); auto. subst b. simpl in E. discriminate. }
    rewrite B. simpl andb. apply Single. exact E.
  - cbn [app]. destruct ((b =? 92) && (w =? 117))%N; [|apply Single; exact E].
    destruct s4 as [|g1 [|g2 [|g3 [|g4 s5]]]]; try discriminate. cbn [app].
    destruct (unhex4 g1 g2 g3 g4) as [u2|]; [|discriminate].
    destruct (is_low u2); [|apply Single; exact E].
    simpl in L, Step. apply Step; [lia|lia|exact E].
Qed.

Lemma scan_string_ext s q x r : scan_string s = Ok (x, r) -> scan_string (s ++ q) = Ok (x, r ++ q).
Proof. intro E. eapply scan_string_ext_len; eauto. Qed.
Lemma scan_string_len s x r : scan_string s = Ok (x, r) -> List.length r < List.length s.
Proof. intro E. apply (scan_string_ext_len (List.length s) s [] x r (le_n _) E). Qed.

Lemma scan_string_err s : scan_string s <> Raise OutOfFuel.
Proof.
  assert (H : forall n s, List.length s <= n -> scan_string s <> Raise OutOfFuel).
  { clear s. induction n as [|n IH]; intros s L E.
    { destruct s; [discriminate|simpl in L; lia]. }
    assert (Step : forall y s', List.length s' <= n -> pcons y (scan_string s') <> Raise OutOfFuel).
    { intros y s' L1 E1. apply (IH s' L1). unfold pcons in E1. destruct (scan_string s'); [discriminate|]. simpl in E1. congruence. }
    destruct s as [|c s1]; [discriminate|]. simpl in L, E.
    destruct (c =? 34)%N; [discriminate|]. destruct (c <? 32)%N; [discriminate|].
    destruct (c =? 92)%N; [|revert E; apply Step; lia].
    destruct s1 as [|e s2]; [discriminate|]. simpl in L.
    destruct (e =? 117)%N.
    2:{ destruct (unescape e); [|discriminate]. revert E; apply Step; lia. }
    destruct s2 as [|h1 [|h2 [|h3 [|h4 s3]]]]; try discriminate. simpl in L.
    destruct (unhex4 h1 h2 h3 h4) as [u|]; [|discriminate].
    destruct (is_high u); [|revert E; apply Step; lia].
    destruct s3 as [|b [|w s4]]; try (revert E; apply Step; simpl in *; lia).
    destruct ((b =? 92) && (w =? 117))%N; [|revert E; apply Step; simpl in *; lia].
    destruct s4 as [|g1 [|g2 [|g3 [|g4 s5]]]]; try discriminate. simpl in L.
    destruct (unhex4 g1 g2 g3 g4) as [u2|]; [|discriminate].
    destruct (is_low u2); revert E; apply Step; simpl; lia. }
  eapply H; eauto.
Qed.

(** ** Numbers *)
Definition numchar (c : N) : bool :=
  is_digit c || (c =? 46)%N || (c =? 101)%N || (c =? 69)%N || (c =? 43)%N || (c =? 45)%N.
Definition stops (s : pystr) : Prop := match s with [] => True | c :: _ => numchar c = false end.
Definition nodigit (s : pystr) : Prop := match s with [] => True | c :: _ => is_digit c = false end.
Definition nodot (s : pystr) : Prop := match s with [] => True | c :: _ => is_digit c = false /\ (c =? 46)%N = false end.

Lemma numchar_false c : numchar c = false ->
  is_digit c = false /\ (c =? 46)%N = false /\ (c =? 101)%N = false /\ (c =? 69)%N = false /\
  (c =? 43)%N = false /\ (c =? 45)%N = false.
Proof.
  unfold numchar. rewrite !orb_false_iff. tauto.
Qed.

Lemma stops_nodot s : stops s -> nodot s.
Proof. destruct s; simpl; auto. intro H. apply numchar_false in H. tauto. Qed.
Lemma nodot_nodigit s : nodot s -> nodigit s.
Proof. destruct s; simpl; tauto. Qed.

Lemma span_ext s q : forall d r, span_digits s = (d, r) -> nodigit (r ++ q) -> span_digits (s ++ q) = (d, r ++ q).
Proof.
  induction s as [|c s IH]; simpl; intros d r E H.
  - inversion E; subst. simpl in *. destruct q as [|c q]; auto. simpl in H. simpl. rewrite H. auto.
  - destruct (is_digit c) eqn:D.
    + destruct (span_digits s) as (d', r') eqn:S. inversion E; subst. rewrite (IH d' r); auto.
    + inversion E; subst. auto.
Qed.

Lemma span_len s : forall d r, span_digits s = (d, r) -> List.length r <= List.length s.
Proof.
  induction s as [|c s IH]; simpl; intros d r E; [inversion E; auto|].
  destruct (is_digit c); [|inversion E; subst; simpl; auto].
  destruct (span_digits s) as (d', r'). inversion E; subst. specialize (IH _ _ eq_refl). lia.
Qed.

Lemma frac_ext s q f r : scan_frac s = (f, r) -> nodot (r ++ q) -> scan_frac (s ++ q) = (f, r ++ q).
Proof.
  intros E H. destruct s as [|c s1]; simpl in *.
  - inversion E; subst. simpl in *. destruct q as [|c q]; auto. simpl in *. destruct H as [_ ->]. auto.
  - destruct (c =? 46)%N eqn:C.
    + destruct (span_digits s1) as (d, r1) eqn:S. destruct d as [|d0 d].
      * inversion E; subst. simpl in H. rewrite C in H. destruct H; discriminate.
      * inversion E; subst. rewrite (span_ext s1 q _ _ S); auto. apply nodot_nodigit; auto.
    + inversion E; subst. auto.
Qed.

Lemma frac_head s f r : scan_frac s = (f, r) -> (f = [] /\ r = s) \/ (exists s', s = 46%N :: s').
Proof.
  destruct s as [|c s1]; simpl; intro E; [inversion E; auto|].
  destruct (N.eqb_spec c 46); [subst; eauto|]. inversion E; auto.
Qed.

Lemma frac_len s f r : scan_frac s = (f, r) -> List.length r <= List.length s.
Proof.
  destruct s as [|c s1]; simpl; intro E; [inversion E; auto|].
  destruct (c =? 46)%N; [|inversion E; subst; auto].
  destruct (span_digits s1) as (d, r1) eqn:S. assert (L := span_len _ _ _ S).
  destruct d; inversion E; subst; simpl; lia.
Qed.

Lemma exp_ext s q e r : scan_exp s = (e, r) -> stops (r ++ q) -> scan_exp (s ++ q) = (e, r ++ q).
Proof.
  intros E H. destruct s as [|c s1]; simpl in *.
  - inversion E; subst. simpl in *. destruct q as [|c q]; auto. simpl in *. apply numchar_false in H.
    destruct H as (_ & _ & -> & -> & _). auto.
  - destruct ((c =? 101) || (c =? 69))%N eqn:C.
    + destruct (scan_sign s1) as (sg, s2) eqn:SG. destruct (span_digits s2) as (d, r1) eqn:S.
      destruct d as [|d0 d].
      * inversion E; subst. simpl in H. apply numchar_false in H. destruct H as (_ & _ & H1 & H2 & _).
        rewrite H1, H2 in C. discriminate.
      * inversion E; subst.
        assert (SG' : scan_sign (s1 ++ q) = (sg, s2 ++ q)).
        { destruct s1 as [|c1 s1]; simpl in *.
          - inversion SG; subst. simpl in S. discriminate.
          - destruct ((c1 =? 43) || (c1 =? 45))%N; inversion SG; subst; auto. }
        rewrite SG', (span_ext s2 q _ _ S); auto. apply nodot_nodigit, stops_nodot; auto.
    + inversion E; subst. auto.
Qed.

Lemma exp_head s e r : scan_exp s = (e, r) -> (e = [] /\ r = s) \/ (exists c s', s = c :: s' /\ is_digit c = false /\ (c =? 46)%N = false).
Proof.
  destruct s as [|c s1]; simpl; intro E; [inversion E; auto|].
  destruct ((c =? 101) || (c =? 69))%N eqn:C; [|inversion E; auto].
  right. exists c, s1. apply orb_true_iff in C. rewrite !N.eqb_eq in C. destruct C as [-> | ->]; auto.
Qed.

Lemma exp_len s e r : scan_exp s = (e, r) -> List.length r <= List.length s.
Proof.
  destruct s as [|c s1]; simpl; intro E; [inversion E; auto|].
  destruct ((c =? 101) || (c =? 69))%N; [|inversion E; subst; auto].
  destruct (scan_sign s1) as (sg, s2) eqn:SG. destruct (span_digits s2) as (d, r1) eqn:S. assert (L := span_len _ _ _ S).
  assert (List.length s2 <= List.length s1).
  { destruct s1 as [|c1 s1]; simpl in SG; [inversion SG; auto|].
    destruct ((c1 =? 43) || (c1 =? 45))%N; inversion SG; subst; simpl; lia. }
  destruct d; inversion E; subst; simpl; lia.
Qed.

Lemma int_ext s q i r : scan_int s = Some (i, r) -> nodigit (r ++ q) -> scan_int (s ++ q) = Some (i, r ++ q).
Proof.
  intros E H. destruct s as [|c s1]; simpl in *; [discriminate|].
  destruct (c =? 48)%N; [inversion E; subst; auto|].
  destruct (is_digit c); [|discriminate]. destruct (span_digits s1) as (d, r1) eqn:S. inversion E; subst.
  rewrite (span_ext s1 q _ _ S); auto.
Qed.

Lemma int_len s i r : scan_int s = Some (i, r) -> List.length r < List.length s.
Proof.
  destruct s as [|c s1]; simpl; intro E; [discriminate|].
  destruct (c =? 48)%N; [inversion E; subst; simpl; lia|].
  destruct (is_digit c); [|discriminate]. destruct (span_digits s1) as (d, r1) eqn:S. assert (L := span_len _ _ _ S).
  inversion E; subst. lia.
Qed.

Lemma number_ext s q l r : scan_number s = Some (l, r) -> stops (r ++ q) -> scan_number (s ++ q) = Some (l, r ++ q).
Proof.
  unfold scan_number. intros E H.
  destruct (scan_minus s) as (m, s1) eqn:M.
  destruct (scan_int s1) as [(i, s2)|] eqn:I; [|discriminate].
  destruct (scan_frac s2) as (f, s3) eqn:F. destruct (scan_exp s3) as (e, s4) eqn:X. inversion E; subst.
  assert (X' := exp_ext _ q _ _ X H).
  assert (D3 : nodot (s3 ++ q)).
  { destruct (exp_head _ _ _ X) as [[_ ->]|(c & s' & -> & H1 & H2)]; [apply stops_nodot; auto|]. simpl. auto. }
  assert (F' := frac_ext _ q _ _ F D3).
  assert (D2 : nodigit (s2 ++ q)).
  { destruct (frac_head _ _ _ F) as [[_ ->]|(s' & ->)]; [apply nodot_nodigit; auto|]. reflexivity. }
  assert (I' := int_ext _ q _ _ I D2).
  assert (M' : scan_minus (s ++ q) = (m, s1 ++ q)).
  { destruct s as [|c s0]; simpl in *.
    - inversion M; subst. discriminate.
    - destruct (c =? 45)%N; inversion M; subst; auto. }
  rewrite M', I', F', X'. auto.
Qed.

Lemma number_len s l r : scan_number s = Some (l, r) -> List.length r < List.length s.
Proof.
  unfold scan_number. intro E.
  destruct (scan_minus s) as (m, s1) eqn:M.
  destruct (scan_int s1) as [(i, s2)|] eqn:I; [|discriminate].
  destruct (scan_frac s2) as (f, s3) eqn:F. destruct (scan_exp s3) as (e, s4) eqn:X. inversion E; subst.
  apply int_len in I. apply frac_len in F. apply exp_len in X.
  assert (List.length s1 <= List.length s).
  { destruct s as [|c s0]; simpl in *; [inversion M; auto|]. destruct (c =? 45)%N; inversion M; subst; simpl; lia. }
  lia.
Qed.

(** ** Literals *)
Lemma strip_prefix_spec p : forall s r, strip_prefix p s = Some r -> s = p ++ r.
Proof.
  induction p as [|c p IH]; intros s r E; simpl in *; [congruence|].
  destruct s as [|d s]; [discriminate|]. destruct (N.eqb_spec c d); [|discriminate]. subst. f_equal. auto.
Qed.

Lemma literal_spec ls : forall s l r, scan_literal ls s = Some (l, r) -> s = l ++ r /\ In l ls.
Proof.
  induction ls as [|l0 ls IH]; simpl; intros s l r E; [discriminate|].
  destruct (strip_prefix l0 s) eqn:P.
  - inversion E; subst. apply strip_prefix_spec in P. auto.
  - apply IH in E. tauto.
Qed.

Lemma literal_read l x : In l json_literals -> scan_literal json_literals (l ++ x) = Some (l, x).
Proof.
  intro H. simpl in H. repeat (destruct H as [<-|H]; [reflexivity|]). destruct H.
Qed.

Lemma literal_nonempty l : In l json_literals -> l <> [].
Proof. intro H. simpl in H. repeat (destruct H as [<-|H]; [discriminate|]). destruct H. Qed.

Lemma literal_front l : In l json_literals -> exists c l', l = c :: l' /\ (c =? 34)%N = false /\ (c =? 123)%N = false /\ (c =? 91)%N = false.
Proof.
  intro H. simpl in H. repeat (destruct H as [<-|H]; [eexists; eexists; split; [reflexivity|auto]|]). destruct H.
Qed.

(** A number starts with a digit, or with a minus and a digit. *)
Lemma number_front s l r : scan_number s = Some (l, r) ->
  exists c s', s = c :: s' /\ (is_digit c = true \/ (c = 45%N /\ exists d s'', s' = d :: s'' /\ is_digit d = true)).
Proof.
  unfold scan_number. intro E. destruct s as [|c s]; [discriminate|]. exists c, s. split; auto. simpl in E.
  assert (Dg : forall t i r', scan_int t = Some (i, r') -> exists d t', t = d :: t' /\ is_digit d = true).
  { intros t i r' Et. destruct t as [|d t']; [discriminate|]. exists d, t'. split; auto. simpl in Et.
    destruct (N.eqb_spec d 48); [subst; reflexivity|]. destruct (is_digit d); auto. discriminate. }
  destruct (N.eqb_spec c 45).
  - subst. right. split; auto. destruct (scan_int s) as [(i, r')|] eqn:I; [|discriminate]. eauto.
  - left. destruct (scan_int (c :: s)) as [(i, r')|] eqn:I; [|discriminate]. apply Dg in I.
    destruct I as (d & t' & Et & Hd). inversion Et; subst. auto.
Qed.

Lemma digit_range c : is_digit c = true -> (48 <= c <= 57)%N.
Proof. unfold is_digit. rewrite andb_true_iff, !N.leb_le. tauto. Qed.

Lemma number_not_literal s l r : scan_number s = Some (l, r) -> scan_literal json_literals s = None.
Proof.
  intro E. apply number_front in E. destruct E as (c & s' & -> & [H|(-> & d & s'' & -> & H)]).
  - apply digit_range in H. destruct (scan_literal json_literals (c :: s')) as [(l0, r0)|] eqn:Q; auto. exfalso.
    apply literal_spec in Q. destruct Q as [Q1 Q2]. simpl in Q2.
    repeat (destruct Q2 as [<-|Q2]; [simpl in Q1; inversion Q1; subst; lia|]). destruct Q2.
  - apply digit_range in H. destruct (scan_literal json_literals (45%N :: d :: s'')) as [(l0, r0)|] eqn:Q; auto. exfalso.
    apply literal_spec in Q. destruct Q as [Q1 Q2]. simpl in Q2.
    repeat (destruct Q2 as [<-|Q2]; [simpl in Q1; inversion Q1; subst; lia|]). destruct Q2.
Qed.

Lemma literal_len s l r : scan_literal json_literals s = Some (l, r) -> List.length r < List.length s.
Proof.
  intro E. apply literal_spec in E. destruct E as [-> H]. apply literal_nonempty in H. rewrite app_length.
  destruct l; [congruence|simpl; lia].
Qed.

(** ** White space *)
Lemma skip_ws_ext s q d r : skip_ws s = d :: r -> skip_ws (s ++ q) = d :: r ++ q.
Proof.
  induction s as [|c s IH]; simpl; intro E; [discriminate|].
  destruct (is_ws c); auto. inversion E; subst. auto.
Qed.

Lemma skip_ws_len s : List.length (skip_ws s) <= List.length s.
Proof. induction s as [|c s IH]; simpl; auto. destruct (is_ws c); simpl; lia. Qed.

Lemma skip_ws_len_cons s d r : skip_ws s = d :: r -> List.length r < List.length s.
Proof. intro E. assert (L := skip_ws_len s). rewrite E in L. simpl in L. lia. Qed.

Lemma skip_ws_head s d r : skip_ws s = d :: r -> is_ws d = false.
Proof.
  induction s as [|c s IH]; simpl; intro E; [discriminate|].
  destruct (is_ws c) eqn:W; auto. inversion E; subst. auto.
Qed.

Lemma skip_ws_id s : match s with c :: _ => is_ws c = false | [] => True end -> skip_ws s = s.
Proof. destruct s; simpl; auto. intros ->. auto. Qed.

Lemma skip_ws_newline n s : match s with c :: _ => is_ws c = false | [] => True end -> skip_ws (newline_indent n ++ s) = s.
Proof.
  intro H. unfold newline_indent. simpl. induction n; simpl; auto. apply skip_ws_id; auto.
Qed.

(** After a value, the first non-blank character being a comma or a closing bracket,
    the value is over. *)
Lemma stops_ws s q d r : skip_ws s = d :: r -> d = 93%N \/ d = 125%N \/ d = 44%N -> stops (s ++ q).
Proof.
  destruct s as [|c s]; [discriminate|]. simpl. destruct (is_ws c) eqn:W.
  - intros _ _. unfold is_ws in W. rewrite !orb_true_iff, !N.eqb_eq in W.
    destruct W as [[[-> | ->] | ->] | ->]; reflexivity.
  - intros E H. inversion E; subst. destruct H as [->|[->| ->]]; reflexivity.
Qed.

Local Arguments scan_literal : simpl never.
Local Arguments scan_number : simpl never.
Local Arguments json_literals : simpl never.

(** ** Values: what follows does not matter, the rest is shorter, fuel suffices *)
Definition is_num (v : json) : Prop := match v with JNum _ => True | _ => False end.

Lemma parse_ext n : forall q,
  (forall s v r, parse_value n s = Ok (v, r) -> (~ is_num v \/ stops (r ++ q)) ->
     parse_value n (s ++ q) = Ok (v, r ++ q)) /\
  (forall s l r, parse_elems n s = Ok (l, r) -> parse_elems n (s ++ q) = Ok (l, r ++ q)) /\
  (forall s l r, parse_members n s = Ok (l, r) -> parse_members n (s ++ q) = Ok (l, r ++ q)).
Proof.
  induction n as [|n IH]; intro q; [repeat split; intros; discriminate|].
  destruct (IH q) as (IHv & IHe & IHm). split; [|split].
  - intros s v r E H. destruct s as [|c s1]; [discriminate|]. simpl in E. simpl.
    destruct (c =? 34)%N.
    { apply res_bind_Ok in E. destruct E as ((x, y) & E1 & E2). simpl in E2. inversion E2; subst.
      rewrite (scan_string_ext _ _ _ _ E1). auto. }
    destruct (c =? 123)%N.
    { destruct (skip_ws s1) as [|d s2] eqn:W; [discriminate|]. rewrite (skip_ws_ext _ q _ _ W).
      destruct (d =? 125)%N; [inversion E; subst; auto|].
      apply res_bind_Ok in E. destruct E as ((x, y) & E1 & E2). simpl in E2. inversion E2; subst.
      rewrite app_comm_cons. rewrite (IHm _ _ _ E1). auto. }
    destruct (c =? 91)%N.
    { destruct (skip_ws s1) as [|d s2] eqn:W; [discriminate|]. rewrite (skip_ws_ext _ q _ _ W).
      destruct (d =? 93)%N; [inversion E; subst; auto|].
      apply res_bind_Ok in E. destruct E as ((x, y) & E1 & E2). simpl in E2. inversion E2; subst.
      rewrite app_comm_cons. rewrite (IHe _ _ _ E1). auto. }
    destruct (scan_literal json_literals (c :: s1)) as [(l0, r0)|] eqn:Q.
    { assert (Q' := Q). apply literal_spec in Q. destruct Q as [Q1 Q2]. inversion E; subst.
      change (c :: s1 ++ q) with ((c :: s1) ++ q). rewrite Q1, <- app_assoc, literal_read by auto. auto. }
    destruct (scan_number (c :: s1)) as [(l0, r0)|] eqn:U; [|discriminate]. inversion E; subst.
    destruct H as [H|H]; [exfalso; apply H; exact I|].
    assert (U' := number_ext _ q _ _ U H). change (c :: s1 ++ q) with ((c :: s1) ++ q).
    rewrite (number_not_literal _ _ _ U'), U'. auto.
  - intros s l r E. simpl in E |- *. apply res_bind_Ok in E. destruct E as ((v, r1) & E1 & E2). simpl in E2.
    destruct (skip_ws r1) as [|d s2] eqn:W; [discriminate|].
    assert (Hd : d = 93%N \/ d = 44%N).
    { destruct (N.eqb_spec d 93); auto. destruct (N.eqb_spec d 44); auto. discriminate. }
    rewrite (IHv _ _ _ E1) by (right; eapply stops_ws; eauto; tauto). simpl.
    rewrite (skip_ws_ext _ q _ _ W).
    destruct (d =? 93)%N; [inversion E2; subst; auto|].
    destruct (d =? 44)%N; [|discriminate].
    apply res_bind_Ok in E2. destruct E2 as ((l', r') & E3 & E4). simpl in E4. inversion E4; subst.
    destruct (skip_ws s2) as [|d2 s3] eqn:W2.
    + destruct n; simpl in E3; [discriminate|]. destruct n; simpl in E3; discriminate.
    + rewrite (skip_ws_ext _ q _ _ W2), app_comm_cons, (IHe _ _ _ E3). auto.
  - intros s l r E. simpl in E |- *. destruct s as [|c s0]; [discriminate|]. simpl.
    destruct (c =? 34)%N; [|discriminate].
    apply res_bind_Ok in E. destruct E as ((k, s1) & E1 & E). simpl in E.
    rewrite (scan_string_ext _ _ _ _ E1). simpl.
    destruct (skip_ws s1) as [|c1 s2] eqn:W1; [discriminate|]. rewrite (skip_ws_ext _ q _ _ W1).
    destruct (c1 =? 58)%N; [|discriminate].
    apply res_bind_Ok in E. destruct E as ((v, r1) & E2 & E). simpl in E.
    destruct (skip_ws r1) as [|d s3] eqn:W; [discriminate|].
    assert (Hd : d = 125%N \/ d = 44%N).
    { destruct (N.eqb_spec d 125); auto. destruct (N.eqb_spec d 44); auto. discriminate. }
    destruct (skip_ws s2) as [|d2 s4] eqn:W2.
    { destruct n; simpl in E2; discriminate. }
    rewrite (skip_ws_ext _ q _ _ W2), app_comm_cons.
    rewrite (IHv _ _ _ E2) by (right; eapply stops_ws; eauto; tauto). simpl.
    rewrite (skip_ws_ext _ q _ _ W).
    destruct (d =? 125)%N; [inversion E; subst; auto|].
    destruct (d =? 44)%N; [|discriminate].
    apply res_bind_Ok in E. destruct E as ((l', r') & E3 & E4). simpl in E4. inversion E4; subst.
    destruct (skip_ws s3) as [|d3 s5] eqn:W3.
    + destruct n; simpl in E3; discriminate.
    + rewrite (skip_ws_ext _ q _ _ W3), app_comm_cons, (IHm _ _ _ E3). auto.
Qed.

Lemma parse_len n :
  (forall s v r, parse_value n s = Ok (v, r) -> List.length r < List.length s) /\
  (forall s l r, parse_elems n s = Ok (l, r) -> List.length r < List.length s) /\
  (forall s l r, parse_members n s = Ok (l, r) -> List.length r < List.length s).
Proof.
  induction n as [|n (IHv & IHe & IHm)]; [repeat split; intros; discriminate|]. split; [|split].
  - intros s v r E. destruct s as [|c s1]; [discriminate|]. simpl in E. simpl.
    destruct (c =? 34)%N.
    { apply res_bind_Ok in E. destruct E as ((x, y) & E1 & E2). simpl in E2. inversion E2; subst.
      apply scan_string_len in E1. lia. }
    destruct (c =? 123)%N.
    { destruct (skip_ws s1) as [|d s2] eqn:W; [discriminate|]. apply skip_ws_len_cons in W.
      destruct (d =? 125)%N; [inversion E; subst; lia|].
      apply res_bind_Ok in E. destruct E as ((x, y) & E1 & E2). simpl in E2. inversion E2; subst.
      apply IHm in E1. simpl in E1. lia. }
    destruct (c =? 91)%N.
    { destruct (skip_ws s1) as [|d s2] eqn:W; [discriminate|]. apply skip_ws_len_cons in W.
      destruct (d =? 93)%N; [inversion E; subst; lia|].
      apply res_bind_Ok in E. destruct E as ((x, y) & E1 & E2). simpl in E2. inversion E2; subst.
      apply IHe in E1. simpl in E1. lia. }
    destruct (scan_literal json_literals (c :: s1)) as [(l0, r0)|] eqn:Q.
    { apply literal_len in Q. inversion E; subst. simpl in Q. lia. }
    destruct (scan_number (c :: s1)) as [(l0, r0)|] eqn:U; [|discriminate]. inversion E; subst.
    apply number_len in U. simpl in U. lia.
  - intros s l r E. simpl in E. apply res_bind_Ok in E. destruct E as ((v, r1) & E1 & E2). simpl in E2.
    apply IHv in E1. destruct (skip_ws r1) as [|d s2] eqn:W; [discriminate|]. apply skip_ws_len_cons in W.
    destruct (d =? 93)%N; [inversion E2; subst; lia|].
    destruct (d =? 44)%N; [|discriminate].
    apply res_bind_Ok in E2. destruct E2 as ((l', r') & E3 & E4). simpl in E4. inversion E4; subst.
    apply IHe in E3. assert (L := skip_ws_len s2). lia.
  - intros s l r E. simpl in E. destruct s as [|c s0]; [discriminate|]. simpl.
    destruct (c =? 34)%N; [|discriminate].
    apply res_bind_Ok in E. destruct E as ((k, s1) & E1 & E). simpl in E. apply scan_string_len in E1.
    destruct (skip_ws s1) as [|c1 s2] eqn:W1; [discriminate|]. apply skip_ws_len_cons in W1.
    destruct (c1 =? 58)%N; [|discriminate].
    apply res_bind_Ok in E. destruct E as ((v, r1) & E2 & E). simpl in E. apply IHv in E2.
    assert (L := skip_ws_len s2).
    destruct (skip_ws r1) as [|d s3] eqn:W; [discriminate|]. apply skip_ws_len_cons in W.
    destruct (d =? 125)%N; [inversion E; subst; lia|].
    destruct (d =? 44)%N; [|discriminate].
    apply res_bind_Ok in E. destruct E as ((l', r') & E3 & E4). simpl in E4. inversion E4; subst.
    apply IHm in E3. assert (L2 := skip_ws_len s3). lia.
Qed.

Lemma bind_err {A B} (m : res A) (f : A -> res B) :
  m <> Raise OutOfFuel -> (forall a, m = Ok a -> f a <> Raise OutOfFuel) -> rbind m f <> Raise OutOfFuel.
Proof. intros H1 H2. destruct m; simpl; auto. congruence. Qed.

Lemma parse_fuel n :
  (forall s, 2 * List.length s < n -> parse_value n s <> Raise OutOfFuel) /\
  (forall s, 2 * List.length s + 1 < n -> parse_elems n s <> Raise OutOfFuel) /\
  (forall s, 2 * List.length s < n -> parse_members n s <> Raise OutOfFuel).
Proof.
  induction n as [|n (IHv & IHe & IHm)]; [repeat split; intros; lia|]. split; [|split].
  - intros s L. destruct s as [|c s1]; [discriminate|]. simpl in L. simpl.
    destruct (c =? 34)%N. { apply bind_err; [apply scan_string_err|discriminate]. }
    destruct (c =? 123)%N.
    { destruct (skip_ws s1) as [|d s2] eqn:W; [discriminate|]. apply skip_ws_len_cons in W.
      destruct (d =? 125)%N; [discriminate|]. apply bind_err; [apply IHm; simpl; lia|discriminate]. }
    destruct (c =? 91)%N.
    { destruct (skip_ws s1) as [|d s2] eqn:W; [discriminate|]. apply skip_ws_len_cons in W.
      destruct (d =? 93)%N; [discriminate|]. apply bind_err; [apply IHe; simpl; lia|discriminate]. }
    destruct (scan_literal json_literals (c :: s1)) as [(l0, r0)|]; [discriminate|].
    destruct (scan_number (c :: s1)) as [(l0, r0)|]; discriminate.
  - intros s L. simpl. apply bind_err; [apply IHv; lia|]. intros (v, r1) E1. apply parse_len in E1. simpl.
    destruct (skip_ws r1) as [|d s2] eqn:W; [discriminate|]. apply skip_ws_len_cons in W.
    destruct (d =? 93)%N; [discriminate|]. destruct (d =? 44)%N; [|discriminate].
    assert (L2 := skip_ws_len s2). apply bind_err; [apply IHe; lia|discriminate].
  - intros s L. simpl. destruct s as [|c s0]; [discriminate|]. simpl in L.
    destruct (c =? 34)%N; [|discriminate].
    apply bind_err; [apply scan_string_err|]. intros (k, s1) E1. simpl. apply scan_string_len in E1.
    destruct (skip_ws s1) as [|c1 s2] eqn:W1; [discriminate|]. apply skip_ws_len_cons in W1.
    destruct (c1 =? 58)%N; [|discriminate]. assert (L1 := skip_ws_len s2).
    apply bind_err; [apply IHv; lia|]. intros (v, r1) E2. apply parse_len in E2. simpl.
    destruct (skip_ws r1) as [|d s3] eqn:W; [discriminate|]. apply skip_ws_len_cons in W.
    destruct (d =? 125)%N; [discriminate|]. destruct (d =? 44)%N; [|discriminate].
    assert (L2 := skip_ws_len s3). apply bind_err; [apply IHm; lia|discriminate].
Qed.

Lemma loads_fuel s : loads s <> Raise OutOfFuel.
Proof.
  assert (H : (x <-- parse_value (S (2 * List.length s)) (skip_ws s) ;;;
      match skip_ws (snd x) with [] => Ok (fst x) | _ => Raise JSONDecodeError end) <> Raise OutOfFuel).
  { apply bind_err.
    - apply parse_fuel. assert (L := skip_ws_len s). lia.
    - intros (v, r) _. simpl. destruct (skip_ws r); discriminate. }
  unfold loads. destruct s as [|c s]; auto. destruct (c =? 65279)%N; auto. discriminate.
Qed.

Lemma parse_mono n :
  (forall s, parse_value n s <> Raise OutOfFuel -> parse_value (S n) s = parse_value n s) /\
  (forall s, parse_elems n s <> Raise OutOfFuel -> parse_elems (S n) s = parse_elems n s) /\
  (forall s, parse_members n s <> Raise OutOfFuel -> parse_members (S n) s = parse_members n s).
Proof.
  assert (BE : forall A B (m1 m2 : res A) (f1 f2 : A -> res B), rbind m1 f1 <> Raise OutOfFuel ->
     (m1 <> Raise OutOfFuel -> m2 = m1) -> (forall a, m1 = Ok a -> f1 a <> Raise OutOfFuel -> f2 a = f1 a) ->
     rbind m2 f2 = rbind m1 f1).
  { intros A B m1 m2 f1 f2 H E1 E2. destruct m1 as [a|e]; simpl in *.
    - rewrite E1 by discriminate. simpl. auto.
    - rewrite E1; auto. congruence. }
  induction n as [|n (IHv & IHe & IHm)]; [repeat split; intros s H; exfalso; apply H; reflexivity|]. split; [|split].
  - intros s H. destruct s as [|c s1]; [reflexivity|].
    change (parse_value (S (S n)) (c :: s1)) with
      (if (c =? 34)%N then x <-- scan_string s1 ;;; Ok (JStr (fst x), snd x)
          else if (c =? 123)%N then
            match skip_ws s1 with
            | [] => Raise JSONDecodeError
            | d :: s2 =>
                if (d =? 125)%N then Ok (JObj [], s2)
                else x <-- parse_members (S n) (d :: s2) ;;; Ok (JObj (fst x), snd x)
            end
          else if (c =? 91)%N then
            match skip_ws s1 with
            | [] => Raise JSONDecodeError
            | d :: s2 =>
                if (d =? 93)%N then Ok (JArr [], s2)
                else x <-- parse_elems (S n) (d :: s2) ;;; Ok (JArr (fst x), snd x)
            end
          else
            match scan_literal json_literals (c :: s1) with
            | Some (l, r) => Ok (JConst l, r)
            | None => match scan_number (c :: s1) with
                      | Some (l, r) => Ok (JNum l, r)
                      | None => Raise JSONDecodeError
                      end
            end).
    revert H.
    change (parse_value (S n) (c :: s1)) with
      (if (c =? 34)%N then x <-- scan_string s1 ;;; Ok (JStr (fst x), snd x)
          else if (c =? 123)%N then
            match skip_ws s1 with
            | [] => Raise JSONDecodeError
            | d :: s2 =>
                if (d =? 125)%N then Ok (JObj [], s2)
                else x <-- parse_members n (d :: s2) ;;; Ok (JObj (fst x), snd x)
            end
          else if (c =? 91)%N then
            match skip_ws s1 with
            | [] => Raise JSONDecodeError
            | d :: s2 =>
                if (d =? 93)%N then Ok (JArr [], s2)
                else x <-- parse_elems n (d :: s2) ;;; Ok (JArr (fst x), snd x)
            end
          else
            match scan_literal json_literals (c :: s1) with
            | Some (l, r) => Ok (JConst l, r)
            | None => match scan_number (c :: s1) with
                      | Some (l, r) => Ok (JNum l, r)
                      | None => Raise JSONDecodeError
                      end
            end).
    destruct (c =? 34)%N; auto. destruct (c =? 123)%N.
    { destruct (skip_ws s1) as [|d s2]; auto. destruct (d =? 125)%N; auto; intro H; apply BE; auto. }
    destruct (c =? 91)%N; auto.
    { destruct (skip_ws s1) as [|d s2]; auto. destruct (d =? 93)%N; auto; intro H; apply BE; auto. }
  - intros s H.
    change (parse_elems (S (S n)) s) with
      (x <-- parse_value (S n) s ;;;
      match skip_ws (snd x) with
      | [] => Raise JSONDecodeError
      | d :: s2 =>
          if (d =? 93)%N then Ok ([fst x], s2)
          else if (d =? 44)%N then
            y <-- parse_elems (S n) (skip_ws s2) ;;; Ok (fst x :: fst y, snd y)
          else Raise JSONDecodeError
      end).
    revert H.
    change (parse_elems (S n) s) with
      (x <-- parse_value n s ;;;
      match skip_ws (snd x) with
      | [] => Raise JSONDecodeError
      | d :: s2 =>
          if (d =? 93)%N then Ok ([fst x], s2)
          else if (d =? 44)%N then
            y <-- parse_elems n (skip_ws s2) ;;; Ok (fst x :: fst y, snd y)
          else Raise JSONDecodeError
      end).
    intro H. apply BE; auto. intros (v, r) _. cbn [fst snd]. destruct (skip_ws r) as [|d s2]; auto.
    destruct (d =? 93)%N; auto. destruct (d =? 44)%N; auto; intro H'; apply BE; auto.
  - intros s H.
    change (parse_members (S (S n)) s) with
      (match s with
      | [] => Raise JSONDecodeError
      | q :: s0 =>
          if (q =? 34)%N then
            k <-- scan_string s0 ;;;
            match skip_ws (snd k) with
            | [] => Raise JSONDecodeError
            | c :: s1 =>
                if (c =? 58)%N then
                  x <-- parse_value (S n) (skip_ws s1) ;;;
                  match skip_ws (snd x) with
                  | [] => Raise JSONDecodeError
                  | d :: s2 =>
                      if (d =? 125)%N then Ok ([(fst k, fst x)], s2)
                      else if (d =? 44)%N then
                        y <-- parse_members (S n) (skip_ws s2) ;;; Ok ((fst k, fst x) :: fst y, snd y)
                      else Raise JSONDecodeError
                  end
                else Raise JSONDecodeError
            end
          else Raise JSONDecodeError
      end).
    revert H.
    change (parse_members (S n) s) with
      (match s with
      | [] => Raise JSONDecodeError
      | q :: s0 =>
          if (q =? 34)%N then
            k <-- scan_string s0 ;;;
            match skip_ws (snd k) with
            | [] => Raise JSONDecodeError
            | c :: s1 =>
                if (c =? 58)%N then
                  x <-- parse_value n (skip_ws s1) ;;;
                  match skip_ws (snd x) with
                  | [] => Raise JSONDecodeError
                  | d :: s2 =>
                      if (d =? 125)%N then Ok ([(fst k, fst x)], s2)
                      else if (d =? 44)%N then
                        y <-- parse_members n (skip_ws s2) ;;; Ok ((fst k, fst x) :: fst y, snd y)
                      else Raise JSONDecodeError
                  end
                else Raise JSONDecodeError
            end
          else Raise JSONDecodeError
      end).
    intro H. destruct s as [|c s0]; auto. destruct (c =? 34)%N; auto. apply BE; auto.
    intros (k, s1) _. cbn [fst snd]. destruct (skip_ws s1) as [|c1 s2]; auto. destruct (c1 =? 58)%N; auto.
    intro H'. apply BE; auto. intros (v, r) _. cbn [fst snd]. destruct (skip_ws r) as [|d s3]; auto.
    destruct (d =? 125)%N; auto. destruct (d =? 44)%N; auto; intro H''; apply BE; auto.
Qed.

Lemma parse_mono_le n k s : n <= k -> parse_value n s <> Raise OutOfFuel -> parse_value k s = parse_value n s.
Proof.
  intros L H. induction L as [|k L IH]; auto. rewrite <- IH. apply parse_mono. rewrite IH. auto.
Qed.

(** ** Round trip *)
Section JsonInd.
  Variable P : json -> Prop.
  Hypothesis Hs : forall s, P (JStr s).
  Hypothesis Hn : forall l, P (JNum l).
  Hypothesis Hc : forall n, P (JConst n).
  Hypothesis Ha : forall l, Forall P l -> P (JArr l).
  Hypothesis Ho : forall l, Forall (fun kv => P (snd kv)) l -> P (JObj l).
  Fixpoint json_ind' (v : json) : P v :=
    match v with
    | JStr s => Hs s
    | JNum l => Hn l
    | JConst n => Hc n
    | JArr l => Ha l ((fix go l := match l return Forall P l with
                                   | [] => Forall_nil _
                                   | x :: l' => Forall_cons x (json_ind' x) (go l')
                                   end) l)
    | JObj l => Ho l ((fix go l := match l return Forall (fun kv => P (snd kv)) l with
                                   | [] => Forall_nil _
                                   | x :: l' => Forall_cons x (json_ind' (snd x)) (go l')
                                   end) l)
    end.
End JsonInd.

(** Well-formed documents: encodable strings and real number lexemes. *)
Fixpoint wf_json (v : json) : Prop :=
  match v with
  | JStr s => text_ok s
  | JNum l => scan_number l = Some (l, [])
  | JConst n => In n json_literals
  | JArr l => (fix go l := match l with [] => True | x :: l' => wf_json x /\ go l' end) l
  | JObj l => (fix go l := match l with [] => True | x :: l' => text_ok (fst x) /\ wf_json (snd x) /\ go l' end) l
  end.

Lemma wf_arr l : wf_json (JArr l) <-> Forall wf_json l.
Proof.
  induction l as [|x l IH]; simpl in *; split; intro H; auto.
  - constructor; [tauto|]. apply IH; tauto.
  - inversion H; subst. split; auto. apply IH; auto.
Qed.

Lemma wf_obj l : wf_json (JObj l) <-> Forall (fun kv => text_ok (fst kv) /\ wf_json (snd kv)) l.
Proof.
  induction l as [|x l IH]; simpl in *; split; intro H; auto.
  - constructor; [tauto|]. apply IH; tauto.
  - inversion H; subst. split; [tauto|]. split; [tauto|]. apply IH; auto.
Qed.

Definition reads_back (v : json) : Prop :=
  wf_json v -> forall level rest, stops rest -> exists n, parse_value n (dump level v ++ rest) = Ok (v, rest).

(** The first character of an encoded value is not blank. *)
Lemma dump_front v level : wf_json v -> exists c s, dump level v = c :: s /\ is_ws c = false /\ (c =? 93)%N = false /\ (c =? 125)%N = false.
Proof.
  destruct v as [s|l|n|l|l]; simpl; intro W.
  - exists 34%N. eexists. split; [reflexivity|auto].
  - assert (F := number_front _ _ _ W). destruct F as (c & s' & -> & [H|[-> _]]).
    + exists c, s'. split; auto. apply digit_range in H. unfold is_ws.
      destruct (N.eqb_spec c 32), (N.eqb_spec c 9), (N.eqb_spec c 10), (N.eqb_spec c 13), (N.eqb_spec c 93), (N.eqb_spec c 125); auto; lia.
    + eexists; eexists; split; [reflexivity|auto].
  - repeat (destruct W as [<-|W]; [eexists; eexists; split; [reflexivity|auto]|]). destruct W.
  - destruct l; eexists; eexists; (split; [reflexivity|auto]).
  - destruct l; eexists; eexists; (split; [reflexivity|auto]).
Qed.

Lemma parse_value_up n s v r k : n <= k -> parse_value n s = Ok (v, r) -> parse_value k s = Ok (v, r).
Proof. intros L E. rewrite (parse_mono_le n k); auto. rewrite E. discriminate. Qed.

Lemma parse_elems_up n s v r k : n <= k -> parse_elems n s = Ok (v, r) -> parse_elems k s = Ok (v, r).
Proof.
  intros L E. induction L as [|k L IH]; auto. rewrite <- IH. apply parse_mono. rewrite IH. discriminate.
Qed.

Lemma parse_members_up n s v r k : n <= k -> parse_members n s = Ok (v, r) -> parse_members k s = Ok (v, r).
Proof.
  intros L E. induction L as [|k L IH]; auto. rewrite <- IH. apply parse_mono. rewrite IH. discriminate.
Qed.

Lemma newline_stops level rest : stops (newline_indent level ++ rest).
Proof. reflexivity. Qed.

Lemma elems_back l : Forall reads_back l -> Forall wf_json l -> l <> [] -> forall level lv rest,
  exists n, parse_elems n (join (44%N :: newline_indent level) (map (dump level) l) ++ newline_indent lv ++ 93%N :: rest)
            = Ok (l, rest).
Proof.
  induction l as [|x l IH]; intros R W NE level lv rest; [congruence|].
  inversion R as [|? ? Rx Rl]; subst. inversion W as [|? ? Wx Wl]; subst.
  destruct l as [|y l].
  - cbn [map join]. destruct (Rx Wx level (newline_indent lv ++ 93%N :: rest) (newline_stops _ _)) as (n & E).
    exists (S n). cbn [parse_elems]. rewrite E. cbn [rbind fst snd].
    rewrite skip_ws_newline by reflexivity. reflexivity.
  - destruct (IH Rl Wl ltac:(discriminate) level lv rest) as (n2 & E2).
    cbn [map join].
    set (tl := join (44%N :: newline_indent level) (dump level y :: map (dump level) l)) in *.
    change (join (44%N :: newline_indent level) (map (dump level) (y :: l))) with tl in E2.
    rewrite <- !app_assoc. cbn [app].
    destruct (Rx Wx level (44%N :: newline_indent level ++ tl ++ newline_indent lv ++ 93%N :: rest) eq_refl) as (n1 & E1).
    exists (S (Nat.max n1 n2)). cbn [parse_elems].
    rewrite (parse_value_up n1 _ _ _ _ (Nat.le_max_l _ _) E1). cbn [rbind fst snd].
    rewrite skip_ws_id by reflexivity. chars.
    rewrite skip_ws_newline.
    + rewrite (parse_elems_up n2 _ _ _ _ (Nat.le_max_r _ _) E2). reflexivity.
    + unfold tl. inversion Wl as [|? ? Wy _]; subst. destruct (dump_front y level Wy) as (c & s & Ed & Hc & _).
      rewrite Ed. destruct l; simpl; auto.
Qed.

Lemma members_back l : Forall (fun kv => reads_back (snd kv)) l -> Forall (fun kv => text_ok (fst kv) /\ wf_json (snd kv)) l ->
  l <> [] -> forall level lv rest,
  exists n, parse_members n (join (44%N :: newline_indent level)
                (map (fun kv => enc_string (fst kv) ++ [58; 32]%N ++ dump level (snd kv)) l) ++ newline_indent lv ++ 125%N :: rest)
            = Ok (l, rest).
Proof.
  induction l as [|[k x] l IH]; intros R W NE level lv rest; [congruence|].
  inversion R as [|? ? Rx Rl]; subst. inversion W as [|? ? Wx Wl]; subst. simpl in Rx, Wx. destruct Wx as [Wk Wx].
  destruct (dump_front x level Wx) as (c0 & s0 & Ed & Hc0 & _).
  assert (Key : forall tail, enc_string k ++ [58; 32]%N ++ dump level x ++ tail
                = 34%N :: quoted k (58%N :: 32%N :: dump level x ++ tail)).
  { intro tail. unfold enc_string, quoted. cbn [app]. f_equal. rewrite <- app_assoc. reflexivity. }
  destruct l as [|y l].
  - cbn [map join fst snd]. destruct (Rx Wx level (newline_indent lv ++ 125%N :: rest) (newline_stops _ _)) as (n & E).
    exists (S n). rewrite <- !app_assoc, Key. cbn [parse_members]. chars.
    rewrite scan_quoted by auto. cbn [rbind fst snd]. rewrite skip_ws_id by reflexivity.
    chars. cbn [skip_ws]. chars. rewrite skip_ws_id by (rewrite Ed; simpl; auto).
    rewrite E. cbn [rbind fst snd]. rewrite skip_ws_newline by reflexivity. reflexivity.
  - destruct (IH Rl Wl ltac:(discriminate) level lv rest) as (n2 & E2).
    set (f := fun kv : pystr * json => enc_string (fst kv) ++ [58; 32]%N ++ dump level (snd kv)) in *.
    change (map f ((k, x) :: y :: l)) with (f (k, x) :: map f (y :: l)).
    change (join (44%N :: newline_indent level) (f (k, x) :: map f (y :: l)))
      with (f (k, x) ++ (44%N :: newline_indent level) ++ join (44%N :: newline_indent level) (map f (y :: l))).
    set (tl := join (44%N :: newline_indent level) (map f (y :: l))) in *.
    unfold f at 1. cbn [fst snd]. rewrite <- !app_assoc. rewrite Key. cbn [app].
    destruct (Rx Wx level (44%N :: newline_indent level ++ tl ++ newline_indent lv ++ 125%N :: rest) eq_refl) as (n1 & E1).
    exists (S (Nat.max n1 n2)). cbn [parse_members]. chars.
    rewrite scan_quoted by auto. cbn [rbind fst snd]. rewrite skip_ws_id by reflexivity.
    chars. cbn [skip_ws]. chars. rewrite skip_ws_id by (rewrite Ed; simpl; auto).
    rewrite (parse_value_up n1 _ _ _ _ (Nat.le_max_l _ _) E1). cbn [rbind fst snd].
    rewrite skip_ws_id by reflexivity. chars.
    rewrite skip_ws_newline.
    + rewrite (parse_members_up n2 _ _ _ _ (Nat.le_max_r _ _) E2). reflexivity.
    + unfold tl, f. destruct y as [ky y]. simpl. destruct l; reflexivity.
Qed.

Lemma join_front sep x l : x <> [] -> forall c s, x = c :: s -> exists t, join sep (x :: l) = c :: t.
Proof. intros _ c s ->. destruct l; simpl; eauto. Qed.

Lemma all_read_back v : reads_back v.
Proof.
  induction v as [s|l|n|l IH|l IH] using json_ind'; intros W level rest St.
  - exists 1. cbn [dump parse_value]. unfold enc_string. cbn [app]. chars.
    rewrite <- app_assoc. cbn [app]. fold (quoted s rest). rewrite scan_quoted by exact W. reflexivity.
  - exists 1. cbn [dump]. simpl in W. assert (F := number_front _ _ _ W). destruct F as (c & s' & E & F).
    assert (N := number_ext l rest l [] W St). simpl in N.
    assert (NL := number_not_literal _ _ _ N). rewrite E in *. cbn [app] in *. cbn [parse_value].
    assert (C : (c =? 34)%N = false /\ (c =? 123)%N = false /\ (c =? 91)%N = false).
    { destruct F as [H|[-> _]]; auto. apply digit_range in H.
      destruct (N.eqb_spec c 34), (N.eqb_spec c 123), (N.eqb_spec c 91); auto; lia. }
    destruct C as (-> & -> & ->). rewrite NL, N. auto.
  - exists 1. cbn [dump]. simpl in W. assert (L := literal_read n rest W).
    destruct (literal_front n W) as (c & s' & E & C1 & C2 & C3). rewrite E in L |- *. cbn [app] in L |- *. cbn [parse_value].
    rewrite C1, C2, C3, L. auto.
  - apply wf_arr in W. destruct l as [|x l].
    + exists 1. reflexivity.
    + destruct (elems_back (x :: l) IH W ltac:(discriminate) (S level) level rest) as (n & E).
      exists (S n). cbn [dump]. rewrite <- !app_assoc. cbn [app parse_value]. chars.
      set (body := join (44%N :: newline_indent (S level)) (map (dump (S level)) (x :: l))) in *.
      inversion W as [|? ? Wx _]; subst. destruct (dump_front x (S level) Wx) as (c & s & Ed & Hc & H93 & _).
      assert (B : exists t, body = c :: t) by (unfold body; rewrite map_cons, Ed; eapply join_front; eauto; discriminate).
      destruct B as (t & B). rewrite B in *. rewrite skip_ws_newline by (simpl; auto).
      cbn [app]. rewrite H93. cbn [app] in E. rewrite E. reflexivity.
  - apply wf_obj in W. destruct l as [|[k x] l].
    + exists 1. reflexivity.
    + destruct (members_back ((k, x) :: l) IH W ltac:(discriminate) (S level) level rest) as (n & E).
      exists (S n). cbn [dump]. rewrite <- !app_assoc. cbn [app parse_value]. chars.
      match goal with |- context[join ?sep ?m] => set (body := join sep m) in * end.
      match type of E with context[join ?sep ?m] => change (join sep m) with body in E end.
      assert (B : exists t, body = 34%N :: t).
      { unfold body. cbn [map]. eapply join_front; [|unfold enc_string; cbn [app fst]; reflexivity].
        unfold enc_string; discriminate. }
      destruct B as (t & B). rewrite B in *. rewrite skip_ws_newline by (simpl; auto).
      cbn [app]. chars. cbn [app] in E. rewrite E. reflexivity.
Qed.

Lemma dump_no_bom v level t : wf_json v -> dump level v <> 65279%N :: t.
Proof.
  destruct v as [s|l|n|l|l]; simpl; intros W E.
  - discriminate.
  - apply number_front in W. destruct W as (c & s' & -> & [H|[-> _]]); inversion E; subst. discriminate.
  - repeat (destruct W as [<-|W]; [discriminate|]). destruct W.
  - destruct l; discriminate.
  - destruct l; discriminate.
Qed.

Lemma loads_bom s : (forall t, s <> 65279%N :: t) ->
  loads s = (x <-- parse_value (S (2 * List.length s)) (skip_ws s) ;;;
      match skip_ws (snd x) with [] => Ok (fst x) | _ => Raise JSONDecodeError end).
Proof.
  intro H. unfold loads. destruct s as [|c s]; auto.
  assert (N : c <> 65279%N) by (intro; subst; eapply H; eauto).
  destruct (N.eqb_spec c 65279); [congruence|auto].
Qed.

(** [json.loads(json.dumps(v, indent=1)) == v] *)
Lemma loads_dump v : wf_json v -> loads (dump 0 v) = Ok v.
Proof.
  intro W. rewrite loads_bom by (intro; apply dump_no_bom; auto).
  destruct (all_read_back v W 0 [] I) as (n & E). rewrite app_nil_r in E.
  destruct (dump_front v 0 W) as (c & s & Ed & Hc & _).
  rewrite skip_ws_id by (rewrite Ed; auto).
  assert (F := proj1 (parse_fuel (S (2 * List.length (dump 0 v)))) (dump 0 v) ltac:(lia)).
  destruct (le_dec n (S (2 * List.length (dump 0 v)))) as [L|L].
  - rewrite (parse_value_up _ _ _ _ _ L E). reflexivity.
  - assert (L' : S (2 * List.length (dump 0 v)) <= n) by lia.
    rewrite <- (parse_mono_le _ _ _ L' F), E. reflexivity.
Qed.

(** The decoder only ever raises [JSONDecodeError]. *)
Lemma scan_string_raises s e : scan_string s = Raise e -> e = JSONDecodeError.
Proof.
  assert (H : forall n s e, List.length s <= n -> scan_string s = Raise e -> e = JSONDecodeError).
  { clear s e. induction n as [|n IH]; intros s e L E.
    { destruct s; [inversion E; auto|simpl in L; lia]. }
    assert (Step : forall y s', List.length s' <= n -> pcons y (scan_string s') = Raise e -> e = JSONDecodeError).
    { intros y s' L1 E1. apply (IH s' e L1). unfold pcons in E1. destruct (scan_string s'); [discriminate|]. simpl in E1. congruence. }
    destruct s as [|c s1]; [inversion E; auto|]. simpl in L, E.
    destruct (c =? 34)%N; [discriminate|]. destruct (c <? 32)%N; [inversion E; auto|].
    destruct (c =? 92)%N; [|revert E; apply Step; lia].
    destruct s1 as [|e1 s2]; [inversion E; auto|]. simpl in L.
    destruct (e1 =? 117)%N.
    2:{ destruct (unescape e1); [|inversion E; auto]. revert E; apply Step; lia. }
    destruct s2 as [|h1 [|h2 [|h3 [|h4 s3]]]]; try (inversion E; auto; fail). simpl in L.
    destruct (unhex4 h1 h2 h3 h4) as [u|]; [|inversion E; auto].
    destruct (is_high u); [|revert E; apply Step; lia].
    destruct s3 as [|b [|w s4]]; try (revert E; apply Step; simpl in *; lia).
    destruct ((b =? 92) && (w =? 117))%N; [|revert E; apply Step; simpl in *; lia].
    destruct s4 as [|g1 [|g2 [|g3 [|g4 s5]]]]; try (inversion E; auto; fail). simpl in L.
    destruct (unhex4 g1 g2 g3 g4) as [u2|]; [|inversion E; auto].
    destruct (is_low u2); revert E; apply Step; simpl; lia. }
  eapply H; eauto.
Qed.

Definition decode_err (e : exn) : Prop := e = JSONDecodeError \/ e = OutOfFuel.

Lemma bind_raises {A B} (m : res A) (f : A -> res B) e :
  rbind m f = Raise e -> m = Raise e \/ exists a, m = Ok a /\ f a = Raise e.
Proof. destruct m; simpl; intro H; [right; eauto|left; congruence]. Qed.

Lemma parse_raises n :
  (forall s e, parse_value n s = Raise e -> decode_err e) /\
  (forall s e, parse_elems n s = Raise e -> decode_err e) /\
  (forall s e, parse_members n s = Raise e -> decode_err e).
Proof.
  unfold decode_err.
  induction n as [|n (IHv & IHe & IHm)]; [repeat split; intros s e E; inversion E; auto|]. split; [|split].
  - intros s e E. destruct s as [|c s1]; simpl in E; [inversion E; auto|].
    destruct (c =? 34)%N.
    { apply bind_raises in E. destruct E as [E|(a & _ & E)]; [apply scan_string_raises in E; auto|discriminate]. }
    destruct (c =? 123)%N.
    { destruct (skip_ws s1) as [|d s2]; [inversion E; auto|]. destruct (d =? 125)%N; [discriminate|].
      apply bind_raises in E. destruct E as [E|(a & _ & E)]; [eapply IHm; eauto|discriminate]. }
    destruct (c =? 91)%N.
    { destruct (skip_ws s1) as [|d s2]; [inversion E; auto|]. destruct (d =? 93)%N; [discriminate|].
      apply bind_raises in E. destruct E as [E|(a & _ & E)]; [eapply IHe; eauto|discriminate]. }
    destruct (scan_literal json_literals (c :: s1)) as [(l0, r0)|]; [discriminate|].
    destruct (scan_number (c :: s1)) as [(l0, r0)|]; [discriminate|inversion E; auto].
  - intros s e E. simpl in E. apply bind_raises in E. destruct E as [E|(a & _ & E)]; [eapply IHv; eauto|].
    destruct (skip_ws (snd a)) as [|d s2]; [inversion E; auto|].
    destruct (d =? 93)%N; [discriminate|]. destruct (d =? 44)%N; [|inversion E; auto].
    apply bind_raises in E. destruct E as [E|(b & _ & E)]; [eapply IHe; eauto|discriminate].
  - intros s e E. simpl in E. destruct s as [|c s0]; [inversion E; auto|].
    destruct (c =? 34)%N; [|inversion E; auto].
    apply bind_raises in E. destruct E as [E|(a & _ & E)]; [apply scan_string_raises in E; auto|].
    destruct (skip_ws (snd a)) as [|c1 s2]; [inversion E; auto|]. destruct (c1 =? 58)%N; [|inversion E; auto].
    apply bind_raises in E. destruct E as [E|(b & _ & E)]; [eapply IHv; eauto|].
    destruct (skip_ws (snd b)) as [|d s3]; [inversion E; auto|].
    destruct (d =? 125)%N; [discriminate|]. destruct (d =? 44)%N; [|inversion E; auto].
    apply bind_raises in E. destruct E as [E|(b2 & _ & E)]; [eapply IHm; eauto|discriminate].
Qed.

Lemma loads_raises s e : loads s = Raise e -> e = JSONDecodeError.
Proof.
  intro E. assert (NF := loads_fuel s).
  assert (D : decode_err e).
  { assert (H : (x <-- parse_value (S (2 * List.length s)) (skip_ws s) ;;;
      match skip_ws (snd x) with [] => Ok (fst x) | _ => Raise JSONDecodeError end) = Raise e -> decode_err e).
    { intro H. apply bind_raises in H. destruct H as [H|(a & _ & H)]; [exact (proj1 (parse_raises _) _ _ H)|].
      destruct (skip_ws (snd a)); [discriminate|]. inversion H. left; auto. }
    destruct s as [|c s]; [apply H; exact E|].
    destruct (N.eqb_spec c 65279).
    - subst c. inversion E. left; auto.
    - apply H. rewrite <- loads_bom; auto. intros t Et. congruence. }
  destruct D as [->| ->]; auto. congruence.
Qed.

(** A strict prefix of an encoded object or array is not a JSON document. *)
Lemma torn_fails v p q : wf_json v -> match v with JArr _ | JObj _ => True | _ => False end ->
  dump 0 v = p ++ q -> q <> [] -> loads p = Raise JSONDecodeError.
Proof.
  intros W S E Q.
  assert (NB : forall t, p <> 65279%N :: t).
  { intros t ->. eapply dump_no_bom; eauto. }
  assert (NF := loads_fuel p). destruct (loads p) as [v'|e] eqn:L.
  - exfalso. rewrite loads_bom in L by auto. apply res_bind_Ok in L. destruct L as ((x, r) & E1 & E2). simpl in E2.
    destruct p as [|c p]; [discriminate|].
    assert (Hc : is_ws c = false /\ (c = 91%N \/ c = 123%N)).
    { destruct v as [| | |l|l]; try destruct S; destruct l; simpl in E; inversion E; auto. }
    destruct Hc as [Hw Hc]. rewrite skip_ws_id in E1 by auto.
    assert (Nn : ~ is_num x).
    { cbn [parse_value] in E1. destruct Hc as [-> | ->]; change (91 =? 34)%N with false in E1; change (91 =? 123)%N with false in E1; change (91 =? 91)%N with true in E1; change (123 =? 34)%N with false in E1; change (123 =? 123)%N with true in E1; cbv iota in E1.
      - destruct (skip_ws p) as [|d s2]; [discriminate|]. destruct (d =? 93)%N; [inversion E1; subst; simpl; auto|].
        apply res_bind_Ok in E1. destruct E1 as (y & _ & E1). inversion E1; subst; simpl; auto.
      - destruct (skip_ws p) as [|d s2]; [discriminate|]. destruct (d =? 125)%N; [inversion E1; subst; simpl; auto|].
        apply res_bind_Ok in E1. destruct E1 as (y & _ & E1). inversion E1; subst; simpl; auto. }
    assert (X := proj1 (parse_ext _ q) _ _ _ E1 (or_introl Nn)).
    destruct (all_read_back v W 0 [] I) as (n & E3). rewrite app_nil_r, E in E3.
    set (k := Nat.max n (Datatypes.S (2 * List.length (c :: p)))).
    assert (Y1 := parse_value_up _ _ _ _ k (Nat.le_max_l _ _) E3).
    assert (Y2 := parse_value_up _ _ _ _ k (Nat.le_max_r _ _) X).
    rewrite Y1 in Y2. inversion Y2 as [[Ev Er]]. symmetry in Er. apply app_eq_nil in Er. tauto.
  - rewrite (loads_raises _ _ L). auto.
Qed.
