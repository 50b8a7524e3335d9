(* C100, C101: the items of the sequential map; the members of the object streams *)
From Coq Require Import String ZifyBool ZifyNat.
From Verif Require Import PyBase Model_Filters Model_Objects Model_Docstruct Model_Filestruct Spec_Filestruct Spec_Map Facts_Base Facts_Scan.
Import ListNotations.
Open Scope Z_scope.

Lemma bind_out {A C} (r : res A) (f : A -> res C) c : bind r f = Ok c -> exists a, r = Ok a /\ f a = Ok c.
Proof. destruct r; cbn [bind]; intro E; try discriminate. eauto. Qed.
Lemma headers_fun l n : headers l n -> forall m, headers l m -> n = m.
Proof. induction 1; inversion 1; subst; auto. f_equal; auto. Qed.
Lemma table_pos_length l : forall s n, length (table_pos s n l) = length l.
Proof. induction l as [|[a b|o a g k] l IH]; intros; cbn; auto. Qed.
Lemma table_pos_mid mid : forall s n r, Forall (fun l => ~ is_header l) mid ->
  nth_error (table_pos s n (mid ++ r)) (length mid) = nth_error (table_pos s (n + Z.of_nat (length mid)) r) 0.
Proof.
  induction mid as [|[a b|o a g k] mid IH]; intros s n r H; cbn [app length table_pos nth_error].
  - replace (n + Z.of_nat 0) with n by lia. reflexivity.
  - exfalso. inversion H as [|? ? NH _]. apply NH. red. eauto.
  - inversion H; subst. rewrite IH by auto. replace (n + Z.of_nat (S (length mid))) with (n + 1 + Z.of_nat (length mid)) by lia. reflexivity.
Qed.
Lemma table_pos_at pre n : headers pre n -> forall a b mid off num gen kw post s m, Forall (fun l => ~ is_header l) mid ->
  nth_error (table_pos s m (pre ++ XSub a b :: mid ++ XEnt off num gen kw :: post)) (length pre + S (length mid)) = Some (Some (s + n + 1, Z.of_nat (length mid))).
Proof.
  induction 1; intros; cbn [app length table_pos Nat.add nth_error].
  - rewrite table_pos_mid by auto. cbn [table_pos nth_error]. do 3 f_equal; lia.
  - rewrite IHheaders by auto. do 3 f_equal. lia.
  - rewrite IHheaders by auto. reflexivity.
Qed.
Lemma table_pos_header l : forall s m k a b, nth_error l k = Some (XSub a b) -> nth_error (table_pos s m l) k = Some None.
Proof. induction l as [|[a' b'|o a' g kw] l IH]; intros s m [|k] a b; cbn; intro H; try discriminate; eauto. Qed.

(* the entries of a table follow their header *)
Inductive tabled : option Z -> list xline -> Prop :=
| tb_nil o : tabled o []
| tb_sub o a b l : tabled (Some a) l -> tabled o (XSub a b :: l)
| tb_ent n off gen kw l : tabled (Some (n + 1)) l -> tabled (Some n) (XEnt off n gen kw :: l).
Lemma xref_lines_tabled fuel : forall t o ln l e, xref_lines fuel t o ln = Ok (l, e) -> tabled o l.
Proof.
  induction fuel as [|f IH]; intros t o ln l e; cbn [xref_lines]; [discriminate|].
  destruct ln as [[bl el]|]; [|discriminate]. destruct (sub t bl (S bl)) as [|c [|? ?]]; try (intro H; injection H as <- <-; constructor).
  destruct ((48 <=? c) && (c <=? 57)); [|intro H; injection H as <- <-; constructor].
  destruct (split_ws (strip [32] (sub t bl el))) as [|a [|b [|k [|k' r]]]]; try (intro H; apply (IH _ _ _ _ _ H)).
  - destruct (py_int 10 a); [|discriminate]. destruct (py_int 10 b); [|discriminate]. cbn [of_opt bind].
    destruct (xref_lines f t (Some z) _) as [[l' e']| |] eqn:E; try discriminate. cbn [bind]. intro H; injection H as <- <-. constructor. eapply IH; eauto.
  - destruct (py_int 10 a); [|discriminate]. destruct (py_int 10 b); [|discriminate]. cbn [of_opt bind].
    destruct o as [n|]; [|discriminate].
    destruct (xref_lines f t (Some (n + 1)) _) as [[l' e']| |] eqn:E; try discriminate. cbn [bind]. intro H; injection H as <- <-. constructor. eapply IH; eauto.
Qed.
Lemma tabled_mid mid : forall n off num gen kw post, tabled (Some n) (mid ++ XEnt off num gen kw :: post) -> Forall (fun l => ~ is_header l) mid -> num = n + Z.of_nat (length mid).
Proof.
  induction mid as [|[a b|o a g k] mid IH]; intros n off num gen kw post T H; cbn [app length] in *; inversion T; subst.
  - lia.
  - exfalso. inversion H as [|? ? NH _]. apply NH. red. eauto.
  - inversion H as [|? ? _ HM]; subst. match goal with Q : tabled (Some (_ + 1)) _ |- _ => apply IH in Q; auto; lia end.
Qed.
Lemma tabled_num pre : forall o a b mid off num gen kw post, tabled o (pre ++ XSub a b :: mid ++ XEnt off num gen kw :: post) -> Forall (fun l => ~ is_header l) mid -> num = a + Z.of_nat (length mid).
Proof.
  induction pre as [|x pre IH]; intros o a b mid off num gen kw post T H; cbn [app] in T; inversion T; subst; eauto using tabled_mid.
Qed.
Lemma table_placed ls : tabled None ls -> table_places ls (table_pos (-1) 0 ls).
Proof.
  intro T. split; [apply table_pos_length|]. split; [inversion T; subst; eauto|]. split; [intros; eapply table_pos_header; eauto|].
  intros pre a b mid off num gen kw post n -> M HD. split; [eapply tabled_num; eauto|]. rewrite (table_pos_at _ _ HD) by auto. do 3 f_equal. lia.
Qed.

Lemma xstm_fst l : forall c n, map fst (xstm_pos c n l) = l.
Proof. induction l; intros; cbn; f_equal; auto. Qed.
Lemma xstm_mid l : forall c n mid x p post, xstm_pos c n l = mid ++ (x, p) :: post -> Forall (fun y => xs_sec (fst y) = xs_sec x) mid ->
  c = xs_sec x -> p = (xs_sec x, n + 1 + Z.of_nat (length mid)).
Proof.
  induction l as [|y l IH]; intros c n mid x p post E H C; cbn [xstm_pos] in E; [destruct mid; discriminate|]. destruct mid as [|m mid]; cbn [app] in E.
  - injection E as -> <- _. rewrite C, Z.eqb_refl. f_equal. cbn. lia.
  - injection E as <- E. inversion H; subst. cbn [fst] in *. rewrite H2, Z.eqb_refl in E. apply IH in E; auto. rewrite E. f_equal. cbn [length]. lia.
Qed.
Lemma xstm_from l : forall c n mid x p post, xstm_pos c n l = mid ++ (x, p) :: post -> Forall (fun y => xs_sec (fst y) = xs_sec x) mid ->
  c <> xs_sec x -> p = (xs_sec x, Z.of_nat (length mid)).
Proof.
  intros c n mid x p post E H C. destruct l as [|y l]; cbn [xstm_pos] in E; [destruct mid; discriminate|]. destruct mid as [|m mid]; cbn [app] in E.
  - injection E as -> <- _. replace (xs_sec x =? c) with false by lia. reflexivity.
  - injection E as <- E. inversion H; subst. cbn [fst] in *. rewrite H2 in E. replace (xs_sec x =? c) with false in E by lia. rewrite (xstm_mid _ _ _ _ _ _ _ E) by auto. f_equal. cbn [length]. lia.
Qed.
Lemma xstm_after l : forall c n pre y rest, xstm_pos c n l = pre ++ y :: rest -> exists m l', rest = xstm_pos (xs_sec (fst y)) m l'.
Proof.
  induction l as [|z l IH]; intros c n pre y rest E; cbn [xstm_pos] in E; [destruct pre; discriminate|]. destruct pre; cbn [app] in E.
  - injection E as <- <-. cbn [fst]. eauto.
  - injection E as <- E. eauto.
Qed.
Lemma stream_placed l : Forall (fun x => 0 <= xs_sec x) l -> stream_places (xstm_pos (-1) 0 l).
Proof.
  intros P pre mid x p post E M D.
  assert (X : 0 <= xs_sec x). { rewrite Forall_forall in P. apply P. rewrite <- (xstm_fst l (-1) 0), E, !map_app. apply in_or_app. right. apply in_or_app. right. left. reflexivity. }
  destruct D as [-> | (pre' & y & -> & N)].
  - apply (xstm_from _ _ _ _ _ _ _ E M). lia.
  - rewrite <- app_assoc in E. cbn [app] in E. destruct (xstm_after _ _ _ _ _ _ E) as (m & l' & F). symmetry in F. apply (xstm_from _ _ _ _ _ _ _ F M N).
Qed.
Lemma expand_secs l : forall s r, expand_xref_index_from s l = Ok r -> Forall (fun x => s <= snd x) r.
Proof.
  enough (G : forall k l, (length l <= k)%nat -> forall s r, expand_xref_index_from s l = Ok r -> Forall (fun x => s <= snd x) r) by (intros; eapply G; eauto).
  induction k as [|k IH]; intros l' L s r E.
  - destruct l'; cbn in L; [|lia]. injection E as <-. constructor.
  - destruct l' as [|o [|n l']]; cbn [expand_xref_index_from] in E; [injection E as <-; constructor|discriminate|].
    destruct (expand_xref_index_from (s + 1) l') as [tl| |] eqn:F; try discriminate. cbn [bind] in E. injection E as <-. constructor; [cbn; lia|]. apply Forall_app. split.
    + apply Forall_forall. intros x I. apply in_map_iff in I as (y & <- & _). cbn. lia.
    + apply IH in F; [|cbn in L; lia]. eapply Forall_impl; [|exact F]. cbn. lia.
Qed.
Lemma xs_secs cols nums : forall s l, xs_loop cols nums s = Ok l -> Forall (fun x => 0 <= snd x) nums -> Forall (fun x => 0 <= xs_sec x) l.
Proof.
  induction nums as [|[num sec] nums IH]; intros s l E N; cbn [xs_loop] in E.
  - destruct s; [injection E as <-; constructor|discriminate].
  - destruct s; [injection E as <-; constructor|]. inversion N; subst. destruct (xs_cols cols (z :: s)) as [[ps ppr] s']. destruct ps as [|p0 pr]; [discriminate|].
    destruct ((p0 =? 0) || (p0 =? 1) || (p0 =? 2)); [|eapply IH; eauto]. destruct pr as [|p1 [|p2 pr]]; try discriminate.
    destruct (xs_loop cols nums s') as [tl| |] eqn:F; try discriminate. cbn [bind] in E. specialize (IH _ _ F H2).
    destruct (p0 =? 0); [|destruct (p0 =? 1)]; injection E as <-; constructor; auto.
Qed.
Lemma raw_secs d s l : parse_xref_stream_raw d s = Ok l -> Forall (fun x => 0 <= xs_sec x) l.
Proof.
  unfold parse_xref_stream_raw. intro E. apply bind_out in E as (w & _ & E). apply bind_out in E as (cols & _ & E). apply bind_out in E as (rng & _ & E). apply bind_out in E as (nums & N & E). apply bind_out in E as (s' & _ & E). destruct (forallb (fun c => 0 <=? c) cols); [|discriminate].
  eapply xs_secs; [exact E|]. eapply expand_secs. unfold expand_xref_index in *. eassumption.
Qed.

Section WithZlib.
Context {ZL : Zlib}.

Lemma type_is_spec v d : type_is v d = true <-> dget K_Type d = Some (PStr v).
Proof.
  unfold type_is. destruct (dget K_Type d) as [[]|]; split; intro H; try discriminate.
  - apply beqb_eq in H. subst. reflexivity.
  - injection H as ->. apply beqb_refl.
Qed.
Lemma emb_length b es : forall j, length (emb_items b j es) = length es.
Proof. induction es; intros; cbn; auto. Qed.
Lemma emb_nth b es : forall j k e, nth_error es k = Some e -> nth_error (emb_items b j es) k = Some (ItEmb b (j + k) e).
Proof. induction es as [|x es IH]; intros j [|k] e H; cbn in *; try discriminate. - injection H as ->. do 2 f_equal. lia. - rewrite (IH _ _ _ H). do 2 f_equal. lia. Qed.
Lemma region_mapped r its : (forall x, r = RXref x -> tabled None (xt_lines x)) -> region_items r = Ok its -> mapped r its.
Proof.
  intros T E. unfold region_items in E. destruct r as [b e|b e|b e v|o|x]; try (injection E as <-; apply mp_plain; [intros; discriminate|intros; discriminate]).
  - destruct (i_obj o) as [| | | | | | | | |d stream encoded] eqn:O; try (injection E as <-; apply mp_plain; [intros; discriminate|intros o' d' s' [= <-]; split; intros (zz & Z1 & _); rewrite O in Z1; discriminate]).
    destruct (type_is V_XRef d) eqn:TX.
    + apply bind_out in E as (tab & P & E). injection E as <-. eapply mp_xref; [exists encoded; split; [exact O|apply type_is_spec, TX]|exact P|apply xstm_fst|apply stream_placed; eapply raw_secs; eauto].
    + destruct (type_is V_ObjStm d) eqn:TO.
      * apply bind_out in E as (es & P & E). assert (ty : typed o V_ObjStm d stream) by (exists encoded; split; [exact O|apply type_is_spec, TO]).
        destruct es as [|x es]; [injection E as <-; eapply (mp_objstm o d stream []); eauto; intros [|] ? [=]|]. destruct (i_beg o) as [bo|] eqn:BO; [|discriminate]. injection E as <-.
        change (ItReg (RInd o) [] :: ItEmb bo 0 x :: emb_items bo 1 es) with (ItReg (RInd o) [] :: emb_items bo 0 (x :: es)).
        eapply mp_objstm; eauto; [apply emb_length|]. intros j e H. exists bo. split; auto. apply (emb_nth _ _ 0%nat). exact H.
      * injection E as <-. apply mp_plain; [intros; discriminate|]. intros o' d' s' [= <-]. split; intros (zz & Z1 & K); rewrite O in Z1; injection Z1 as <- <- <-; apply type_is_spec in K; congruence.
  - injection E as <-. constructor. apply table_placed. auto.
Qed.
Lemma region_tabled t i x : parse_region t i = Ok (Some (RXref x)) -> tabled None (xt_lines x).
Proof.
  unfold parse_region. destruct (next_token t i) as [[bl el] typ]. destruct (Nat.eqb bl i); cbn [negb]; [|discriminate]. destruct typ as [ty|]; [|discriminate].
  destruct (beqb _ [37]); [discriminate|]. destruct (beqb _ W_startxref). { destruct (next_token t bl) as [[? j1] ?]. destruct (next_token t j1) as [[? j2] ?]. discriminate. }
  destruct (tok_is (Some ty) TInteger).
  { destruct (next_token t bl) as [[? j1] ?]. destruct (next_token t j1) as [[? j2] ?]. destruct (next_token t j2) as [[i3 j3] t3]. destruct (_ && _); [|discriminate]. destruct (parse_indirect_obj t bl); discriminate. }
  intro E.
  assert (X : exists p, parse_xref_table_raw t p = Ok (Some x)).
  { repeat match type of E with
    | (if ?c then _ else _) = _ => destruct c; try discriminate
    | bind ?r _ = _ => let Q := fresh in destruct r as [[?|]| |] eqn:Q; cbn [bind option_map] in E; try discriminate
    end; injection E as <-; eauto. }
  destruct X as (p & X). unfold parse_xref_table_raw in X. destruct (negb _); [discriminate|]. apply bind_out in X as ((l & el') & L & X).
  destruct (next_token t el') as [[? ?] ?]. apply bind_out in X as (tr & _ & X). injection X as <-. eapply xref_lines_tabled. exact L.
Qed.
Lemma map_loop_mapped fuel : forall t len i m, map_loop fuel t len i = Ok m -> exists lss, m = concat lss /\ Forall2 mapped (regions m) lss.
Proof.
  induction fuel as [|f IH]; intros t len i m E; cbn [map_loop] in E; [discriminate|]. destruct (Z.of_nat i <? len).
  2: { injection E as <-. exists []. split; constructor. }
  apply bind_out in E as (mo & PR & E). destruct mo as [r|]; [|injection E as <-; exists []; split; constructor].
  apply bind_out in E as (its & RI & E). apply bind_out in E as (tl & ML & E). injection E as <-. destruct (IH _ _ _ _ ML) as (lss & -> & F).
  exists (its :: lss). split; [reflexivity|]. unfold regions in *. rewrite flat_map_app. fold (regions its). rewrite (region_items_regions _ _ RI). cbn [app]. constructor; auto.
  apply region_mapped; auto. intros x ->. eapply region_tabled; eauto.
Qed.
Theorem object_map_items p m : file_object_map p = Ok m -> exists lss, m = concat lss /\ Forall2 mapped (regions m) lss.
Proof. unfold file_object_map. intro E. apply bind_out in E as (((t & a) & n) & _ & E). eapply map_loop_mapped; eauto. Qed.
End WithZlib.

(* C101 *)
Lemma env_pairs_spec row : forall k l, env_pairs (Z.of_nat k) row = Ok l ->
  (forall z i, In (z, i) l <-> exists j e, nth_error row j = Some (SDict e) /\ i = Z.of_nat (k + j) /\ n_env e = Some z /\ z <> 0) /\
  (forall p q z i z' i', l = p ++ (z, i) :: q -> In (z', i') q -> i < i').
Proof.
  induction row as [|s row IH]; intros k l E; cbn [env_pairs] in E.
  - injection E as <-. split; [|intros [|] ? ? ? ? ? [=]]. intros z i. split; [intros []|intros (j & e & N & _); destruct j; discriminate].
  - apply bind_out in E as (e & C & E). apply bind_out in E as (t & T & E). destruct s as [|x|]; cbn [cell_env] in C; try discriminate. injection C as <-.
    replace (Z.of_nat k + 1) with (Z.of_nat (S k)) in T by lia. destruct (IH _ _ T) as (M & A).
    assert (Sh : forall z i, (exists j e, nth_error row j = Some (SDict e) /\ i = Z.of_nat (S k + j) /\ n_env e = Some z /\ z <> 0) <-> exists j e, nth_error (SDict x :: row) (S j) = Some (SDict e) /\ i = Z.of_nat (k + S j) /\ n_env e = Some z /\ z <> 0).
    { intros z i. split; intros (j & e & N & I & Q); exists j, e; (split; [exact N|split; [lia|exact Q]]). }
    assert (Skip : (forall z, n_env x = Some z -> z = 0) -> t = l -> (forall z i, In (z, i) l <-> exists j e, nth_error (SDict x :: row) j = Some (SDict e) /\ i = Z.of_nat (k + j) /\ n_env e = Some z /\ z <> 0) /\
       (forall p q z i z' i', l = p ++ (z, i) :: q -> In (z', i') q -> i < i')).
    { intros Z0 <-. split; [|exact A]. intros z i. rewrite M, Sh. split.
      - intros (j & Q). exists (S j). exact Q.
      - intros ([|j] & e & N & I & V & NZ); [cbn in N; injection N as <-; apply Z0 in V; contradiction|]. exists j, e. auto. }
    destruct (n_env x) as [z0|] eqn:NE; [destruct (z0 =? 0) eqn:ZZ|]; injection E as E; [apply Skip; auto; intros z [= <-]; lia| |apply Skip; auto; discriminate].
    subst l. split.
    + intros z i. cbn [In]. rewrite M, Sh. split.
      * intros [[= <- <-]|(j & Q)]; [exists O, x; repeat split; auto; lia|exists (S j); exact Q].
      * intros ([|j] & e & N & I & V & NZ); [left; cbn in N; injection N as <-; rewrite NE in V; injection V as <-; f_equal; lia|right; exists j, e; auto].
    + intros [|y p] q z i z' i' L I; cbn [app] in L.
      * injection L as <- <- <-. apply M in I as (j & e & _ & -> & _). lia.
      * injection L as _ L. eapply A; eauto.
Qed.
Definition of_env (z : Z) (l : list (Z * Z)) : list Z := map snd (filter (fun x => fst x =? z) l).
Lemma group_env_in l : forall z is, In (z, is) (group_env l) <-> is = of_env z l /\ is <> [].
Proof.
  induction l as [|[z0 i] l IH]; intros z is; cbn [group_env].
  - split; [intros []|intros [-> H]; destruct H; reflexivity].
  - cbn [In]. rewrite filter_In, IH. cbn [fst]. unfold of_env in *. cbn [filter fst]. destruct (z0 =? z) eqn:Q.
    + assert (z0 = z) by lia. subst z0. rewrite Z.eqb_refl. cbn [negb]. cbn [map snd]. split.
      * intros [[= <-]|[_ ?]]; [split; congruence|discriminate].
      * intros [-> _]. left. reflexivity.
    + replace (z =? z0) with false by lia. cbn [negb]. split; [intros [[= -> _]|[H _]]; [lia|exact H]|intro H; right; auto].
Qed.
Lemma group_env_nodup l : NoDup (map fst (group_env l)).
Proof.
  assert (F : forall (q : Z * list Z -> bool) g, NoDup (map fst g) -> NoDup (map fst (filter q g))).
  { intros q g. induction g as [|x g IH]; cbn [filter map]; intro H; [constructor|]. inversion H; subst. destruct (q x); auto. cbn [map]. constructor; auto.
    intro I. apply H2. apply in_map_iff in I as (y & <- & I). apply filter_In in I as [I _]. apply in_map. exact I. }
  induction l as [|[z i] l IH]; cbn [group_env map fst]; constructor; auto.
  intro I. apply in_map_iff in I as (y & E & I). apply filter_In in I as [_ I]. rewrite E, Z.eqb_refl in I. discriminate.
Qed.
Lemma of_env_ascending l z : (forall p q y i y' i', l = p ++ (y, i) :: q -> In (y', i') q -> i < i') -> ascending_list (of_env z l).
Proof.
  unfold of_env. induction l as [|[y i] l IH]; intros A a b u v L U V.
  - destruct a; discriminate.
  - assert (A' : forall p q y i y' i', l = p ++ (y, i) :: q -> In (y', i') q -> i < i') by (intros p q y1 i1 y2 i2 -> I; eapply (A ((y, i) :: p)); [reflexivity|exact I]).
    cbn [filter fst] in U, V. destruct (y =? z); [|eapply IH; eauto]. cbn [map snd] in U, V. destruct a as [|a]; destruct b as [|b]; try lia.
    + cbn in U, V. injection U as <-. apply nth_error_In in V. apply in_map_iff in V as ([y' i'] & <- & I). apply filter_In in I as [I _]. apply (A [] l y i y' i' eq_refl I).
    + cbn in U, V. apply (IH A' a b u v); auto. lia.
Qed.
Theorem envelopes_ok d row : last_row d = Ok row -> (forall s, In s row -> exists e, s = SDict e) ->
  exists m, envelopes d = Ok m /\ NoDup (map fst m) /\
    (forall z l, In (z, l) m -> l <> [] /\ ascending_list l /\ forall i, In i l <-> member row z i) /\
    (forall z i, member row z i -> exists l, In (z, l) m).
Proof.
  intros R D. unfold envelopes. rewrite R. cbn [bind].
  assert (X : forall row k, (forall s, In s row -> exists e, s = SDict e) -> exists l, env_pairs k row = Ok l).
  { clear. induction row as [|s row IH]; intros k D; [eexists; reflexivity|]. cbn [env_pairs]. destruct (D s (or_introl eq_refl)) as (e & ->). cbn [cell_env bind].
    destruct (IH (k + 1)) as (l & ->); [intros; apply D; right; auto|]. cbn [bind]. eexists. reflexivity. }
  destruct (X row 0 D) as (l & E). rewrite E. cbn [bind]. destruct (env_pairs_spec row 0 l E) as (M & A). exists (group_env l). split; [reflexivity|]. split; [apply group_env_nodup|].
  assert (Q : forall z i, In i (of_env z l) <-> member row z i).
  { intros z i. unfold of_env, member. split.
    - intro I. apply in_map_iff in I as ([y i'] & <- & I). apply filter_In in I as [I F]. cbn [fst snd] in *. assert (y = z) by lia. subst y. apply M in I as (j & e & N & -> & V). exists j, e. auto.
    - intros (j & e & N & -> & V). apply in_map_iff. exists (z, Z.of_nat j). split; [reflexivity|]. apply filter_In. split; [|cbn; lia]. apply M. exists j, e. auto. }
  split.
  - intros z is I. apply group_env_in in I as [-> NE]. split; auto. split; [apply of_env_ascending; exact A|apply Q].
  - intros z i I. apply Q in I. exists (of_env z l). apply group_env_in. split; auto. intro Z. rewrite Z in I. destruct I.
Qed.
