(* Sequential scan, checks and index (C50-C52, C57, C58) *)
From Coq Require Import String ZifyBool ZifyNat Sorted Permutation.
From Verif Require Import PyBase Model_Filters Model_Objects Model_Filestruct Spec_Objects Spec_Filestruct
  Facts_Base Facts_Token Facts_Obj Facts_Ser Facts_Parse Facts_Top Facts_Prov Facts_Revision.

(* ---------- the scan ---------- *)
Lemma nline_some i cur c : match nline (Some i) cur c with
  | Some (a, b) => a = i /\ (cur <= b < cur + length c)%nat
  | None => Forall (fun c => c <> 10 /\ c <> 13) c
  end.
Proof.
  revert cur. induction c as [|x c IH]; intros cur; cbn [nline]; auto.
  destruct (inb x EOL) eqn:E.
  - split; auto. cbn [length]. lia.
  - specialize (IH (S cur)). destruct (nline (Some i) (S cur) c) as [[a b]|].
    + destruct IH. split; auto. cbn [length]. lia.
    + constructor; auto. cbn in E. lia.
Qed.

Lemma next_line_bounds t i a b : next_line t i = Some (a, b) -> (i <= a < b)%nat /\ (b < length t)%nat.
Proof.
  unfold next_line. intros E. assert (G : forall c cur, nline None cur c = Some (a, b) -> (cur <= a < b)%nat /\ (b < cur + length c)%nat).
  { clear. induction c as [|x c IH]; intros cur; cbn [nline]; [discriminate|]. destruct (inb x EOL).
    - intros H. apply IH in H. cbn [length]. lia.
    - intros H. pose proof (nline_some cur (S cur) c) as N. rewrite H in N. cbn [length]. lia. }
  apply G in E. rewrite skipn_length in E. lia.
Qed.

Lemma skipn_nth (t : bytes) i : (i < length t)%nat -> skipn i t = nth i t 0 :: skipn (S i) t.
Proof.
  revert i. induction t as [|c t IH]; intros i L; [cbn in L; lia|]. destruct i; auto. cbn [skipn nth]. rewrite IH by (cbn [length] in L; lia). reflexivity.
Qed.

Lemma tbd_start rest : forall n tia h cur i h' j k, (h <= i)%nat -> ntok STbd n tia h cur i rest = (h', j, Some k) -> (i <= h')%nat.
Proof.
  induction rest as [|c r IH]; intros n tia h cur i h' j k L E; cbn [ntok] in E; [discriminate|].
  destruct (c =? 93); [discriminate|].
  match type of E with (if ?b then _ else _) = _ => destruct b; [discriminate|] end.
  match type of E with ntok ?s _ _ _ _ _ _ = _ => remember s as se eqn:ES end.
  destruct (match se with STbd => true | _ => false end) eqn:T.
  - destruct se; try discriminate. apply IH in E; lia.
  - apply ntok_bounds in E; [|lia|intros; lia]. destruct E as (_ & _ & _ & E & _). rewrite E; [lia|]. intros ->. discriminate.
Qed.

(* a token that begins at the position asked does not begin with a line end *)
Lemma token_not_eol t i j k : (i < length t)%nat -> next_token t i = (i, j, Some k) -> inb (nth i t 0) EOL = false.
Proof.
  intros L E. unfold next_token in E. rewrite (skipn_nth t i L) in E. set (c := nth i t 0) in *.
  destruct (inb c EOL) eqn:EO; auto. exfalso.
  assert (C : c = 10 \/ c = 13) by (cbn in EO; lia).
  destruct C as [C|C]; rewrite C in E; cbn [ntok] in E;
    match type of E with context [if ?b then _ else _] => replace b with false in E by reflexivity end;
    match type of E with context [if ?b then _ else _] => replace b with false in E by reflexivity end.
  all: match type of E with ntok ?s _ _ _ _ _ _ = _ => replace s with STbd in E by reflexivity end.
  all: apply tbd_start in E; lia.
Qed.

Lemma ind_beg t i j k : (i < length t)%nat -> next_token t i = (i, j, Some k) ->
  match next_line t i with Some (a, _) => a = i | None => Forall (fun c => c <> 10 /\ c <> 13) (skipn i t) end.
Proof.
  intros L E. pose proof (token_not_eol _ _ _ _ L E) as NE. unfold next_line. rewrite (skipn_nth t i L). cbn [nline]. rewrite NE.
  pose proof (nline_some i (S i) (skipn (S i) t)) as N. destruct (nline (Some i) (S i) (skipn (S i) t)) as [[a b]|]; [lia|].
  constructor; auto. cbn in NE. lia.
Qed.

Section WithZlib.
Context {ZL : Zlib}.

Lemma xref_lines_bounds fuel : forall t o ln l e s, xref_lines fuel t o ln = Ok (l, e) ->
  (forall a b, ln = Some (a, b) -> (s <= b < length t)%nat) -> (s <= e <= length t)%nat.
Proof.
  induction fuel as [|f IH]; intros t o ln l e s E BD; cbn [xref_lines] in E; [discriminate|].
  destruct ln as [[bl el]|]; [|discriminate]. specialize (BD _ _ eq_refl) as BE.
  assert (BN : forall a b, next_line t el = Some (a, b) -> (s <= b < length t)%nat).
  { intros a b N. apply next_line_bounds in N. lia. }
  destruct (sub t bl (S bl)) as [|c [|? ?]]; try (inversion E; subst; lia).
  destruct ((48 <=? c) && (c <=? 57)); [|inversion E; subst; lia].
  destruct (split_ws _) as [|a [|b [|k [|? ?]]]]; try (eapply IH; eauto; fail).
  - destruct (py_int 10 a); [|discriminate]. cbn [of_opt bind] in E. destruct (py_int 10 b); [|discriminate]. cbn [of_opt bind] in E.
    destruct (xref_lines f t _ _) as [[l1 e1]| |] eqn:EX; try discriminate. cbn [bind] in E. inversion E; subst. eapply IH; eauto.
  - destruct (py_int 10 a); [|discriminate]. cbn [of_opt bind] in E. destruct (py_int 10 b); [|discriminate]. cbn [of_opt bind] in E.
    destruct o as [n|]; [|discriminate].
    destruct (xref_lines f t _ _) as [[l1 e1]| |] eqn:EX; try discriminate. cbn [bind] in E. inversion E; subst. eapply IH; eauto.
Qed.

Lemma region_tile t i r : (i < length t)%nat -> parse_region t i = Ok (Some r) ->
  begins t r i /\ (i <= reg_end r <= length t)%nat /\ (nth i t 0 <> 93 -> (i < reg_end r)%nat).
Proof.
  intros L E. unfold parse_region in E. destruct (next_token t i) as [[bl el] typ] eqn:T.
  pose proof (next_token_bounds _ _ _ _ _ (Nat.lt_le_incl _ _ L) T) as (B1 & B2 & B3 & B4).
  assert (PR : nth i t 0 <> 93 -> (i < el)%nat) by (intros N; eapply next_token_progress; eauto).
  destruct (Nat.eqb bl i) eqn:EB; cbn [negb] in E.
  2: { injection E as <-. cbn. split; [left; reflexivity|]. apply Nat.eqb_neq in EB. lia. }
  apply Nat.eqb_eq in EB. subst bl.
  destruct typ as [ty|].
  2: { injection E as <-. cbn. split; [left; reflexivity|]. split; auto. }
  destruct (beqb (sub t i (i + 1)) [37]).
  { injection E as <-. cbn. split; [left; reflexivity|]. split; auto. }
  assert (EL : (i < el)%nat) by (apply B4; discriminate).
  destruct (beqb (sub t i (i + 9)) W_startxref).
  { rewrite T in E. destruct (next_token t el) as [[i2 j2] k2] eqn:T2.
    pose proof (next_token_bounds _ _ _ _ _ B3 T2) as (C1 & C2 & C3 & _).
    injection E as <-. cbn. split; [left; reflexivity|]. lia. }
  destruct (tok_is (Some ty) TInteger).
  - rewrite T in E. destruct (next_token t el) as [[i2 j2] k2] eqn:T2.
    pose proof (next_token_bounds _ _ _ _ _ B3 T2) as (C1 & C2 & C3 & _).
    destruct (next_token t j2) as [[i3 j3] k3] eqn:T3.
    pose proof (next_token_bounds _ _ _ _ _ C3 T3) as (D1 & D2 & D3 & _).
    destruct (tok_is k3 TKeyword && beqb (sub t i3 j3) W_obj); [|discriminate].
    destruct (parse_indirect_obj t i) as [o| |] eqn:PO; try discriminate. cbn [bind] in E. injection E as <-.
    unfold parse_indirect_obj in PO. rewrite T, T2 in PO.
    destruct (py_int 10 (sub t i el)); [|discriminate]. cbn [of_opt bind] in PO.
    destruct (py_int 10 (sub t i2 j2)); [|discriminate]. cbn [of_opt bind] in PO. rewrite T3 in PO.
    destruct (next_token t j3) as [[i4 j4] k4] eqn:T4.
    pose proof (next_token_bounds _ _ _ _ _ D3 T4) as (G1 & G2 & G3 & _).
    destruct (parse_obj t i4); try discriminate. cbn [bind] in PO.
    destruct (next_token t j4) as [[i5 j5] k5] eqn:T5.
    pose proof (next_token_bounds _ _ _ _ _ G3 T5) as (H1 & H2 & H3 & _).
    assert (J : exists j6, o = mk_ind (match next_line t i with Some (bl, _) => Some bl | None => None end) j6 z z0 a /\ (j5 <= j6 <= length t)%nat).
    { destruct (next_token t j5) as [[i6 j6] k6] eqn:T6.
      pose proof (next_token_bounds _ _ _ _ _ H3 T6) as (K1 & K2 & K3 & _).
      destruct k5 as [[]|]; injection PO as <-; eexists; (split; [reflexivity|lia]). }
    destruct J as (j6 & -> & J). cbn [reg_end i_end]. split; [|lia].
    pose proof (ind_beg _ _ _ _ L T) as IB. unfold begins. cbn [reg_beg i_beg].
    destruct (next_line t i) as [[a' b']|]; [subst; auto|]. right. eexists. split; [reflexivity|]. auto.
  - destruct (beqb (sub t (el - 4) el) W_xref); [|discriminate].
    unfold parse_xref_table_raw in E. destruct (beqb (sub t i (i + 4)) W_xref) eqn:EX; cbn [negb] in E; [|discriminate].
    destruct (xref_lines (S (length t)) t None (next_line t (i + 4))) as [[l e]| |] eqn:XL; try discriminate. cbn [bind] in E.
    assert (BE : (i + 4 <= e <= length t)%nat).
    { eapply xref_lines_bounds; [exact XL|]. intros a b N. apply next_line_bounds in N. lia. }
    destruct (next_token t e) as [[i5 j5] k5] eqn:T5.
    pose proof (next_token_bounds _ _ _ _ _ (proj2 BE) T5) as (H1 & H2 & H3 & _).
    destruct (parse_obj t i5); try discriminate. cbn [bind option_map] in E. injection E as <-.
    cbn. split; [left; reflexivity|]. lia.
Qed.

Lemma region_items_regions r its : region_items r = Ok its -> regions its = [r].
Proof.
  assert (EM : forall bo es j, regions (emb_items bo j es) = []).
  { intros bo es. induction es; intros j; auto. cbn. apply IHes. }
  unfold region_items. intros E. destruct r as [b e|b e|b e v|o|x]; try (injection E as <-; reflexivity).
  destruct (i_obj o); try (injection E as <-; reflexivity).
  destruct (type_is V_XRef _).
  - destruct (parse_xref_stream_raw _ _); try discriminate. cbn [bind] in E. injection E as <-. reflexivity.
  - destruct (type_is V_ObjStm _); [|injection E as <-; reflexivity].
    destruct (parse_object_stream _ _ _) as [es| |]; try discriminate. cbn [bind] in E.
    destruct es; [injection E as <-; reflexivity|]. destruct (i_beg o); [|discriminate].
    injection E as <-. cbn. f_equal. apply EM.
Qed.

Lemma map_loop_stuck fuel : forall t len i, (i < length t)%nat -> Z.of_nat i < len -> nth i t 0 = 93 -> map_loop fuel t len i = Loop.
Proof.
  induction fuel as [|f IH]; intros t len i L LZ N; auto. cbn [map_loop]. replace (Z.of_nat i <? len) with true by lia.
  unfold parse_region. rewrite next_token_stuck by auto. rewrite Nat.eqb_refl. cbn [negb bind region_items reg_end].
  rewrite IH by auto. reflexivity.
Qed.

Lemma map_loop_tiling fuel : forall t i m, (i <= length t)%nat -> map_loop fuel t (blen t) i = Ok m ->
  exists j, tiling t i (regions m) j /\ (j = length t \/ ((j < length t)%nat /\ parse_region t j = Ok None)).
Proof.
  induction fuel as [|f IH]; intros t i m L E; cbn [map_loop] in E; [discriminate|].
  destruct (Z.of_nat i <? blen t) eqn:LT; unfold blen in LT.
  2: { injection E as <-. exists i. split; [constructor|]. left. lia. }
  destruct (parse_region t i) as [[r|]| |] eqn:PR; try discriminate; cbn [bind] in E.
  2: { injection E as <-. exists i. split; [constructor|]. right. split; auto. lia. }
  destruct (region_items r) as [its| |] eqn:RI; try discriminate. cbn [bind] in E.
  destruct (map_loop f t (blen t) (reg_end r)) as [tl| |] eqn:ML; try discriminate. cbn [bind] in E. injection E as <-.
  destruct (region_tile t i r ltac:(lia) PR) as (RB & RE & RP).
  destruct (IH _ _ _ (proj2 RE) ML) as (j & TL & JE). exists j. split; auto.
  unfold regions. rewrite flat_map_app. fold (regions its) (regions tl). rewrite (region_items_regions _ _ RI). cbn [app].
  constructor; auto. split; [|lia]. apply RP. intros N.
  assert (i = reg_end r).
  { unfold parse_region in PR. rewrite next_token_stuck in PR by (auto; lia). rewrite Nat.eqb_refl in PR. cbn [negb] in PR. injection PR as <-. reflexivity. }
  rewrite <- H in ML. rewrite map_loop_stuck in ML; auto; try discriminate; unfold blen; lia.
Qed.

(* C50 *)
Theorem object_map_tiles f m : f <> [] -> file_object_map (PvSingle f) = Ok m ->
  exists j, tiling f 0 (regions m) j /\ (j = length f \/ ((j < length f)%nat /\ parse_region f j = Ok None)).
Proof.
  intros NE E. unfold file_object_map, read_at in E. cbn [run_prov] in E.
  assert (LB : blen f <> 0) by (unfold blen; destruct f; [congruence|cbn [length]; lia]).
  replace (blen f =? 0) with false in E by lia.
  replace ((0 + blen f) mod blen f) with 0 in E by (rewrite Z.add_0_l, Z.mod_same; auto).
  change (-1 =? -1) with true in E. cbn [bind] in E. change (0 <? 0) with false in E. cbn [bind] in E. rewrite Z.sub_0_r in E.
  apply map_loop_tiling in E; auto. lia.
Qed.

Theorem object_map_stuck a b : parse_region (a ++ 93 :: b) (length a) <> Ok None ->
  forall fuel, map_loop fuel (a ++ 93 :: b) (blen (a ++ 93 :: b)) (length a) = Loop.
Proof.
  intros _ fuel. apply map_loop_stuck; unfold blen; rewrite ?app_length; cbn [length]; try lia.
  rewrite app_nth2, Nat.sub_diag by lia. reflexivity.
Qed.

End WithZlib.

(* ---------- checks ---------- *)
Lemma apos_eqb_iff a b : apos_eqb a b = true <-> a = b.
Proof.
  destruct a, b; cbn; split; intros H; try discriminate; try (inversion H; subst);
    rewrite ?andb_true_iff, ?Z.eqb_eq in *; try (destruct H); subst; auto; f_equal; lia.
Qed.
Lemma okey_eqb_iff a b : okey_eqb a b = true <-> a = b.
Proof.
  destruct a, b; cbn; split; intros H; try discriminate.
  - rewrite !andb_true_iff, !Z.eqb_eq, apos_eqb_iff in H. destruct H as [[-> ->] ->]. auto.
  - inversion H; subst. rewrite !andb_true_iff, !Z.eqb_eq, apos_eqb_iff. auto.
  - rewrite !andb_true_iff, !Z.eqb_eq in H. destruct H as [[-> ->] ->]. auto.
  - inversion H; subst. rewrite !andb_true_iff, !Z.eqb_eq. auto.
Qed.
Lemma okey_in_iff k l : okey_in k l = true <-> In k l.
Proof.
  unfold okey_in. rewrite existsb_exists. split.
  - intros (x & I & E). apply okey_eqb_iff in E. subst. auto.
  - intros I. exists k. split; auto. apply okey_eqb_iff. auto.
Qed.

Lemma map_res_In {A C} (f : A -> res C) l : forall r, map_res f l = Ok r ->
  (forall y, In y r <-> exists x, In x l /\ f x = Ok y).
Proof.
  induction l as [|x l IH]; intros r E; cbn [map_res] in E.
  - inversion E. cbn. split; [tauto|]. intros (? & [] & _).
  - destruct (f x) as [y0| |] eqn:EX; try discriminate. cbn [bind] in E. destruct (map_res f l) as [tl| |]; try discriminate.
    cbn [bind] in E. inversion E; subst. intros y. cbn [In]. rewrite (IH _ eq_refl). split.
    + intros [->|(x' & I & H)]; [exists x; auto|exists x'; auto].
    + intros (x' & [->|I] & H); [left; congruence|right; eauto].
Qed.

Lemma item_key_at x l : item_key x = Ok l -> forall k, In k l <-> object_at x k.
Proof.
  intros E k. destruct x as [r rp|bo d tab|bo j e]; cbn [item_key] in E.
  - destruct r as [b e|b e|b e v|o|xt]; try (inversion E; subst; split; [intros []|intros H; inversion H]; fail).
    destruct (i_beg o) as [b|] eqn:EB; inversion E; subst; split; intros H.
    + destruct H as [<-|[]]. constructor; auto.
    + inversion H; subst. left. congruence.
    + destruct H.
    + inversion H; subst. congruence.
  - inversion E; subst. split; [intros []|intros H; inversion H].
  - destruct (e_num e) as [| |n| | | | | | |] eqn:EN; inversion E; subst. split; intros H.
    + destruct H as [<-|[]]. constructor; auto.
    + inversion H; subst. left. congruence.
Qed.

Lemma map_keys_at m l : map_keys m = Ok l -> forall k, In k l <-> exists x, In x m /\ object_at x k.
Proof.
  unfold map_keys. destruct (map_res item_key m) as [ks| |] eqn:E; try discriminate. cbn [bind]. intros H. inversion H; subst.
  intros k. rewrite in_concat. pose proof (map_res_In _ _ _ E) as M. split.
  - intros (ys & I & J). apply M in I as (x & I & EK). exists x. split; auto. apply (item_key_at _ _ EK). auto.
  - intros (x & I & O). assert (D : exists ks', item_key x = Ok ks').
    { clear -E I. revert ks E. induction m as [|y m IH]; intros ks E; [destruct I|]. cbn [map_res] in E.
      destruct (item_key y) as [ky| |] eqn:EY; try discriminate. cbn [bind] in E. destruct (map_res item_key m); try discriminate.
      destruct I as [->|I]; eauto. }
    destruct D as (ks' & EK). exists ks'. split; [apply M; eauto|]. apply (item_key_at _ _ EK). auto.
Qed.

Lemma entry_key_at e k : entry_key e = Ok k <-> entry_at e k.
Proof.
  unfold entry_key. split.
  - destruct (n_env e) as [env|] eqn:EE.
    + destruct (n_opos e) eqn:EP; cbn [of_opt bind]; intros H; inversion H. constructor; auto.
    + destruct (n_pos e) eqn:EP; cbn [of_opt bind]; intros H; inversion H. constructor; auto.
  - intros H. inversion H; subst; rewrite H0, H1; reflexivity.
Qed.

(* C52 *)
Theorem unindexed_reported m seq ret : check_not_indexed_objects m seq = Ok ret ->
  forall k, In k ret <-> (exists x, In x m /\ object_at x k) /\
                         ~ (exists s e, In s seq /\ In e s /\ 0 < n_num e /\ entry_at e k).
Proof.
  unfold check_not_indexed_objects. destruct (map_res section_keys seq) as [ks| |] eqn:EK; try discriminate. cbn [bind].
  destruct (map_keys m) as [objs| |] eqn:EM; try discriminate. cbn [bind]. intros H. inversion H; subst. intros k.
  rewrite filter_In, negb_true_iff, (map_keys_at _ _ EM).
  assert (X : In k (concat ks) <-> exists s e, In s seq /\ In e s /\ 0 < n_num e /\ entry_at e k).
  { rewrite in_concat. pose proof (map_res_In _ _ _ EK) as M. split.
    - intros (ys & I & J). apply M in I as (s & I & ES). unfold section_keys in ES.
      apply (map_res_In _ _ _ ES) in J as (e & J & EE). apply filter_In in J as [J P]. exists s, e.
      repeat split; auto; [lia|]. apply entry_key_at; auto.
    - intros (s & e & I & J & P & A). assert (D : exists ys, section_keys s = Ok ys).
      { clear -EK I. revert ks EK. induction seq as [|y m IH]; intros ks E; [destruct I|]. cbn [map_res] in E.
        destruct (section_keys y) as [ky| |] eqn:EY; try discriminate. cbn [bind] in E. destruct (map_res section_keys m); try discriminate.
        destruct I as [->|I]; eauto. }
      destruct D as (ys & D). exists ys. split; [apply M; eauto|]. unfold section_keys in D. apply (map_res_In _ _ _ D).
      exists e. split; [|apply entry_key_at; auto]. apply filter_In. split; auto. lia. }
  rewrite <- X. destruct (okey_in k (concat ks)) eqn:O.
  - apply okey_in_iff in O. split; [intros []; discriminate|tauto].
  - split; [|tauto]. intros [P _]. split; auto. intros C. apply okey_in_iff in C. congruence.
Qed.

Lemma oz_eqb_iff a b : oz_eqb a b = true <-> a = b.
Proof. destruct a, b; cbn; split; intros H; try discriminate; auto; [f_equal; lia|inversion H; lia]. Qed.
Lemma oset_In {A} k (v : A) l k' v' : In (k', v') (oset k v l) -> (k' = k /\ v' = v) \/ In (k', v') l.
Proof.
  induction l as [|[a b] l IH]; cbn [oset In]; [intros [H|[]]; inversion H; auto|].
  destruct (oz_eqb k a) eqn:E; cbn [In].
  - intros [H|H]; auto. inversion H; subst. apply oz_eqb_iff in E. auto.
  - intros [H|H]; auto. apply IH in H. tauto.
Qed.
Lemma oset_has {A} k (v : A) l : In (k, v) (oset k v l).
Proof.
  induction l as [|[a b] l IH]; cbn [oset]; [left; auto|]. destruct (oz_eqb k a) eqn:E; [|right; auto].
  apply oz_eqb_iff in E. subst. left. auto.
Qed.
Lemma oset_keep {A} k (v : A) l k' v' : k' <> k -> In (k', v') l -> In (k', v') (oset k v l).
Proof.
  intros N. induction l as [|[a b] l IH]; cbn [oset]; [intros []|]. intros [H|I].
  - inversion H; subst. destruct (oz_eqb k k') eqn:E; [apply oz_eqb_iff in E; congruence|left; auto].
  - destruct (oz_eqb k a); [right; auto|right; auto].
Qed.

Lemma section_errors_at objs l : forall pos pos' er, section_errors objs pos l = Ok (pos', er) ->
  Forall (fun e => n_num e <> 0) l ->
  pos' = pos /\ forall k, In k er <-> (exists e, In e l /\ 0 < n_num e /\ entry_at e k) /\ ~ In k objs.
Proof.
  induction l as [|o l IH]; intros pos pos' er E NZ; cbn [section_errors] in E.
  - inversion E; subst. split; auto. intros k. split; [intros []|]. intros [(e & [] & _) _].
  - inversion NZ as [|? ? N0 NZ']; subst. replace (n_num o =? 0) with false in E by lia.
    destruct (n_num o <? 0) eqn:LT.
    + destruct (IH _ _ _ E NZ') as [-> I]. split; auto. intros k. rewrite I. split; intros [(e & J & P) N]; split; auto.
      * exists e. split; auto. right; auto.
      * destruct J as [<-|J]; [lia|]. exists e. auto.
    + destruct (entry_key o) as [k0| |] eqn:EK; try discriminate. cbn [bind] in E.
      destruct (section_errors objs pos l) as [[p1 e1]| |] eqn:SE; try discriminate. cbn [bind] in E.
      destruct (IH _ _ _ SE NZ') as [-> I]. inversion E; subst. split; auto. intros k.
      apply entry_key_at in EK.
      assert (Q : In k e1 -> (exists e, In e (o :: l) /\ 0 < n_num e /\ entry_at e k) /\ ~ In k objs).
      { intros J. apply I in J as [(e & J & P) N]. split; auto. exists e. split; auto. right; auto. }
      destruct (okey_in k0 objs) eqn:O.
      * split; auto. intros [(e & [<-|J] & P & A) N].
        -- exfalso. apply okey_in_iff in O. apply N. replace k with k0; auto. apply entry_key_at in EK, A. congruence.
        -- apply I. split; auto. exists e. auto.
      * cbn [In]. split.
        -- intros [<-|J]; auto. split; [exists o; split; [left; auto|split; [lia|auto]]|]. intros C. apply okey_in_iff in C. congruence.
        -- intros [(e & [<-|J] & P & A) N].
           ++ left. apply entry_key_at in EK, A. congruence.
           ++ right. apply I. split; auto. exists e. auto.
Qed.

Definition trailer_first (x : list ient) : Prop :=
  exists t es, x = t :: es /\ n_num t = 0 /\ Forall (fun e => n_num e <> 0) es.

Lemma check_sections_at objs seq : forall pos ret ret', check_sections objs pos ret seq = Ok ret' ->
  Forall trailer_first seq -> NoDup (map section_pos seq) ->
  (forall k v, In (k, v) ret -> ~ In k (map section_pos seq) -> In (k, v) ret') /\
  (forall k v, In (k, v) ret' -> In (k, v) ret \/ In k (map section_pos seq)) /\
  forall x, In x seq -> exists er, In (section_pos x, er) ret' /\
    forall k, In k er <-> (exists e, In e x /\ 0 < n_num e /\ entry_at e k) /\ ~ In k objs.
Proof.
  induction seq as [|x seq IH]; intros pos ret ret' E TF ND; cbn [check_sections] in E.
  - inversion E; subst. split; auto. split; auto. intros x [].
  - inversion TF as [|? ? (t & es & -> & T0 & NZ) TF']; subst. cbn [map] in ND. inversion ND as [|? ? NI ND']; subst.
    cbn [section_errors] in E. replace (n_num t =? 0) with true in E by lia.
    destruct (section_errors objs _ es) as [[pos' er]| |] eqn:SE; try discriminate. cbn [bind] in E.
    destruct (section_errors_at _ _ _ _ _ SE NZ) as [-> EA].
    change (match n_xt t with Some p => Some p | None => n_xs t end) with (section_pos (t :: es)) in E.
    destruct (IH _ _ _ E TF' ND') as (K1 & K2 & K3). split; [|split].
    + intros k v I N. apply K1; [|intros C; apply N; right; auto]. apply oset_keep; auto. intros ->. apply N. left. auto.
    + intros k v I. apply K2 in I as [I|I]; [|right; right; auto]. apply oset_In in I as [[-> ->]|I]; [right; left; auto|auto].
    + intros x [<-|I]; [|apply K3; auto]. exists er. split.
      * apply K1; auto. apply oset_has.
      * intros k. rewrite EA. split; intros [(e & J & P & A) N]; split; auto.
        -- exists e. split; auto. right; auto.
        -- destruct J as [<-|J]; [lia|]. exists e. auto.
Qed.

(* C51 *)
Theorem dangling_reported m seq ret : check_index_targets m seq = Ok ret ->
  Forall trailer_first seq -> NoDup (map section_pos seq) ->
  (forall p er, In (p, er) ret -> In p (map section_pos seq)) /\
  forall x, In x seq -> exists er, In (section_pos x, er) ret /\
    forall k, In k er <-> (exists e, In e x /\ 0 < n_num e /\ entry_at e k) /\ ~ (exists y, In y m /\ object_at y k).
Proof.
  unfold check_index_targets. destruct (map_keys m) as [objs| |] eqn:EM; try discriminate. cbn [bind]. intros E TF ND.
  destruct (check_sections_at _ _ _ _ _ E TF ND) as (K1 & K2 & K3). split.
  - intros p er I. apply K2 in I as [[]|I]; auto.
  - intros x I. destruct (K3 x I) as (er & J & Q). exists er. split; auto. intros k. rewrite Q, (map_keys_at _ _ EM). reflexivity.
Qed.
