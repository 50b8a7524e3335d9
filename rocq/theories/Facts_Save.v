(* Saving and loading back: an invariant of authored documents. *)
From Coq Require Import String Sorted Permutation.
From Verif Require Import PyBase Model_Filters Model_Objects Model_Filestruct Model_Text Model_Docstruct Model_Api.
From Verif Require Import Spec_Objects Spec_Filestruct Spec_Docstruct Spec_Api Spec_Save.
From Verif Require Import Facts_Base Facts_Token Facts_Ser Facts_Top Facts_Stream Facts_Indirect Facts_Obj Facts_Revision Facts_Doc Facts_Commit Facts_Xref Facts_Xstm Facts_Prov Facts_Index Facts_Write Facts_Chain.
From Coq Require Import ZifyBool ZifyNat.

Lemma peq_refl o : peq o o.
Proof.
  assert (D : forall d : dict, Forall (fun kv => peq (snd kv) (snd kv)) d -> peq (PDict d) (PDict d)).
  { intros d F. constructor; [tauto|]. intros k a b E1 E2. assert (a = b) by congruence. subst b. apply dget_In in E1.
    rewrite Forall_forall in F. exact (F _ E1). }
  induction o as [|b|z|x e|s|s|g n|l IH|d IH|d s e IH] using obj_ind'; try constructor; auto.
  - induction IH; constructor; auto.
  - intros k. tauto.
  - intros k a b E1 E2. assert (a = b) by congruence. subst b. apply dget_In in E1. rewrite Forall_forall in IH. exact (IH _ E1).
Qed.

Lemma peq_sym a : forall b, peq a b -> peq b a.
Proof.
  induction a as [|x|z|x e|s|s|g n|l IH|d IH|d s e IH] using obj_ind'; intros b P; inversion P as [| | | | | | |? l2 F2|? d2 P1 P2|? d2 ? ? PD]; subst; try constructor; auto.
  - clear P. induction F2; constructor; inversion IH; subst; auto.
  - intro k. symmetry. apply P1.
  - intros k x y E1 E2. pose proof E2 as E3. apply dget_In in E2. rewrite Forall_forall in IH. apply (IH _ E2). cbn [snd]. eauto.
  - inversion PD as [| | | | | | | |? ? P1 P2|]; subst. constructor.
    + intro k. symmetry. apply P1.
    + intros k x y E1 E2. pose proof E2 as E3. apply dget_In in E2. rewrite Forall_forall in IH. apply (IH _ E2). cbn [snd]. eauto.
Qed.
Lemma peq_trans a : forall b c, peq a b -> peq b c -> peq a c.
Proof.
  assert (D : forall d d2 d3, Forall (fun kv => forall b c, peq (snd kv) b -> peq b c -> peq (snd kv) c) d -> peq (PDict d) (PDict d2) -> peq (PDict d2) (PDict d3) -> peq (PDict d) (PDict d3)).
  { intros d d2 d3 IH P Q. inversion P as [| | | | | | | |? ? P1 P2|]; subst. inversion Q as [| | | | | | | |? ? Q1 Q2|]; subst. constructor.
    - intro k. rewrite P1. apply Q1.
    - intros k x z E1 E3. destruct (dget k d2) as [y|] eqn:E2; [|apply P1 in E2; congruence].
      pose proof E1 as E0. apply dget_In in E0. rewrite Forall_forall in IH. apply (IH _ E0 y z); cbn [snd]; eauto. }
  induction a as [|x|z|x e|s|s|g n|l IH|d IH|d s e IH] using obj_ind'; intros b c P Q;
    inversion P as [| | | | | | |? l2 F2|? d2 P1 P2|? d2 ? ? PD]; subst; try (inversion Q; subst; constructor; fail).
  - inversion Q as [| | | | | | |? l3 F3| |]; subst. constructor. clear P Q. revert l3 F3. induction F2; intros l3 F3; inversion F3; subst; constructor; inversion IH; subst; eauto.
  - inversion Q; subst. eapply D; eauto.
  - inversion Q; subst. constructor. eapply D; eauto.
Qed.

Lemma wfx_rv (G : Z -> Prop) o : G 0 -> wfx G o -> wfx G (rv o).
Proof.
  intros G0. induction o as [|b|z|x e|s|s|g n|l IH|d IH|d s e IH] using obj_ind'; intros W; cbn [rv]; auto; try (inversion W; fail).
  - constructor. auto.
  - inversion W as [| | | | | | | |? F|]; subst. constructor. apply Forall_forall. intros y I. apply in_map_iff in I as (x & <- & I).
    rewrite Forall_forall in *. auto.
  - inversion W as [| | | | | | | | |? ND F]; subst. change (rev _) with (rvd d). constructor; [rewrite rvd_keys; apply NoDup_rev; auto|].
    apply Forall_forall. intros [k v] I. unfold rvd in I. apply in_rev in I. apply in_map_iff in I as ([k' v'] & E & I). injection E as <- <-.
    rewrite Forall_forall in *. destruct (F _ I) as [N V]. cbn [fst snd] in *. split; auto. apply (IH _ I). auto.
Qed.
Lemma wfv_rvd d : wfv (PDict d) -> wfv (PDict (rvd d)).
Proof. intro W. exact (wfx_rv _ (PDict d) eq_refl W). Qed.

Lemma same_refl x t : same_entries x t t.
Proof. intros k _. split; [tauto|]. intros a b E1 E2. assert (a = b) by congruence. subst b. apply peq_refl. Qed.
Lemma same_set x t1 t2 v : same_entries x t1 t2 -> same_entries x (dset x v t1) t2.
Proof. intros S k NK. rewrite dget_dset_neq by auto. auto. Qed.
Lemma same_rvd x t : wfv (PDict t) -> same_entries x t (rvd t).
Proof. intros W k _. pose proof (wfv_peq _ W) as P. cbn [rv] in P. change (rev _) with (rvd t) in P. inversion P as [| | | | | | | |? ? P1 P2|]; subst. split; [apply P1|apply P2]. Qed.

Ltac wf_value := lazymatch goal with
| |- wfx _ (PStr _) => apply wf_name, name_ok; reflexivity
| |- wfx _ (PInt _) => apply wf_int
| |- wfx _ (PRef _ _) => apply wf_ref; reflexivity
| |- wfx _ (PList _) => apply wf_list; repeat (apply Forall_cons; [wf_value|]); apply Forall_nil
| |- wfx _ (PDict _) => apply wf_dict;
    [repeat (apply NoDup_cons; [cbn; intros Q; repeat (destruct Q as [Q|Q]; [discriminate|]); exact Q|]); apply NoDup_nil
    |repeat (apply Forall_cons; [split; [apply name_ok; reflexivity|cbn [snd]; wf_value]|]); apply Forall_nil]
end.

Section WithZlib.
Context {ZL : Zlib}.

Lemma savable_some o : savable o -> o <> PNone.
Proof. intros [S _] ->. inversion S as [? W|]; subst. inversion W as [? W' N|]; subst. inversion W'. Qed.

(* the file holds at z the object n, read as w *)
Definition good (F : bytes) (n z : Z) (w : obj) : Prop :=
  w <> PNone /\ exists o v, valtxt o w v /\ at_pos F z (object_text n 0 v).
Lemma good_app F q n z w : good F n z w -> good (F ++ q) n z w.
Proof. intros (NW & o & v & V & a & b & -> & L). split; auto. exists o, v. split; auto. exists a, (b ++ q). rewrite <- !app_assoc. auto. Qed.
Lemma good_read p F n a w e z x m : good F n (Z.of_nat a) w -> n_pos e = Some (AInt z) -> n_next e = Some x -> read_at p z (x - z) = Ok (F, a, m) -> parse_at p e = Ok w.
Proof.
  intros (_ & o & v & V & pre & b & E & L) P N R. assert (a = length pre) by lia. subst a. unfold parse_at, entry_bytes, pos_int. rewrite P. cbn [bind]. rewrite N. cbn [of_opt bind].
  rewrite R. cbn [bind]. pose proof (object_tokens n 0 o w v pre b V) as T.
  assert (ET : pre ++ dec n ++ [32] ++ dec 0 ++ [32] ++ W_objkw ++ [10] ++ v ++ [10] ++ W_endobj ++ [10] ++ b = F).
  { rewrite E. unfold object_text. rewrite <- !app_assoc. reflexivity. }
  cbv zeta in T. rewrite ET in T. destruct T as (T1 & T2 & T3 & T4 & (j & k & T5 & _) & _). rewrite T1, T2, T3, T5. exact T4.
Qed.
Lemma good_range F n z w : good F n z w -> 0 <= z < blen F.
Proof. intros (_ & o & v & V & pre & b & E & L). unfold blen. rewrite E, !app_length. unfold object_text. rewrite !app_length. cbn [length]. lia. Qed.
Lemma good_parse F n z w e x : good F n z w -> n_pos e = Some (AInt z) -> n_next e = Some x -> z < x -> parse_at (PvSingle F) e = Ok w.
Proof.
  intros G P N LT. pose proof (good_range _ _ _ _ G) as R0. unfold blen in R0. destruct (single_at F (Z.to_nat z) (x - z)) as (m & R); [lia|lia|]. rewrite Z2Nat.id in R by lia.
  eapply good_read; eauto. rewrite Z2Nat.id by lia. exact G.
Qed.
(* an object of the last part *)
Lemma good_after F b n z w : good (F ++ b) n z w -> blen F <= z -> good b n (z - blen F) w.
Proof.
  intros (NW & o & v & V & pre & c & E & L) LE. split; auto. exists o, v. split; auto. unfold blen in *.
  assert (pre = F ++ skipn (length F) pre).
  { rewrite <- (firstn_skipn (length F) pre) at 1. f_equal. assert (Q : firstn (length F) (F ++ b) = firstn (length F) pre).
    { rewrite E, firstn_app. replace (length F - length pre)%nat with 0%nat by lia. cbn [firstn]. now rewrite app_nil_r. }
    rewrite <- Q, firstn_app, firstn_all, Nat.sub_diag. cbn [firstn]. now rewrite app_nil_r. }
  exists (skipn (length F) pre), c. split; [|rewrite skipn_length; lia]. rewrite H, <- !app_assoc in E. now apply app_inv_head in E.
Qed.
Lemma good_merge p F b n z w e x : good (F ++ b) n z w -> blen F < z -> n_pos e = Some (AInt z) -> n_next e = Some x -> parse_at (PvMerge p (blen F) b) e = Ok w.
Proof.
  intros G LT P N. pose proof (good_after F b n z w G ltac:(lia)) as G1. pose proof (good_range _ _ _ _ G1) as R1.
  eapply good_read; eauto; [rewrite <- (Z2Nat.id (z - blen F)) in G1 by lia; exact G1|]. unfold read_at. cbn [run_prov].
  replace (blen F <? z) with true by lia. replace (z - blen F =? -1) with false by lia. cbn [bind]. replace (z - blen F <? 0) with false by lia. reflexivity.
Qed.
Lemma good_dummy F n z w e x : good F n z w -> n_pos e = Some (AInt z) -> n_next e = Some x -> parse_at (PvDummy F) e = Ok w.
Proof.
  intros G P N. pose proof (good_range _ _ _ _ G) as R1.
  eapply good_read; eauto; [rewrite <- (Z2Nat.id z) in G by lia; exact G|]. unfold read_at. cbn [run_prov].
  replace (z =? -1) with false by lia. cbn [andb bind]. replace (z <? 0) with false by lia. reflexivity.
Qed.

(* ---------- one more revision ---------- *)
Lemma placed_num F cur cache newi c e : placed F cur cache newi c e -> xe_num e = num_of c.
Proof. intros []; reflexivity. Qed.
Lemma find_in_use (elems : list xelem) n e : NoDup (map xe_num elems) -> In e elems -> xe_num e = n ->
  List.find (fun x => n_num x =? n) (flat_map in_use_entry elems) = hd_error (in_use_entry e).
Proof.
  induction elems as [|x l IH]; intros ND I N; [destruct I|]. cbn [map] in ND. inversion ND as [|? ? NI ND']; subst. cbn [flat_map].
  assert (NONE : forall y, xe_num y <> xe_num e -> List.find (fun z => n_num z =? xe_num e) (in_use_entry y) = None).
  { intros y Q. unfold in_use_entry. destruct (xe_cnt y); auto. destruct (_ || _); auto. cbn. replace (xe_num y =? xe_num e) with false by lia. auto. }
  assert (AP : forall a b (f : ient -> bool), List.find f (a ++ b) = match List.find f a with Some x => Some x | None => List.find f b end).
  { clear. induction a; intros b f; cbn; auto. destruct (f a); auto. }
  rewrite AP. destruct I as [->|I].
  - unfold in_use_entry at 1 3. destruct (xe_cnt e) as [c|].
    + destruct (xe_free e || (xe_num e =? 0)) eqn:Q; cbn.
      * clear -NI NONE. induction l as [|y l IH]; auto. cbn [map] in NI. cbn [flat_map]. 
        assert (AP : forall a b (f : ient -> bool), List.find f (a ++ b) = match List.find f a with Some x => Some x | None => List.find f b end).
        { clear. induction a; intros b f; cbn; auto. destruct (f a); auto. }
        rewrite AP, NONE by (intro; apply NI; left; auto). apply IH. intro; apply NI; right; auto.
      * replace (xe_num e =? xe_num e) with true by lia. reflexivity.
    + cbn. clear -NI NONE. induction l as [|y l IH]; auto. cbn [map] in NI. cbn [flat_map]. 
      assert (AP : forall a b (f : ient -> bool), List.find f (a ++ b) = match List.find f a with Some x => Some x | None => List.find f b end).
      { clear. induction a; intros b f; cbn; auto. destruct (f a); auto. }
      rewrite AP, NONE by (intro; apply NI; left; auto). apply IH. intro; apply NI; right; auto.
  - rewrite NONE; [apply IH; auto|]. intro Q. apply NI. rewrite Q. apply in_map. auto.
Qed.

(* the size of a section with two entries *)
Lemma pad0_length w n : 0 <= n -> (w <= length (pad0 w n))%nat.
Proof. intro N. unfold pad0. replace (n <? 0) with false by lia. cbn [app length]. rewrite app_length, repeat_length. lia. Qed.
Lemma table_length elems d nf txt : format_xref_table elems (PDict d) nf = Ok txt -> Forall (elem_ok nf) elems ->
  elems <> [] -> (23 + 19 * length elems <= length txt)%nat.
Proof.
  intros FX F NE. destruct (choose_line nf elems F) as (f & FF).
  destruct (format_text f elems (PDict d) nf txt) as (v & SE & ET); auto.
  { eapply Forall_impl; [|exact FF]. intros a (? & ? & ? & ? & ? & ?); auto. }
  pose proof (group_runs_maximal xe_num elems) as MX. set (g := group_runs _) in *. destruct MX as (EE & RU & GA).
  assert (LV : (5 <= length v)%nat).
  { unfold serialize in SE. rewrite ser_dict in SE. destruct (ser_entries 0 d) as [b| |]; cbn [bind] in SE; try discriminate. injection SE as <-. cbn [app length]. rewrite !app_length. cbn. lia. }
  assert (LL : (19 * length elems + 4 <= length (lines_text (group_lines f g)))%nat).
  { assert (NG : g <> []) by (intro Q; rewrite Q in EE; cbn in EE; congruence).
    assert (G : forall h, Forall (fun e => line_ok (f e) /\ exists off gg kw, f e = XEnt off (xe_num e) gg kw) (flat_map snd h) ->
      (19 * length (flat_map snd h) + 4 * length h <= length (lines_text (group_lines f h)))%nat).
    { clear. induction h as [|[n es] h IH]; intro FA; cbn [flat_map snd app length]; [cbn; lia|]. cbn [flat_map snd] in FA. apply Forall_app in FA as [F1 F2]. specialize (IH F2).
      unfold lines_text, group_lines in *. cbn [flat_map fst snd]. cbn [app flat_map line_text]. rewrite flat_map_app, !app_length in *.
      pose proof (dec_some n). pose proof (dec_some (Z.of_nat (length es))). cbn [length].
      assert (E : (19 * length es <= length (flat_map (fun l => line_text l ++ [10%Z]) (map f es)))%nat).
      { clear -F1. induction F1 as [|e es (LO & off & gg & kw & E) F1 IH]; cbn [map flat_map length]; [lia|]. rewrite !app_length. rewrite E in *. cbn [line_text line_ok] in *.
        rewrite !app_length. destruct LO as (A & B & C). pose proof (pad0_length 10 off A). pose proof (pad0_length 5 gg B). destruct C as [-> | ->]; cbn [length]; lia. }
      lia. }
    specialize (G g). rewrite <- EE in G. destruct g as [|g0 g]; [congruence|]. cbn [length] in G.
    assert (Forall (fun e => line_ok (f e) /\ exists off gg kw, f e = XEnt off (xe_num e) gg kw) elems).
    { eapply Forall_impl; [|exact FF]. intros a (? & ? & ? & ? & ? & ?); auto. }
    specialize (G H). lia. }
  rewrite ET, !app_length. change (length W_xref) with 4%nat. change (length W_trailer) with 7%nat. cbn [length]. lia.
Qed.

Lemma revision_table P secs row cache t chg R ni cache' :
  (5 <= length P)%nat -> build_revision_byte_stream chg row cache (blen P) None = Ok (R, ni, cache') ->
  cell cache 0 (PDict t) -> wfv (PDict t) -> dget K_XRefStm t = None ->
  dget K_Prev t = match secs with [] => None | s' :: _ => Some (PInt (Z.of_nat (s_x s'))) end ->
  NoDup (map chg_num chg) -> chg <> [] ->
  (forall c, In c chg -> snd c <> Del /\ 0 < chg_num c /\ exists e o, cell row (chg_num c) (SDict e) /\ n_gen e = 0 /\ n_env e = None /\ cell cache (chg_num c) o /\ savable o) ->
  (exists e0, cell row 0 (SDict e0) /\ n_env e0 = None) ->
  exists s body, sect_ok P secs s /\ s_x s = length (P ++ body) /\ P ++ R = (P ++ body) ++ s_txt s ++ tail_text (s_x s) /\ s_tr s = t /\ entries s <> [] /\ (100 <= length (P ++ R))%nat /\ cache' = cache /\ length ni = length row /\
    (forall i, ~ In i (map chg_num chg) -> entry_of s i = None /\ forall x, i <> 0 -> cell ni i x <-> cell row i x) /\
    (forall i, In i (map chg_num chg) -> exists e z x o, cell row i (SDict e) /\ cell ni i (SDict (with_next (Some x) (with_pos (Some (AInt z)) e))) /\
       cell cache i o /\ good (P ++ R) i z (rvs o) /\ peq o (rvs o) /\ blen P < z <= blen (P ++ R) /\ entry_of s i = Some (table_entry i z)) /\
    exists e0 pos nx, cell row 0 (SDict e0) /\ cell ni 0 (SDict (with_next (Some nx) (with_pos (Some (AInt pos)) (with_xt (Some (Z.of_nat (s_x s))) e0)))).
Proof.
  intros CH BR C0 W XS PV ND NE CC (e0 & Z0 & ZE).
  assert (NN : Forall (fun c => 1 <= num_of c) chg) by (apply Forall_forall; intros c I; destruct (CC c I) as (_ & Q & _); unfold chg_num in Q; unfold num_of; lia).
  assert (NOEMB : forall c, In c chg -> emb row c = false).
  { intros c I. destruct (CC c I) as (_ & _ & e & o & [_ C] & _ & E & _). unfold emb. unfold num_of. unfold chg_num in C. rewrite C, E. cbn. apply andb_false_r. }
  destruct (revision_layout chg row cache (blen P) None R ni cache' BR NN) with (P := P) as (l & elems & built & cnt & cache1 & (body & ER & EB) & AP & RG & PM & F2 & SS & CK & LN & UN & _ & TT); auto.
  { intros c I Q. discriminate. }
  { intros x Q. discriminate. }
  { intros c e env I C Q. destruct (CC c I) as (_ & _ & e' & o & C' & _ & E & _). unfold chg_num in C'. pose proof (cell_fun _ _ _ _ C C') as X. injection X as ->. congruence. }
  { intros n dd ss ee fl (c & e & I & M & _). rewrite NOEMB in M by auto. discriminate. }
  { intros c c' e' I I' M. rewrite NOEMB in M by auto. discriminate. }
  { intros e C. pose proof (cell_fun _ _ _ _ C Z0) as X. injection X as ->. auto. }
  destruct (TT (or_introl eq_refl)) as (t' & C1 & FX & -> & (e0' & pos & Z0' & _ & NI0)).
  assert (CK' : forall n x, cell cache1 n x <-> cell cache n x) by (intros n x; apply CK; intros c e I M; rewrite NOEMB in M by auto; discriminate).
  assert (t' = PDict t) by (apply CK' in C1; exact (cell_fun _ _ _ _ C1 C0)). subst t'.
  assert (NODEL : filter (fun c => is_del (snd c)) chg = []).
  { destruct (filter (fun c => is_del (snd c)) chg) as [|c r] eqn:Q; auto. assert (I : In c (filter (fun c => is_del (snd c)) chg)) by (rewrite Q; left; auto). apply filter_In in I as [I D].
    destruct (CC c I) as (ND' & _). destruct (snd c); try discriminate. congruence. }
  assert (CD : circular_deleted chg = [(0, 0)]) by (unfold circular_deleted; rewrite NODEL; reflexivity). rewrite CD in FX.
  assert (NUMS : map xe_num elems = map num_of l) by (clear -F2; induction F2; cbn; auto; f_equal; auto; eapply placed_num; eauto).
  assert (NDE : NoDup (map xe_num elems)).
  { rewrite NUMS. eapply Permutation_NoDup; [apply Permutation_map; exact PM|]. cbn [map num_of fst snd]. constructor; auto.
    intro I. apply in_map_iff in I as (c & Q & I). rewrite Forall_forall in NN. specialize (NN _ I). lia. }
  (* every element is the free one or an object *)
  assert (PL : forall e, In e elems -> e = mk_xe true 0 65534 None None \/
     exists c ce o v off, In c chg /\ cell row (num_of c) (SDict ce) /\ cell cache (num_of c) o /\ savable o /\ serialize o = Ok v /\
       at_pos (P ++ R) off (object_text (num_of c) 0 v) /\ (exists x, cell ni (num_of c) (SDict (with_next (Some x) (with_pos (Some (AInt off)) ce)))) /\
       e = mk_xe false (num_of c) 0 (Some off) None).
  { intros e I. apply In_nth_error in I as [k K]. assert (exists c, nth_error l k = Some c /\ placed (P ++ R) row cache1 ni c e) as (c & KC & PC).
    { clear -F2 K. revert k K. induction F2; intros [|k] K; cbn in K; try discriminate; [injection K as <-; exists x; auto|apply IHF2 in K; auto]. }
    assert (IC : In c (((0, 0), Del) :: chg)) by (eapply Permutation_in; [symmetry; exact PM|eapply nth_error_In; eauto]).
    destruct IC as [<-|IC].
    - left. inversion PC; subst; auto; congruence.
    - right. destruct (CC c IC) as (D1 & D2 & e1 & o1 & D3 & D4 & D5 & D6 & D7). unfold chg_num in *.
      inversion PC as [| g num ce NZ CE|g num a ce o o' v off ND1 CE EN CO WV SV AT CN|g num a ce o v env ps ND1 CE EN]; subst; cbn [fst snd] in *; try congruence.
      + pose proof (cell_fun _ _ _ _ CE D3) as Q. injection Q as ->. apply CK' in CO. pose proof (cell_fun _ _ _ _ CO D6) as Q. subst o.
        assert (o' = o1) by (unfold written_value in WV; rewrite (proj2 D7) in WV; auto). subst o'.
        exists (g, num, a), e1, o1, v, off. cbn [num_of fst snd]. rewrite D4 in *. split; auto. repeat (split; [assumption|]). split; [eexists; exact CN|]. rewrite D5. reflexivity.
      + pose proof (cell_fun _ _ _ _ CE D3) as Q. injection Q as ->. congruence. }
  assert (EO : Forall (elem_ok [(0, 0)]) elems).
  { apply Forall_forall. intros e I. destruct (PL e I) as [->|(c & ce & o & v & off & IC & _ & _ & _ & _ & (a & b & _ & L) & _ & ->)].
    - split; [cbn; lia|]. split; [cbn; lia|]. cbn. exists 0. split; [auto|lia].
    - rewrite Forall_forall in NN. specialize (NN _ IC). split; [cbn [xe_num]; lia|]. split; [cbn; lia|]. cbn [xe_free xe_cnt]. exists off. split; [auto|lia]. }
  set (s := mk_sect (Z.to_nat cnt) elems t [(0, 0)] built).
  assert (PC0 : 0 <= cnt) by (rewrite <- EB; unfold blen; lia).
  assert (RG' : Forall (fun e => forall c, xe_cnt e = Some c -> blen P < c /\ c + 16 <= cnt) elems).
  { apply Forall_forall. intros e I c Q. rewrite Forall_forall in RG. apply (RG e I); auto.
    destruct (PL e I) as [->|(c' & ce & o & v & off & _ & _ & _ & _ & _ & _ & _ & ->)]; reflexivity. }
  assert (SO : sect_ok P secs s).
  { constructor; cbn [s s_elems s_tr s_nf s_txt s_x]; auto.
    - eapply Forall_impl; [|exact RG']. cbn beta. intros e Q c E. specialize (Q c E). lia.
    - apply Forall_forall. intros e I QQ. destruct (PL e I) as [->|(c & ce & o & v & off & _ & _ & _ & _ & _ & _ & _ & ->)]; [discriminate QQ|reflexivity]. }
  assert (EF : P ++ R = (P ++ body) ++ s_txt s ++ tail_text (s_x s)).
  { rewrite ER. cbn [s s_txt s_x]. unfold tail_text. rewrite Z2Nat.id by auto. rewrite <- !app_assoc. reflexivity. }
  assert (INL : forall i, In i (map chg_num chg) -> exists e, In e elems /\ xe_num e = i).
  { intros i I. assert (J : In i (map xe_num elems)). { rewrite NUMS. eapply Permutation_in; [apply Permutation_map; exact PM|]. right. exact I. }
    apply in_map_iff in J as (e & Q & J). eauto. }
  assert (ENT : forall i, In i (map chg_num chg) -> exists e z x o, cell row i (SDict e) /\ cell ni i (SDict (with_next (Some x) (with_pos (Some (AInt z)) e))) /\
       cell cache i o /\ good (P ++ R) i z (rvs o) /\ peq o (rvs o) /\ blen P < z <= blen (P ++ R) /\ entry_of s i = Some (table_entry i z)).
  { intros i I. destruct (INL i I) as (e & J & N). apply in_map_iff in I as (c0 & Q & I). destruct (CC c0 I) as (_ & PI & _). rewrite Q in PI.
    destruct (PL e J) as [->|(c & ce & o & v & off & IC & A1 & A2 & A3 & A4 & A5 & (x & A6) & ->)]; [cbn in N; lia|]. cbn [xe_num] in N. rewrite N in A1, A2, A5, A6.
    exists ce, off, x, o. split; [auto|]. split; [auto|]. split; [auto|]. split; [|split; [apply storable_peq; apply A3|split]].
    - split. { pose proof (storable_peq _ (proj1 A3)) as PQ. intro X. rewrite X in PQ. inversion PQ. subst o. eapply savable_some; eauto. }
      destruct (valtxt_storable o (proj1 A3)) as (v' & V). exists o, v'. split; auto. destruct V as (V & _). assert (v' = v) by congruence. subst v'. auto.
    - rewrite Forall_forall in RG'. pose proof (RG' _ J off eq_refl) as [RZ _]. split; [exact RZ|]. destruct A5 as (a & b & E & L). unfold blen. rewrite E, !app_length. lia.
    - unfold entry_of, entries. cbn [s s_elems]. erewrite find_in_use; [|exact NDE|exact J|cbn [xe_num]; exact N]. unfold in_use_entry. cbn [xe_cnt xe_free xe_num xe_gen orb].
      replace (num_of c =? 0) with false by lia. rewrite N. reflexivity. }
  exists s, body. split; [exact SO|]. split; [cbn [s s_x]; unfold blen in EB; lia|]. split; [exact EF|]. split; [reflexivity|]. split.
  { destruct chg as [|c chg]; [congruence|]. destruct (ENT (chg_num c) (or_introl eq_refl)) as (e & z & x & o & _ & _ & _ & _ & _ & _ & EN). apply entry_of_in in EN as [EN _]. intro Q. rewrite Q in EN. destruct EN. }
  split.
  { assert (LE : (2 <= length elems)%nat).
    { assert (PLn : @length change l = S (length chg)) by (symmetry; exact (Permutation_length PM)). rewrite <- (map_length xe_num), NUMS, map_length, PLn. destruct chg; [congruence|cbn [length]; lia]. }
    pose proof (table_length _ _ _ _ FX EO ltac:(destruct elems; [cbn in LE; lia|discriminate])) as TL.
    assert (BD : blen P + 17 <= cnt).
    { destruct chg as [|c chg]; [congruence|]. destruct (INL (chg_num c) (or_introl eq_refl)) as (e & J & N). rewrite Forall_forall in RG'. specialize (RG' _ J).
      destruct (PL e J) as [->|(c' & ce & o & v & off & _ & _ & _ & _ & _ & _ & _ & ->)]; [|specialize (RG' off eq_refl); lia].
      destruct (CC c (or_introl eq_refl)) as (_ & PI & _). cbn [xe_num] in N. lia. }
    pose proof (tail_length (s_x s)). rewrite EF, !app_length. cbn [s s_txt]. unfold blen in EB. rewrite app_length in EB. unfold blen in BD. lia. }
  split. { destruct (build_cells chg row cache (blen P) None R ni cache1 NN) as (_ & _ & _ & _ & _ & _ & Q); auto; try discriminate.
    intros c e I D C. destruct (CC c I) as (_ & _ & e' & o & C' & _ & E & _). unfold chg_num in C'. pose proof (cell_fun _ _ _ _ C C') as X. injection X as ->. rewrite E. reflexivity. }
  split; [auto|]. split.
  { intros i NI. split.
    - apply entry_of_none. intro I. apply in_map_iff in I as (x & Q & I). unfold entries in I. apply in_flat_map in I as (e & J & I). cbn [s s_elems] in J.
      unfold in_use_entry in I. destruct (PL e J) as [->|(c & ce & o & v & off & IC & _ & _ & _ & _ & _ & _ & ->)]; [destruct I|]. cbn [xe_cnt xe_free xe_num orb] in I.
      destruct (num_of c =? 0); [destruct I|]. destruct I as [<-|[]]. cbn in Q. apply NI. rewrite <- Q. apply (in_map chg_num) in IC. exact IC.
    - intros x I0. apply UN; auto. discriminate. }
  split; [exact ENT|]. exists e0', pos. eexists. split; [exact Z0'|]. cbn [s s_x]. rewrite Z2Nat.id by auto. exact NI0.
Qed.

Lemma revision_step P secs row cache t chg R ni cache' :
  chain P secs -> build_revision_byte_stream chg row cache (blen P) None = Ok (R, ni, cache') ->
  cell cache 0 (PDict t) -> wfv (PDict t) -> dget K_XRefStm t = None ->
  dget K_Prev t = match secs with [] => None | s' :: _ => Some (PInt (Z.of_nat (s_x s'))) end ->
  NoDup (map chg_num chg) -> chg <> [] ->
  (forall c, In c chg -> snd c <> Del /\ 0 < chg_num c /\ exists e o, cell row (chg_num c) (SDict e) /\ n_gen e = 0 /\ n_env e = None /\ cell cache (chg_num c) o /\ savable o) ->
  (exists e0, cell row 0 (SDict e0) /\ n_env e0 = None) ->
  exists s, chain (P ++ R) (s :: secs) /\ s_tr s = t /\ entries s <> [] /\ (100 <= length (P ++ R))%nat /\ cache' = cache /\ length ni = length row /\
    (forall i, ~ In i (map chg_num chg) -> entry_of s i = None /\ forall x, i <> 0 -> cell ni i x <-> cell row i x) /\
    (forall i, In i (map chg_num chg) -> exists e z x o, cell row i (SDict e) /\ cell ni i (SDict (with_next (Some x) (with_pos (Some (AInt z)) e))) /\
       cell cache i o /\ good (P ++ R) i z (rvs o) /\ peq o (rvs o) /\ blen P < z <= blen (P ++ R) /\ entry_of s i = Some (table_entry i z)) /\
    exists e0 pos nx, cell row 0 (SDict e0) /\ cell ni 0 (SDict (with_next (Some nx) (with_pos (Some (AInt pos)) (with_xt (Some (Z.of_nat (s_x s))) e0)))).
Proof.
  intros CH BR C0 W XS PV ND NE CC Z0. destruct (revision_table P secs row cache t chg R ni cache' (chain_pos _ _ CH) BR C0 W XS PV ND NE CC Z0) as (s & body & SO & SX & EF & REST).
  exists s. split; [rewrite EF; constructor; auto|exact REST].
Qed.

(* ---------- documents under edition ---------- *)
Definition newcell (e : ient) (o : obj) : Prop := n_pos e = None /\ savable o.
Definition oldcell (F : bytes) (secs : list sect) (p : prov) (n : Z) (e : ient) (o : obj) : Prop :=
  exists z w, n_pos e = Some (AInt z) /\ latest secs n = Some z /\ z <= blen F /\ good F n z w /\
    ((o = PNone /\ parse_at p e = Ok w) \/ (o <> PNone /\ peq o w)).
Definition written (F : bytes) (secs : list sect) (N : nat) : Prop :=
  chain F secs /\ (100 <= length F)%nat /\ Forall (fun s => entries s <> []) secs /\
  forall n z, latest secs n = Some z -> n < Z.of_nat N.

Record inv (d : doc) (F : bytes) (secs : list sect) (row : list slot) (t : dict) (p : prov) : Prop := mk_inv {
  iv_row : exists lx, d_index d = lx ++ [row] /\ length lx = length secs;
  iv_len : length (d_cache d) = length row /\ (2 <= length row)%nat;
  iv_xsn : first_xsn d = Ok None;
  iv_e0 : exists e0, cell row 0 (SDict e0) /\ n_env e0 = None /\ n_xsn e0 = None /\ n_del e0 = false;
  iv_data : exists cuts frags op, d_data d = cuts ++ frags ++ [op] /\ Forall is_cut cuts /\ Forall is_frag frags /\ dt_cut op = None /\
    dt_fdata op = Some p /\ length (cuts ++ frags) = length secs /\
    (secs <> [] -> closed_bytes cuts frags = Ok F /\ revision_sum (cuts ++ frags) 0 = Ok (blen F));
  iv_file : secs <> [] -> written F secs (length row);
  iv_tr : cell (d_cache d) 0 (PDict t) /\ wfv (PDict t) /\ dget K_XRefStm t = None /\
    dget K_Prev t = match secs with [] => None | s :: _ => Some (PInt (Z.of_nat (s_x s))) end /\
    match secs with [] => True | s :: _ => same_entries K_Prev t (s_tr s) end;
  iv_cells : forall n s, 0 < n -> cell row n s -> exists e o, s = SDict e /\ cell (d_cache d) n o /\
    n_gen e = 0 /\ n_env e = None /\ n_over e <> None /\ n_del e = false /\
    (newcell e o \/ (secs <> [] /\ oldcell F secs p n e o));
  iv_prev : match secs with [] => True | s :: _ => exists lx prow, d_index d = lx ++ [prow; row] /\ (length prow <= length row)%nat /\
    dget K_Size (s_tr s) = Some (PInt (Z.of_nat (length prow))) /\
    (forall n x, 0 < n -> cell prow n x -> exists e, x = SDict e /\ n_pos e <> None /\ n_del e = false /\ n_gen e = 0 /\ n_env e = None /\
      exists z w, n_pos e = Some (AInt z) /\ latest secs n = Some z /\ good F n z w /\ parse_at p e = Ok w) /\
    (forall n e, 0 < n -> cell row n (SDict e) -> n_pos e <> None -> cell prow n (SDict e)) end;
  iv_fdata : secs <> [] -> exists dx x op, d_data d = dx ++ [x; op] /\ dt_fdata x = Some p
}.

Lemma inv_unsaved d : unsaved d -> exists row t p, inv d [] [] row t p.
Proof.
  intros [(row & p & EI & ED & LC & L2 & E0 & CE) (t & CT & W & P1 & P2)]. exists row, t, p. constructor.
  - exists []. auto.
  - auto.
  - destruct E0 as (e0 & C0 & _ & X & _). unfold first_xsn. rewrite EI. cbn [pyget]. change (pyget [row] 0) with (@Ok (list slot) row). cbn [bind].
    rewrite (proj2 (pyget_cell row 0 _ ltac:(lia)) C0). cbn [bind]. now rewrite X.
  - auto.
  - exists [], [], (mk_datum None None (Some p)). rewrite ED. repeat (split; [auto|]). congruence.
  - congruence.
  - repeat (split; [auto|]). exact Logic.I.
  - intros n s N C. destruct (CE n s N C) as (e & o & -> & A1 & A2 & A3 & A4 & A5 & A6 & A7 & A8). exists e, o. repeat (split; [auto|]). left. split; auto.
  - exact Logic.I.
  - congruence.
Qed.

Lemma inv_read d F secs row t p g n v d1 : inv d F secs row t p -> 0 <= n -> get_object d (PRef g n) = Ok (v, d1) ->
  inv d1 F secs row t p /\ (0 < n -> forall e o, cell row n (SDict e) -> cell (d_cache d) n o -> exists w, v = w /\
     (newcell e o /\ w = o \/ exists z w', n_pos e = Some (AInt z) /\ latest secs n = Some z /\ good F n z w' /\ peq w w')).
Proof.
  intros I N G. destruct I as [(lx & R1 & R2) L X E0 DA FI TR CE PV FD].
  assert (O : open_row d row) by (exists lx; auto).
  assert (P : provider d p). { destruct DA as (cuts & frags & op & D1 & _ & _ & _ & D2 & _). exists (cuts ++ frags), op. rewrite D1, <- app_assoc. auto. }
  unfold get_object in G. rewrite (open_last _ _ O), (provider_fdata _ _ P) in G. cbn [bind] in G. unfold memoize in G.
  destruct (cell_dec row n N) as [[s CS]|BAD]; [|rewrite BAD in G; discriminate]. rewrite (proj2 (pyget_cell row n _ N) CS) in G. cbn [bind] in G.
  pose proof (cell_range _ _ _ CS) as LR.
  destruct (Z.eq_dec n 0) as [->|NZ].
  - destruct E0 as (e0 & C0 & A1 & A2 & A3). pose proof (cell_fun _ _ _ _ CS C0) as ->. cbn [deleted_in] in G. rewrite A3 in G. cbn [bind] in G.
    destruct TR as (T1 & T2). rewrite (proj2 (pyget_cell _ 0 _ N) T1) in G. cbn [bind is_none negb] in G. rewrite (proj2 (pyget_cell _ 0 _ N) T1) in G. cbn [bind] in G. injection G as <- <-.
    split; [|lia]. destruct d as [di dc dd]. cbn in *. constructor; cbn; auto. { exists lx; auto. } exists e0; auto.
  - destruct (CE n s ltac:(lia) CS) as (e & o & -> & CO & A1 & A2 & A3 & A4 & A5). cbn [deleted_in] in G. rewrite A4 in G. cbn [bind] in G.
    rewrite (proj2 (pyget_cell _ n _ N) CO) in G. cbn [bind] in G. destruct (is_none o) eqn:NO; cbn [negb] in G.
    + assert (o = PNone) by (destruct o; try discriminate; auto). subst o. replace (n =? 0) with false in G by lia. rewrite A2 in G.
      destruct A5 as [[_ B]|(NE & z & w & B1 & B2 & B3 & B4 & [[_ B5]|[B5 _]])]; [exfalso; eapply savable_some; eauto| |congruence].
      rewrite B5 in G. cbn [bind] in G. pose proof (cell_range _ _ _ CO) as RO. rewrite pyset_ok in G by lia. cbn [bind] in G.
      assert (CV : cell (lset (d_cache d) (Z.to_nat n) w) n w) by (apply cell_lset; [lia|left; auto]).
      rewrite (proj2 (pyget_cell _ n _ N) CV) in G. cbn [bind] in G. injection G as <- <-. split.
      * destruct d as [di dc dd]. cbn in *. constructor; cbn; auto.
        -- exists lx; auto.
        -- rewrite lset_length. auto.
        -- destruct TR as (T1 & T2). split; auto. apply cell_lset; [lia|right; split; [lia|auto]].
        -- intros k s K C. destruct (CE k s K C) as (e' & o' & -> & CO' & Q). destruct (Z.eq_dec k n) as [->|NK].
           ++ assert (e' = e) by (pose proof (cell_fun _ _ _ _ C CS); congruence). subst e'. exists e, w. split; auto. split; auto. destruct Q as (Q1 & Q2 & Q3 & Q4 & _). repeat (split; [assumption|]).
              right. split; auto. exists z, w. repeat (split; [assumption|]). right. split; [apply B4|apply peq_refl].
           ++ exists e', o'. split; auto. split; [apply cell_lset; [lia|right; auto]|]. auto.
      * intros _ e' o' C' CO'. exists w. split; auto. right. assert (e' = e) by (pose proof (cell_fun _ _ _ _ C' CS); congruence). subst e'. exists z, w. repeat (split; [assumption|]). apply peq_refl.
    + cbn [bind] in G. rewrite (proj2 (pyget_cell _ n _ N) CO) in G. cbn [bind] in G. injection G as <- <-. split.
      * destruct d as [di dc dd]. cbn in *. constructor; cbn; auto. exists lx; auto.
      * intros _ e' o' C' CO'. exists o. split; auto. assert (e' = e) by (pose proof (cell_fun _ _ _ _ C' CS); congruence). subst e'. pose proof (cell_fun _ _ _ _ CO' CO) as ->.
        destruct A5 as [B|(NE & z & w & B1 & B2 & B3 & B4 & [[B5 _]|[_ B5]])]; [left; auto|subst o; discriminate|]. right. exists z, w. auto.
Qed.

Lemma first_xsn_same d d1 : (exists l r r' , d_index d = l ++ [r] /\ d_index d1 = l ++ [r'] /\ pyget r' 0 = pyget r 0) -> first_xsn d1 = first_xsn d.
Proof.
  intros (l & r & r' & E & E1 & G). unfold first_xsn. rewrite E, E1. destruct l as [|x l]; [|reflexivity].
  change (pyget ([] ++ [r']) 0) with (@Ok (list slot) r'). change (pyget ([] ++ [r]) 0) with (@Ok (list slot) r). cbn [bind]. now rewrite G.
Qed.

Lemma inv_update d F secs row t p n o d1 : inv d F secs row t p -> 0 < n -> savable o -> update_object d n o = Ok d1 -> exists row1, inv d1 F secs row1 t p.
Proof.
  intros I N SV U. destruct I as [(lx & R1 & R2) L X E0 DA FI TR CE PV FD].
  destruct (update_inv d n o d1 ltac:(lia) U) as (l & row' & old & ov & E1 & C1 & OV & RC & ->).
  assert (lx = l /\ row = row') as [-> ->]. { rewrite R1 in E1. apply app_inj_tail in E1. auto. } clear E1.
  set (e := with_del _ _). pose proof (cell_range _ _ _ C1) as RR.
  destruct (CE n _ N C1) as (old' & oo & Q & CO & G0 & A2 & A3 & A4 & A5). injection Q as <-.
  assert (IO : is_none o = false) by (pose proof (savable_some o SV); destruct o; auto; congruence).
  exists (lset row' (Z.to_nat n) (SDict e)). constructor; cbn [d_index d_cache d_data].
  - exists l. auto.
  - rewrite !lset_length. auto.
  - rewrite <- X. apply first_xsn_same. exists l, row', (lset row' (Z.to_nat n) (SDict e)). cbn [d_index]. repeat (split; [auto|]). apply cells_pyget; [lia|]. intro x. rewrite cell_lset by lia.
    split; [intros [[Q _]|[_ Q]]; [lia|auto]|intro; right; split; [lia|auto]].
  - destruct E0 as (e0 & C0 & E0). exists e0. split; auto. apply cell_lset; [lia|]. right. split; [lia|auto].
  - auto.
  - rewrite lset_length. auto.
  - destruct TR as (T1 & T2). split; auto. apply cell_lset; [lia|]. right. split; [lia|auto].
  - intros k s K C. rewrite cell_lset in C by lia. destruct C as [[-> ->]|[NK C]].
    + exists e, o. split; auto. split; [apply cell_lset; [lia|auto]|]. repeat (split; [first [exact G0|reflexivity|discriminate|exact IO]|]). left. split; auto.
    + destruct (CE k s K C) as (e' & o' & -> & CO' & Q). exists e', o'. split; auto. split; auto. apply cell_lset; [lia|auto].
  - destruct secs as [|s secs]; auto. destruct PV as (lx & prow & P1 & P2 & P3 & P4 & P5).
    assert (l = lx ++ [prow]). { rewrite P1 in R1. change (lx ++ [prow; row']) with (lx ++ [prow] ++ [row']) in R1. rewrite app_assoc in R1. apply app_inj_tail in R1. symmetry. apply R1. }
    exists lx, prow. rewrite lset_length. subst l. rewrite <- app_assoc. split; [auto|]. split; [auto|]. split; [auto|]. split; [auto|].
    intros k e' K C NP. rewrite cell_lset in C by lia. destruct C as [[-> Q]|[_ C]]; [|auto]. injection Q as ->. exfalso. apply NP. reflexivity.
  - auto.
Qed.

Lemma inv_add d F secs row t p o d1 r : inv d F secs row t p -> savable o -> add_object d o = Ok (d1, r) -> exists row1, inv d1 F secs row1 t p.
Proof.
  intros I SV U. destruct I as [(lx & R1 & R2) L X E0 DA FI TR CE PV FD].
  destruct (add_inv d o d1 r U) as (l & row' & E1 & RC & -> & ->).
  assert (lx = l /\ row = row') as [-> ->]. { rewrite R1 in E1. apply app_inj_tail in E1. auto. } clear E1.
  set (e := with_dver _ _). destruct L as [LC LR].
  assert (CC : forall k x, cell (lset (d_cache d ++ [PNone]) (length row') o) k x <-> cell (d_cache d) k x \/ (k = Z.of_nat (length row') /\ x = o)).
  { intros k x. replace (length row') with (Z.to_nat (Z.of_nat (length row'))) at 1 by lia. rewrite cell_lset by (rewrite app_length; cbn [length]; lia). rewrite cell_snoc. split.
    - intros [[-> ->]|[NK [C|[-> ->]]]]; auto. rewrite LC in NK. congruence.
    - intros [C|[-> ->]]; auto. right. split; auto. intros ->. apply cell_range in C. lia. }
  exists (row' ++ [SDict e]). constructor; cbn [d_index d_cache d_data].
  - exists l. auto.
  - rewrite lset_length, !app_length. cbn [length]. lia.
  - rewrite <- X. apply first_xsn_same. exists l, row', (row' ++ [SDict e]). cbn [d_index]. repeat (split; [auto|]). apply cells_pyget; [lia|]. intro x. rewrite cell_snoc.
    split; [intros [Q|[Q _]]; [auto|lia]|auto].
  - destruct E0 as (e0 & C0 & E0). exists e0. split; auto. apply cell_snoc. auto.
  - auto.
  - intros NE. destruct (FI NE) as (A & B & C & D). split; [auto|]. split; [auto|]. split; [auto|]. intros n z LT. specialize (D n z LT). rewrite app_length. cbn [length]. lia.
  - destruct TR as (T1 & T2). split; auto. apply CC. auto.
  - intros k s K C. rewrite cell_snoc in C. destruct C as [C|[-> ->]].
    + destruct (CE k s K C) as (e' & o' & -> & CO' & Q). exists e', o'. split; auto. split; auto. apply CC. auto.
    + exists e, o. split; auto. split; [apply CC; auto|]. repeat (split; [first [reflexivity|discriminate]|]). left. split; auto.
  - destruct secs as [|s secs]; auto. destruct PV as (lx & prow & P1 & P2 & P3 & P4 & P5).
    assert (l = lx ++ [prow]). { rewrite P1 in R1. change (lx ++ [prow; row']) with (lx ++ [prow] ++ [row']) in R1. rewrite app_assoc in R1. apply app_inj_tail in R1. symmetry. apply R1. }
    exists lx, prow. rewrite app_length. subst l. rewrite <- app_assoc. split; [auto|]. split; [lia|]. split; [auto|]. split; [auto|].
    intros k e' K C NP. rewrite cell_snoc in C. destruct C as [C|[-> Q]]; [auto|]. injection Q as ->. exfalso. apply NP. reflexivity.
  - auto.
Qed.

Lemma inv_changes d F secs row t p : inv d F secs row t p -> exists chg, changes d = Ok chg /\ NoDup (map chg_num chg) /\
  (forall c, In c chg -> snd c <> Del /\ 0 < chg_num c /\ exists e o, cell row (chg_num c) (SDict e) /\ n_gen e = 0 /\ n_env e = None /\
     cell (d_cache d) (chg_num c) o /\ savable o) /\
  (forall n e, 0 < n -> cell row n (SDict e) -> In n (map chg_num chg) <-> n_pos e = None).
Proof.
  intros I. destruct I as [(lx & R1 & R2) L X E0 DA FI TR CE PV FD].
  assert (TC : tidy row). { intros n s N C l ->. destruct (CE n _ N C) as (e & o & Q & _). discriminate. }
  destruct E0 as (e0 & C0 & EV0 & XS0 & D0).
  assert (NX : forall n, ~ xref_object row n). { intros n (e & C & Q). pose proof (cell_fun _ _ _ _ C C0) as Y. injection Y as ->. congruence. }
  assert (S0 : exists s0, cell row 0 s0 /\ s0 <> SNone) by (exists (SDict e0); split; [auto|discriminate]).
  destruct secs as [|s secs].
  - assert (lx = []) by (destruct lx; [auto|discriminate]). subst lx.
    destruct (changes_single d row R1 TC S0) as (chg & E & ND & CH). exists chg. split; auto. split; auto.
    assert (NEW : forall n e, 0 < n -> cell row n (SDict e) -> exists o, n_gen e = 0 /\ n_env e = None /\ cell (d_cache d) n o /\ newcell e o).
    { intros n e N C. destruct (CE n _ N C) as (e' & o & Q & A1 & A2 & A3 & _ & _ & [A4|[A4 _]]); [|congruence]. injection Q as <-. exists o. auto. }
    split.
    + intros [[g i] a] I. apply CH in I as (-> & PI & e & AT & _). cbn [snd chg_num fst]. split; [discriminate|]. split; auto.
      assert (C : cell row i (SDict e)). { rewrite <- AT. apply at_num_in. split; [lia|]. destruct (Z_lt_ge_dec i (Z.of_nat (length row))); auto. rewrite at_num_out in AT by lia. discriminate. }
      destruct (NEW i e PI C) as (o & A1 & A2 & A3 & A4). exists e, o. repeat (split; [assumption|]). apply A4.
    + intros n e N C. destruct (NEW n e N C) as (o & A1 & A2 & A3 & A4 & _). split; [auto|]. intros _. apply in_map_iff. exists ((n_gen e, n), Add). split; auto. apply CH. split; auto. split; auto.
      exists e. split; [apply at_num_cell; auto; lia|]. auto.
  - destruct PV as (l & prow & P1 & P2 & P3 & P4 & P5).
    assert (TP : tidy prow). { intros n x N C q ->. destruct (P4 n _ N C) as (e & Q & _). discriminate. }
    destruct (changes_spec d l prow row P1 TC TP S0) as (chg & E & ND & CH). exists chg. split; auto. split; auto. split.
    + intros [[g i] a] I. apply CH in I as (PI & e & AT & -> & _ & NE & TG). cbn [snd chg_num fst].
      assert (C : cell row i (SDict e)). { rewrite <- AT. apply at_num_in. split; [lia|]. destruct (Z_lt_ge_dec i (Z.of_nat (length row))); auto. rewrite at_num_out in AT by lia. discriminate. }
      destruct (CE i _ PI C) as (e' & o & Q & A1 & A2 & A3 & A4 & A5 & A6). injection Q as <-.
      split. { intros ->. inversion TG as [|_ LA|]; subst. rewrite AT in LA. cbn in LA. rewrite A5 in LA. discriminate. }
      split; auto. exists e, o. repeat (split; [assumption|]). destruct A6 as [A6|(_ & z & w & B1 & _)]; [apply A6|].
      exfalso. apply NE. rewrite AT. apply at_num_cell; [lia|]. apply P5; auto. congruence.
    + intros n e N C. split.
      * intro I. apply in_map_iff in I as ([[g i] a] & Q & I). cbn in Q. subst i. apply CH in I as (PI & e' & AT & _ & _ & NE & TG).
        rewrite (at_num_cell row n _ ltac:(lia) C) in *. injection AT as <-. destruct (n_pos e) eqn:QP; auto. exfalso. apply NE. apply at_num_cell; [lia|]. apply P5; auto. congruence.
      * intro NP. assert (NE : at_num prow n <> at_num row n).
        { rewrite (at_num_cell row n _ ltac:(lia) C). intro Q. assert (CP : cell prow n (SDict e)).
          { rewrite <- Q. apply at_num_in. split; [lia|]. destruct (Z_lt_ge_dec n (Z.of_nat (length prow))); auto. rewrite at_num_out in Q by lia. discriminate. }
          destruct (P4 n _ N CP) as (e' & Y & Z & _). injection Y as <-. congruence. }
        assert (exists a, tagged (at_num prow n) (at_num row n) a) as [a TG].
        { destruct (CE n _ N C) as (e' & o & Q & _ & _ & _ & _ & DE & _). injection Q as <-.
          destruct (at_num prow n) eqn:Y; [exists Add; constructor; auto|exists Upd; constructor 3; [discriminate|]|exists Upd; constructor 3; [discriminate|]];
          right; rewrite (at_num_cell row n _ ltac:(lia) C); cbn; rewrite DE; auto. }
        apply in_map_iff. exists ((n_gen e, n), a). split; auto. apply CH. split; auto. exists e. split; [apply at_num_cell; auto; lia|]. auto.
Qed.

Lemma revision_sum_app a : forall x acc r b, revision_sum a acc = Ok r -> dt_cut x = None -> dt_bdata x = Some b -> revision_sum (a ++ [x]) acc = Ok (r + blen b).
Proof.
  induction a as [|y a IH]; intros x acc r b E C D; cbn [app revision_sum] in *.
  - injection E as ->. rewrite C, D. reflexivity.
  - destruct (dt_cut y); [eauto|]. destruct (of_opt EKeyError (dt_bdata y)); cbn [bind] in *; try discriminate. eauto.
Qed.

Lemma inv_commit d F secs row t p d1 : inv d F secs row t p -> commit d = Ok d1 -> exists F' secs' row' t' p',
  inv d1 F' secs' row' t' p' /\ secs' <> [] /\ (forall n e, 0 < n -> cell row' n (SDict e) -> n_pos e <> None) /\
  length row' = length row /\ forall n e o, 0 < n -> cell row n (SDict e) -> cell (d_cache d) n o -> cell (d_cache d1) n o /\
    (o = PNone -> exists e', cell row' n (SDict e') /\ parse_at p' e' = parse_at p e).
Proof.
  intros I H. pose proof I as I0. destruct (inv_changes _ _ _ _ _ _ I) as (chg & EC & ND & CC & CN).
  destruct I as [(lx & R1 & R2) [LC LR] X (e0 & C0 & EV0 & XS0 & D0) (cuts & frags & op & DA & DC & DF & DO & DP & DL & DB) FI (T0 & TW & TX & TP & TS) CE PV FD].
  destruct chg as [|c0 chg0].
  { unfold commit in H. rewrite EC in H. cbn [bind] in H. injection H as <-. exists F, secs, row, t, p. split; [auto|].
    assert (NN : forall n e, 0 < n -> cell row n (SDict e) -> n_pos e <> None). { intros n e N C Q. apply (CN n e N C) in Q. destruct Q. }
    split; [|split; [auto|split; [auto|intros n e o _ C CO; split; [auto|intros _; exists e; auto]]]]. intros ->. destruct (pyget_range row 1 ltac:(lia)) as [x C]. destruct (CE 1 x ltac:(lia) C) as (e & o & -> & _ & _ & _ & _ & _ & [[Q _]|[Q _]]); [|congruence].
    apply (NN 1 e ltac:(lia) C Q). }
  set (chg := c0 :: chg0) in *. assert (NE : chg <> []) by discriminate. clearbody chg.
  destruct (commit_inv d _ d1 EC NE H) as (lx' & row0 & t0 & x0 & row1 & x & dx & dl & dl' & ni & cache' & pe & t3 & fd & Ei & C0' & Ex & Erx & Ed & CL & PE & C3 & Ef & ->).
  rewrite X in Ex. injection Ex as <-. cbn [truthy] in Erx. injection Erx as <- <-.
  assert (lx' = lx /\ row0 = row) as [-> ->]. { rewrite R1 in Ei. apply app_inj_tail in Ei as [-> ->]. auto. }
  assert (t0 = t) by (pose proof (cell_fun _ _ _ _ C0' T0); congruence). subst t0.
  assert (dx = cuts ++ frags /\ dl = op) as [-> ->]. { rewrite DA, app_assoc in Ed. apply app_inj_tail in Ed as [-> ->]. auto. }
  change (closing_trailer None (Z.of_nat (length row)) t) with (dset K_Size (PInt (Z.of_nat (length row))) t) in *.
  set (t1 := dset K_Size (PInt (Z.of_nat (length row))) t) in *. set (cache1 := lset (d_cache d) 0 (PDict t1)) in *.
  pose proof (cell_range _ _ _ T0) as RC0.
  assert (CK : forall k v, cell cache1 k v <-> (k = 0 /\ v = PDict t1) \/ (k <> 0 /\ cell (d_cache d) k v)).
  { intros k v. unfold cache1. change 0%nat with (Z.to_nat 0). apply cell_lset. lia. }
  assert (W1 : wfv (PDict t1)). { apply wfv_dset; [auto|apply name_ok; reflexivity|constructor]. }
  assert (GX : dget K_XRefStm t1 = None) by (unfold t1; rewrite dget_dset_neq by discriminate; auto).
  assert (GP : dget K_Prev t1 = dget K_Prev t) by (unfold t1; rewrite dget_dset_neq by discriminate; auto).
  assert (ST : exists P b pv, chain P secs /\ build_revision_byte_stream chg row cache1 (blen P) None = Ok (b, ni, cache') /\ dt_cut dl' = None /\ dt_bdata dl' <> None /\
     dt_fdata dl' = Some pv /\ closed_bytes cuts (frags ++ [dl']) = Ok (P ++ b) /\ revision_sum ((cuts ++ frags) ++ [dl']) 0 = Ok (blen (P ++ b)) /\
     (secs <> [] -> P = F /\ pv = PvMerge p (blen F) b) /\ (pv = PvMerge p (blen P) b \/ pv = PvDummy (P ++ b))).
  { inversion CL as [c Q|v b ni' c' Ecut L1 EB|idx b ni' c' q Ecut L1 EI EB Eq NB]; subst.
    - congruence.
    - assert (secs = []) by (rewrite R1, app_length in L1; cbn [length] in L1; destruct secs; [auto|cbn [length] in *; lia]). subst secs.
      assert (cuts = [] /\ frags = []) as [-> ->] by (destruct cuts; [destruct frags; [auto|discriminate]|discriminate]).
      exists (W_header ++ v), b, (PvDummy ((W_header ++ v) ++ b)). split; [apply ch_nil; rewrite app_length; change (length W_header) with 5%nat; lia|]. split; [exact EB|]. split; auto. split; [discriminate|]. split; auto.
      split; [cbn [app]; unfold closed_bytes; cbn [base_of bind fragments of_opt dt_bdata app]; rewrite app_nil_r; reflexivity|].
      split; [cbn [app revision_sum dt_cut dt_bdata of_opt bind]; f_equal; lia|]. split; [congruence|right; reflexivity].
    - assert (SN : secs <> []). { intros ->. destruct lx; [|discriminate]. rewrite R1 in L1. cbn in L1. congruence. }
      destruct (DB SN) as [DB1 DB2]. destruct (FI SN) as (CHF & _).
      assert (idx = blen F). { unfold revision_index in EI. rewrite DA, app_assoc, app_length in EI. cbn [length] in EI.
        replace (length (cuts ++ frags) + 1 - 1)%nat with (length (cuts ++ frags)) in EI by lia. rewrite firstn_app, Nat.sub_diag, firstn_all, firstn_O, app_nil_r in EI. congruence. }
      subst idx. assert (q = p) by congruence. subst q.
      exists F, b, (PvMerge p (blen F) b). split; [auto|]. split; [exact EB|]. split; auto. split; [discriminate|]. split; auto. split; [|split; [|split; [auto|left; auto]]].
      + unfold closed_bytes in *. destruct (base_of cuts) as [bs| |]; cbn [bind] in *; try discriminate. rewrite fragments_app. destruct (fragments frags) as [fs| |]; cbn [bind] in *; try discriminate.
        cbn [fragments of_opt dt_bdata bind]. injection DB1 as <-. rewrite app_nil_r, app_assoc. reflexivity.
      + rewrite blen_app. eapply revision_sum_app; eauto. }
  destruct ST as (P & b & pv & CHP & EB & DC' & DB' & DF' & CB & RS & SP & PVC).
  assert (fd = pv) by congruence. subst fd.
  destruct (revision_step P secs row cache1 t1 chg b ni cache' CHP EB) as (s & CH' & ST & EN & L100 & -> & LNI & UN & CG & (e0' & pos & nx & C0'' & NI0)); auto.
  { apply CK. auto. }
  { rewrite GP. exact TP. }
  { intros c I. destruct (CC c I) as (A1 & A2 & e & o & A3 & A4 & A5 & A6 & A7). split; auto. split; auto. exists e, o. repeat (split; [assumption|]). split; [|auto]. apply CK. right. split; [lia|auto]. }
  { exists e0. auto. }
  pose proof (cell_fun _ _ _ _ C0'' C0) as Y. injection Y as ->. clear C0''.
  assert (pe = with_next (Some nx) (with_pos (Some (AInt pos)) (with_xt (Some (Z.of_nat (s_x s))) e0))).
  { destruct PE as [PE|(l & PE & _)]; pose proof (cell_fun _ _ _ _ PE NI0); congruence. }
  subst pe. assert (t3 = t1). { apply CK in C3 as [[_ Q]|[Q _]]; [injection Q as ->; auto|congruence]. } subst t3.
  assert (SX : (5 <= s_x s)%nat). { destruct (chain_inv _ _ _ CH') as (F0 & body & _ & C' & _ & Q). apply chain_pos in C'. rewrite Q, app_length. lia. }
  assert (OT : opening_trailer (with_next (Some nx) (with_pos (Some (AInt pos)) (with_xt (Some (Z.of_nat (s_x s))) e0))) t1 = dset K_Prev (PInt (Z.of_nat (s_x s))) t1).
  { unfold opening_trailer. replace (prev_pos _) with (PInt (Z.of_nat (s_x s))).
    2:{ unfold prev_pos. change (n_xt _) with (Some (Z.of_nat (s_x s))). cbn iota beta. replace (Z.of_nat (s_x s) =? 0) with false by lia. reflexivity. }
    unfold dhas. rewrite dget_dset_neq by discriminate. rewrite GX. reflexivity. }
  rewrite OT. set (t' := dset K_Prev (PInt (Z.of_nat (s_x s))) t1). set (row' := SDict (revision_entry d None) :: skipn 1 ni).
  assert (CR : forall k y, 0 < k -> cell row' k y <-> cell ni k y) by (intros k y K; apply cell_cons_skip; [lia|auto]).
  assert (LR' : length row' = length row). { unfold row'. cbn [length]. rewrite skipn_length. lia. }
  set (cache2 := lset cache1 0 (PDict t')).
  assert (LC1 : length cache1 = length row) by (unfold cache1; rewrite lset_length; auto).
  assert (CK2 : forall k v, cell cache2 k v <-> (k = 0 /\ v = PDict t') \/ (k <> 0 /\ cell (d_cache d) k v)).
  { intros k v. unfold cache2. change 0%nat with (Z.to_nat 0). rewrite cell_lset by lia. rewrite CK. clear. split; [intros [Q|[Q [[Q' _]|Q']]]; [left; exact Q|congruence|right; exact Q']|intros [Q|[Q Q']]; [left; exact Q|right; split; [exact Q|right; split; [exact Q|exact Q']]]]. }
  (* the cells afterwards *)
  assert (CELL : forall n y, 0 < n -> cell ni n y -> exists e o, y = SDict e /\ cell (d_cache d) n o /\
    n_gen e = 0 /\ n_env e = None /\ n_over e <> None /\ n_del e = false /\ oldcell (P ++ b) (s :: secs) pv n e o /\
    exists z w, n_pos e = Some (AInt z) /\ latest (s :: secs) n = Some z /\ good (P ++ b) n z w /\ parse_at pv e = Ok w).
  { intros n y N C. destruct (in_dec Z.eq_dec n (map chg_num chg)) as [I|I].
    - destruct (CG n I) as (e & z & xx & o & A1 & A2 & A3 & A4 & A5 & A6 & A7). pose proof (cell_fun _ _ _ _ C A2) as ->. apply CK in A3 as [[Q _]|[_ A3]]; [lia|].
      destruct (CE n _ N A1) as (e' & o' & Q & B1 & B2 & B3 & B4 & B5 & B6). injection Q as <-. assert (o' = o) by exact (cell_fun _ _ _ _ B1 A3). subst o'.
      eexists. exists o. split; [reflexivity|]. split; [auto|]. split; [exact B2|]. split; [exact B3|]. split; [exact B4|]. split; [exact B5|].
      split. 2:{ exists z, (rvs o). split; [reflexivity|]. split; [cbn [latest]; rewrite A7; reflexivity|]. split; [auto|].
        destruct PVC as [-> | ->]; [eapply good_merge; [exact A4|lia|reflexivity|reflexivity]|eapply good_dummy; [exact A4|reflexivity|reflexivity]]. }
      exists z, (rvs o). split; [reflexivity|]. split; [cbn [latest]; rewrite A7; reflexivity|]. split; [lia|]. split; [auto|]. right. split; auto.
      apply (CN n e N A1) in I. destruct B6 as [B6|(_ & z' & w' & Q & _)]; [apply savable_some; apply B6|congruence].
    - destruct (UN n I) as [U1 U2]. apply U2 in C; [|lia]. destruct (CE n _ N C) as (e & o & -> & B1 & B2 & B3 & B4 & B5 & B6). exists e, o. split; auto. split; auto. repeat (split; [assumption|]).
      destruct B6 as [[B6 _]|(SN & z & w & D1 & D2 & D3 & D4 & D5)]; [exfalso; apply I; apply (CN n e N C); auto|]. destruct (SP SN) as [-> ->].
      split. 2:{ destruct secs as [|s' r']; [congruence|]. destruct PV as (lx2 & prow & P1 & P2 & P3 & P4 & P5). pose proof (P5 n e N C ltac:(congruence)) as CP.
        destruct (P4 n _ N CP) as (e2 & Q & _ & _ & _ & _ & z2 & w2 & Q1 & Q2 & Q3 & Q4). injection Q as <-. exists z2, w2. split; auto. split; [cbn [latest] in *; rewrite U1; auto|].
        split; [apply good_app; auto|]. rewrite (parse_merge p (blen F) b e z2); auto. apply good_range in Q3. lia. }
      exists z, w. split; auto. split; [cbn [latest]; rewrite U1; auto|]. split; [rewrite blen_app; unfold blen in *; lia|]. split; [apply good_app; auto|].
      destruct D5 as [[D5 D6]|D5]; [left|right; auto]. split; auto. rewrite (parse_merge p (blen F) b e z); auto. }
  exists (P ++ b), (s :: secs), row', t', pv. split; [|split; [discriminate|split; [|split; [auto|]]]].
  2:{ intros n e N C. apply CR in C; [|auto]. destruct (CELL n _ N C) as (e' & o & Q & _ & _ & _ & _ & _ & (z & w & NP & _) & _). injection Q as <-. congruence. }
  2:{ cbn [d_cache]. intros n e o N C CO. split; [apply CK2; right; split; [lia|auto]|]. intros ->. destruct (CE n _ N C) as (e' & o' & Q & B1 & B2 & B3 & B4 & B5 & B6). injection Q as <-.
      pose proof (cell_fun _ _ _ _ B1 CO) as ->. destruct B6 as [[_ B6]|(SN & z & w & D1 & D2 & D3 & D4 & D5)]; [destruct (savable_some _ B6 eq_refl)|]. destruct (SP SN) as [-> ->].
      assert (NI : ~ In n (map chg_num chg)) by (intro IN; apply (CN n e N C) in IN; congruence). destruct (UN n NI) as [_ U2].
      exists e. split; [apply CR; [auto|]; apply U2; [lia|auto]|]. apply (parse_merge p (blen F) b e z); auto. }
  constructor; cbn [d_index d_cache d_data].
  - exists (lx ++ [ni]). rewrite <- app_assoc. split; auto. rewrite app_length. cbn [length]. lia.
  - unfold cache2. rewrite lset_length. lia.
  - unfold first_xsn in *. cbn [d_index]. rewrite R1 in X. destruct lx as [|y lx].
    + change (pyget ([] ++ [ni; row']) 0) with (@Ok (list slot) ni). cbn [bind]. rewrite (proj2 (pyget_cell ni 0 _ ltac:(lia)) NI0). cbn [bind]. cbn. rewrite XS0. reflexivity.
    + exact X.
  - exists (revision_entry d None). split; [split; [lia|reflexivity]|]. repeat split; reflexivity.
  - exists cuts, (frags ++ [dl']), (mk_datum None None (Some pv)). split; [rewrite <- !app_assoc; reflexivity|]. split; auto. split; [apply Forall_app; split; auto; constructor; [split; auto|constructor]|].
    split; auto. split; auto. split; [rewrite app_assoc, app_length, DL; cbn [length]; lia|]. intros _. split; [exact CB|]. rewrite app_assoc. exact RS.
  - intros _. split; [exact CH'|]. split; [exact L100|]. split; [constructor; auto; destruct secs; [constructor|apply FI; discriminate]|].
    intros n z. cbn [latest]. rewrite LR'. destruct (entry_of s n) as [en|] eqn:Q.
    + intros _. destruct (in_dec Z.eq_dec n (map chg_num chg)) as [I|I]; [|destruct (UN n I); congruence]. destruct (CG n I) as (e & _ & _ & _ & A1 & _). apply cell_range in A1. lia.
    + intro LT. destruct secs as [|s' r]; [discriminate|]. destruct (FI ltac:(discriminate)) as (_ & _ & _ & Y). apply (Y n z LT).
  - split; [apply CK2; auto|]. split; [apply wfv_dset; [auto|apply name_ok; reflexivity|constructor]|]. split; [unfold t'; rewrite dget_dset_neq by discriminate; auto|].
    split; [unfold t'; apply dget_dset_eq|]. rewrite ST. apply same_set, same_refl.
  - intros n y N C. apply CR in C; [|auto]. destruct (CELL n y N C) as (e & o & -> & A1 & A2 & A3 & A4 & A5 & A6 & _). exists e, o. split; auto. split; [apply CK2; right; split; [lia|auto]|].
    repeat (split; [assumption|]). right. split; [discriminate|auto].
  - exists lx, ni. split; auto. split; [lia|]. split; [rewrite ST; unfold t1; rewrite dget_dset_eq; congruence|]. split.
    + intros n y N C. destruct (CELL n y N C) as (e & o & -> & _ & B1 & B2 & _ & A5 & (z & w & A6 & _) & B3). exists e. split; auto. split; [congruence|auto].
    + intros n e N C _. apply CR in C; auto.
  - intros _. exists (cuts ++ frags), dl', (mk_datum None None (Some pv)). split; auto.
Qed.

(* ---------- loading what was written ---------- *)
Lemma dupdate_fresh l : forall acc, NoDup (map fst (acc ++ l)) -> dupdate acc l = acc ++ l.
Proof.
  induction l as [|[k v] l IH]; intros acc ND; [now rewrite app_nil_r|]. unfold dupdate. cbn [fold_left fst snd].
  replace (dset k v acc) with (acc ++ [(k, v)]).
  - change (dupdate (acc ++ [(k, v)]) l = acc ++ (k, v) :: l). rewrite IH; rewrite <- app_assoc; [reflexivity|exact ND].
  - rewrite map_app in ND. cbn [map fst] in ND. apply NoDup_remove_2 in ND. assert (NI : ~ In k (map fst acc)) by (intro; apply ND, in_or_app; auto). clear -NI.
    induction acc as [|[k' v'] acc IH]; auto. cbn [app dset fst map] in *. destruct (beqb k k') eqn:Q; [apply beqb_eq in Q; exfalso; apply NI; left; auto|]. f_equal. apply IH. intro; apply NI; right; auto.
Qed.

Lemma cut_any F ep : 0 <= ep < blen F -> exists c, eof_cut ep (PvSingle F) = Ok c.
Proof.
  intros R. unfold eof_cut. rewrite single_length. cbn [bind]. destruct (single_at F (Z.to_nat ep) (blen F - ep)) as (n & Q); [unfold blen in R; lia|lia|].
  rewrite Z2Nat.id in Q by lia. rewrite Q. cbn [bind]. eauto.
Qed.
Lemma cut_end F F0 : F = F0 ++ B "%%EOF" ++ [10] -> eof_cut (blen F - 6) (PvSingle F) = Ok (blen F).
Proof.
  intros E. assert (LM : last_marker F F0 [10] []).
  { split; [rewrite app_nil_r; auto|]. split; [constructor; [unfold eol; lia|constructor]|]. split; [exact Logic.I|].
    intros b r Q. assert (L : length F = length (b ++ B "%%EOF" ++ r)) by congruence. rewrite E in L at 1. rewrite !app_length in L. change (length (B "%%EOF")) with 5%nat in L. cbn [length] in L.
    destruct r as [|x r]; [|cbn [length] in L; lia]. exfalso. rewrite E in Q. rewrite app_nil_r in Q.
    assert (last (F0 ++ B "%%EOF" ++ [10]) 0 = 10) by (rewrite app_assoc; apply last_last). assert (last (b ++ B "%%EOF") 0 = 70) by (change (B "%%EOF") with (B "%%EO" ++ [70]); rewrite app_assoc; apply last_last).
    rewrite Q in H. congruence. }
  pose proof (cut_single _ _ _ _ LM) as C. rewrite E. unfold blen. rewrite !app_length. rewrite !app_length in C. change (length (B "%%EOF")) with 5%nat in *. cbn [length] in *. rewrite <- E.
  replace (Z.of_nat (length F0 + (5 + 1)) - 6) with (Z.of_nat (length F0)) by lia. rewrite C. f_equal.
Qed.
Lemma eof_all F idx : (forall row, In row idx -> exists ep e, pyget row (-1) = Ok (SDict e) /\ n_pos e = Some (AInt ep) /\ 0 <= ep < blen F) ->
  exists data, eof_data (PvSingle F) idx = Ok data /\ length data = length idx.
Proof.
  induction idx as [|row idx IH]; intros H; [exists []; auto|]. destruct IH as (data & E & L); [intros; apply H; right; auto|].
  destruct (H row (or_introl eq_refl)) as (ep & e & E1 & E2 & E3). destruct (cut_any F ep E3) as (c & C).
  exists (mk_datum (Some c) None (Some (PvSingle F)) :: data). cbn [eof_data length]. rewrite E1. cbn [bind as_dict]. unfold pos_int. rewrite E2. cbn [bind]. rewrite C. cbn [bind]. rewrite E. cbn [bind]. auto.
Qed.

Lemma commit_file d chg lx q cache t0 dx dl c p e0 : changes d = Ok chg -> chg <> [] -> d_index d = lx ++ [q] -> d_cache d = cache -> cell cache 0 (PDict t0) ->
  first_xsn d = Ok None -> d_data d = dx ++ [dl] -> dt_cut dl = Some c -> dt_fdata dl = Some p -> cell q 0 (SDict e0) ->
  let t1 := dset K_Size (PInt (Z.of_nat (length q))) t0 in
  commit d = Ok (mk_doc (lx ++ [q; SDict (revision_entry d None) :: skipn 1 q]) (lset (lset cache 0 (PDict t1)) 0 (PDict (opening_trailer e0 t1)))
                        (dx ++ [dl; mk_datum None None (Some p)])).
Proof.
  intros EC NE EI <- C0 X ED CU FD Q0 t1. unfold commit. rewrite EC. cbn [bind]. destruct chg as [|c0 chg0]; [congruence|].
  unfold last_row. rewrite EI, pyget_last. cbn [bind]. rewrite (proj2 (pyget_cell _ 0 _ ltac:(lia)) C0). cbn [bind]. rewrite X. cbn [bind truthy andb].
  pose proof (cell_range _ _ _ C0) as R0. rewrite pyset_ok by lia. change (Z.to_nat 0) with 0%nat. cbn [bind]. fold t1. rewrite ED, pyget_last. cbn [bind]. rewrite CU. cbn [bind]. rewrite FD. cbn [of_opt bind].
  rewrite !pyset_last. cbn [bind]. rewrite (proj2 (pyget_cell q 0 _ ltac:(lia)) Q0). cbn [bind].
  assert (C1 : cell (lset (d_cache d) 0 (PDict t1)) 0 (PDict t1)) by (change 0%nat with (Z.to_nat 0); apply cell_lset; [lia|auto]).
  rewrite (proj2 (pyget_cell _ 0 _ ltac:(lia)) C1). cbn [bind dict_of]. rewrite pyset_ok by (rewrite lset_length; lia). cbn [bind].
  change (Z.to_nat 0) with 0%nat. unfold opening_trailer. rewrite <- !app_assoc. cbn [app]. unfold revision_entry. rewrite EI. reflexivity.
Qed.

Lemma cell_removelast {A} (q : list A) x n y : cell (q ++ [x]) n y -> n < Z.of_nat (length q) -> cell q n y.
Proof. intros C L. apply cell_snoc in C as [C|[-> _]]; [auto|lia]. Qed.
Lemma revision_sum_last a : forall x acc c, Forall is_cut a -> dt_cut x = Some c -> revision_sum (a ++ [x]) acc = Ok c.
Proof.
  induction a as [|y a IH]; intros x acc c F C; cbn [app revision_sum]; [now rewrite C|]. inversion F; subst. unfold is_cut in *. destruct (dt_cut y); [eauto|congruence].
Qed.

Lemma load_written F secs s older N f : written F secs N -> secs = s :: older -> (2 <= N)%nat ->
  (forall n, 0 < n < Z.of_nat N -> exists z w, latest secs n = Some z /\ good F n z w) -> dget K_Size (s_tr s) = Some (PInt (Z.of_nat N)) ->
  blen F < 10 ^ 10 -> (length secs <= S f)%nat ->
  exists d2 row t, loads f F = Ok d2 /\ inv d2 F secs row t (PvSingle F) /\ length row = N /\
    forall n e, 0 < n -> cell row n (SDict e) -> n_pos e <> None.
Proof.
  intros (CH & L100 & EN & LN) ES N2 GO SZ BF LF. set (p := PvSingle F).
  assert (NE : secs <> []) by (rewrite ES; discriminate).
  destruct (loaded_index F secs CH NE L100 BF f LF) as (chrono & nxt & nb & idx & BX & BI & LI & NB0 & NBU & NBL & ROWS & _).
  assert (ENB : nb = Z.of_nat N - 1).
  { destruct (GO (Z.of_nat N - 1) ltac:(lia)) as (z & w & LT & _). apply NBU in LT. destruct NBL as [->|[z' LT']]; [lia|]. apply LN in LT'. lia. }
  destruct idx as [|lrow l _] using rev_ind; [rewrite ES in LI; discriminate|]. rewrite app_length in LI. cbn [length] in LI.
  assert (RL : loaded_row F nb secs true lrow).
  { specialize (ROWS (length l) lrow). rewrite nth_error_app2, Nat.sub_diag in ROWS by lia. specialize (ROWS eq_refl). replace (length secs - S (length l))%nat with 0%nat in ROWS by lia.
    cbn [skipn] in ROWS. replace (S (length l) =? length secs)%nat with true in ROWS by (symmetry; apply Nat.eqb_eq; lia). exact ROWS. }
  assert (RA : forall row, In row (l ++ [lrow]) -> exists k, nth_error (l ++ [lrow]) k = Some row /\ loaded_row F nb (skipn (length secs - S k) secs) (S k =? length secs)%nat row).
  { intros row I. apply In_nth_error in I as [k K]. exists k. split; auto. }
  destruct RL as (LEN & (ep & ee & PG & PE & _ & EP) & (s0 & old0 & e0 & ES0 & C0 & A1 & A2 & A3 & A4 & A5 & A6 & A7 & TA) & CE).
  assert (s0 = s) by congruence. subst s0. specialize (EP eq_refl).
  apply pyget_last_inv in PG as [q EQ]. assert (LQ : length q = N) by (rewrite EQ, app_length in LEN; cbn [length] in LEN; lia).
  (* the data *)
  destruct (chain_inv F s older) as (F0 & body & EF & CH0 & OK & SX); [rewrite <- ES; auto|].
  assert (MK : F = (F0 ++ body ++ s_txt s ++ B "startxref" ++ [10] ++ dec (Z.of_nat (s_x s)) ++ [10]) ++ B "%%EOF" ++ [10]).
  { rewrite <- EF. unfold tail_text. rewrite <- !app_assoc. reflexivity. }
  destruct (eof_all F l) as (data & ED & LD).
  { intros row I. destruct (RA row) as (k & _ & _ & (ep' & e' & B1 & B2 & B3 & _) & _); [apply in_or_app; auto|]. exists ep', e'. auto. }
  destruct (eof_data_cuts _ _ _ ED) as (DC & _ & DFD).
  assert (ED' : eof_data p (l ++ [lrow]) = Ok (data ++ [mk_datum (Some (blen F)) None (Some p)])).
  { unfold p. rewrite eof_data_app, ED. cbn [bind eof_data]. rewrite EQ, pyget_last. cbn [bind as_dict]. unfold pos_int. rewrite PE. cbn [bind]. rewrite EP, (cut_end F _ MK). reflexivity. }
  assert (RLQ : removelast lrow = q) by (rewrite EQ; apply removelast_last).
  assert (CQ : forall n x, n < Z.of_nat N -> cell lrow n x -> cell q n x) by (intros n x LT C; rewrite EQ in C; eapply cell_removelast; eauto; lia).
  assert (CQ0 : cell q 0 (SDict e0)) by (apply CQ; [lia|auto]).
  assert (CELL : forall n x, 0 < n -> cell q n x -> exists z w v o nx, latest secs n = Some z /\ good F n z w /\ x = SDict (with_next (Some nx) (with_dver (Some v) (with_over (Some o) (table_entry n z)))) /\ z < nx).
  { intros n x P C. pose proof (cell_range _ _ _ C) as R. destruct (CE n ltac:(lia)) as (c & CC & MC). apply CQ in CC; [|lia]. pose proof (cell_fun _ _ _ _ C CC) as ->.
    destruct (GO n ltac:(lia)) as (z & w & LT & G). rewrite LT in MC. destruct MC as (v & o & nx & -> & LT'). exists z, w, v, o, nx. auto. }
  (* the trailer *)
  pose proof (so_wf _ _ _ OK) as TW. pose proof (wfv_nodup _ TW) as TN.
  assert (DU : dupdate [] (rvd (s_tr s)) = rvd (s_tr s)). { rewrite dupdate_fresh; auto. cbn [app]. rewrite rvd_keys. apply NoDup_rev. auto. }
  set (cache := lset (repeat PNone N) 0 (PDict (rvd (s_tr s)))).
  assert (RN : cell (repeat PNone N) 0 PNone) by (split; [lia|]; destruct N; [lia|reflexivity]).
  assert (BC : build_cache p (map (@removelast slot) (l ++ [lrow])) = Ok cache).
  { unfold build_cache. rewrite map_app. cbn [map]. rewrite pyget_last. cbn [bind]. rewrite RLQ, LQ. unfold memoize. rewrite (proj2 (pyget_cell q 0 _ ltac:(lia)) CQ0). cbn [bind deleted_in]. rewrite A4. cbn [bind].
    rewrite (proj2 (pyget_cell _ 0 _ ltac:(lia)) RN). cbn [bind is_none negb]. change (0 =? 0) with true. cbn [trailers as_dict bind]. unfold p. rewrite TA. cbn [bind]. rewrite DU.
    rewrite pyset_ok by (rewrite repeat_length; lia). reflexivity. }
  set (d0 := mk_doc (map (@removelast slot) (l ++ [lrow])) cache (data ++ [mk_datum (Some (blen F)) None (Some p)])).
  assert (DI : doc_initial f p = Ok d0). { unfold doc_initial, p. rewrite BX. cbn [bind]. rewrite BI. cbn [bind]. fold p. rewrite ED'. cbn [bind]. rewrite BC. reflexivity. }
  assert (I0 : d_index d0 = map (@removelast slot) l ++ [q]) by (cbn [d0 d_index]; rewrite map_app; cbn [map]; now rewrite RLQ).
  assert (CC0 : cell cache 0 (PDict (rvd (s_tr s)))) by (unfold cache; change 0%nat with (Z.to_nat 0); apply cell_lset; [rewrite repeat_length; lia|auto]).
  assert (CCN : forall n o, 0 < n -> cell cache n o -> o = PNone).
  { intros n o P C. unfold cache in C. change 0%nat with (Z.to_nat 0) in C. rewrite cell_lset in C by (rewrite repeat_length; lia). destruct C as [[Q _]|[_ [_ C]]]; [lia|]. apply nth_error_In, repeat_spec in C. auto. }
  assert (LC : length cache = N) by (unfold cache; rewrite lset_length, repeat_length; auto).
  assert (RT : forall k row, nth_error l k = Some row -> exists r x, row = r ++ [x] /\ length r = N).
  { intros k row K. destruct (RA row) as (k' & _ & LEN' & _); [apply in_or_app; left; eapply nth_error_In; eauto|].
    destruct row as [|x r _] using rev_ind; [cbn in LEN'; lia|]. exists r, x. split; auto. rewrite app_length in LEN'. cbn [length] in LEN'. lia. }
  assert (X0 : first_xsn d0 = Ok None).
  { unfold first_xsn. rewrite I0. destruct l as [|row l'].
    - change (pyget (map (@removelast slot) [] ++ [q]) 0) with (@Ok (list slot) q). cbn [bind]. rewrite (proj2 (pyget_cell q 0 _ ltac:(lia)) CQ0). cbn [bind]. now rewrite A5.
    - destruct (RT 0%nat row eq_refl) as (r & x & ER & LRr). destruct (RA row ltac:(left; auto)) as (k & _ & _ & _ & (s1 & ol1 & e1 & _ & C1 & _ & _ & _ & _ & X1 & _) & _).
      cbn [map app]. change (pyget (removelast row :: map (@removelast slot) l' ++ [q]) 0) with (@Ok (list slot) (removelast row)). cbn [bind]. rewrite ER, removelast_last. rewrite ER in C1.
      apply cell_removelast in C1; [|lia]. rewrite (proj2 (pyget_cell r 0 _ ltac:(lia)) C1). cbn [bind]. now rewrite X1. }
  (* something changed *)
  assert (TQ : tidy q). { intros n x P C ll ->. destruct (CELL n _ P C) as (z & w & v & o & nx & _ & _ & Q & _). discriminate. }
  assert (S0 : exists s0, cell q 0 s0 /\ s0 <> SNone) by (exists (SDict e0); split; [auto|discriminate]).
  assert (NX : forall n, ~ xref_object q n). { intros n (e & C & Q). pose proof (cell_fun _ _ _ _ C CQ0) as Y. injection Y as ->. congruence. }
  assert (CHG : exists chg, changes d0 = Ok chg /\ chg <> []).
  { destruct l as [|prow l' _] using rev_ind.
    - destruct (changes_single d0 q I0 TQ S0) as (chg & E & _ & IN). exists chg. split; auto.
      destruct (pyget_range q 1 ltac:(lia)) as [x C]. destruct (CELL 1 x ltac:(lia) C) as (z & w & v & o & nx & _ & _ & -> & _). intros ->.
      match type of C with cell _ _ (SDict ?e) => assert (IC : @In change ((n_gen e, 1), Add) []) end; [|destruct IC].
      apply IN. split; auto. split; [lia|]. eexists. split; [apply at_num_cell; [lia|exact C]|]. auto.
    - destruct (RT (length l') prow) as (r & x & ER & LRr); [rewrite nth_error_app2, Nat.sub_diag by lia; auto|].
      assert (ROWP : loaded_row F nb older false prow).
      { rewrite app_length in LI. cbn [length] in LI. specialize (ROWS (length l') prow). rewrite <- app_assoc, nth_error_app2, Nat.sub_diag in ROWS by lia. specialize (ROWS eq_refl).
        replace (length secs - S (length l'))%nat with 1%nat in ROWS by lia. rewrite ES in ROWS at 1. cbn [skipn] in ROWS.
        replace (S (length l') =? length secs)%nat with false in ROWS by (symmetry; apply Nat.eqb_neq; lia). exact ROWS. }
      destruct ROWP as (_ & _ & _ & CP).
      assert (TP : tidy r).
      { intros n y P C ll ->. pose proof (cell_range _ _ _ C) as R. destruct (CP n ltac:(lia)) as (c & CC & MC). rewrite ER in CC. apply cell_removelast in CC; [|lia]. pose proof (cell_fun _ _ _ _ C CC) as <-.
        destruct (latest older n); [destruct MC as (? & ? & ? & Q & _)|]; discriminate. }
      rewrite map_app in I0. cbn [map] in I0. rewrite ER, removelast_last in I0. rewrite <- app_assoc in I0. cbn [app] in I0.
      destruct (changes_spec d0 _ r q I0 TQ TP S0) as (chg & E & _ & IN). exists chg. split; auto.
      assert (ENS : entries s <> []) by (rewrite ES in EN; inversion EN; auto).
      destruct (entries s) as [|e es] eqn:EE; [congruence|].
      pose proof (entries_shape _ _ _ OK) as SH. rewrite EE in SH. inversion SH as [|? ? (n & z & Qe & N1 & Z1) _]; subst e.
      assert (LS : latest secs n = Some z). { rewrite ES. cbn [latest]. unfold entry_of. rewrite EE. cbn [List.find]. replace (n_num (table_entry n z) =? n) with true by (cbn; lia). reflexivity. }
      pose proof (LN _ _ LS) as LTN. destruct (pyget_range q n ltac:(lia)) as [y C]. destruct (CELL n y ltac:(lia) C) as (z' & w & v & o & nx & LS' & _ & -> & _).
      assert (z' = z) by congruence. subst z'. intros ->.
      destruct (CP n ltac:(lia)) as (c & CC & MC). rewrite ER in CC. apply cell_removelast in CC; [|lia].
      match type of C with cell _ _ (SDict ?e) => set (ce := e) in *; assert (IC : exists a, @In change ((n_gen ce, n), a) []) end; [|destruct IC as [? []]].
      assert (NEQ : c <> SDict ce).
      { destruct (latest older n) as [z2|] eqn:L2; [|congruence]. destruct MC as (v2 & o2 & nx2 & -> & _). apply (latest_range F0 older CH0) in L2. intro Q. assert (z2 = z) by exact (f_equal (fun x => match x with SDict e => match n_pos e with Some (AInt z) => z | _ => 0 end | _ => 0 end) Q). lia. }
      assert (exists a, tagged c (SDict ce) a) as [a TG].
      { destruct c; [exists Add; constructor; auto|exists Upd; constructor 3; [discriminate|right; reflexivity]|exists Upd; constructor 3; [discriminate|right; reflexivity]]. }
      exists a. apply IN. split; [lia|]. exists ce. rewrite (at_num_cell q n _ ltac:(lia) C), (at_num_cell r n _ ltac:(lia) CC). auto. }
  destruct CHG as (chg & EC & NC).
  pose proof (commit_file d0 chg _ q cache (rvd (s_tr s)) data _ (blen F) p e0 EC NC I0 eq_refl CC0 X0 eq_refl eq_refl eq_refl CQ0) as CM. cbv zeta in CM.
  set (t1 := dset K_Size _ _) in CM.
  assert (SX5 : (5 <= s_x s)%nat). { pose proof (chain_pos _ _ CH0). rewrite SX, app_length. lia. }
  assert (GX : dget K_XRefStm t1 = None). { unfold t1. rewrite dget_dset_neq by discriminate. rewrite dget_rvd, (so_stm _ _ _ OK) by auto. reflexivity. }
  assert (OT : opening_trailer e0 t1 = dset K_Prev (PInt (Z.of_nat (s_x s))) t1).
  { unfold opening_trailer. replace (prev_pos e0) with (PInt (Z.of_nat (s_x s))).
    2:{ unfold prev_pos. rewrite A7. replace (Z.of_nat (s_x s) =? 0) with false by lia. reflexivity. }
    unfold dhas. rewrite dget_dset_neq by discriminate. rewrite GX. reflexivity. }
  rewrite OT in CM. set (t' := dset K_Prev _ _) in CM. set (row' := SDict (revision_entry d0 None) :: skipn 1 q) in CM.
  set (cache2 := lset _ 0 (PDict t')) in CM.
  eexists. exists row', t'. split; [unfold loads, doc_constructor; fold p; rewrite DI; cbn [bind]; exact CM|].
  assert (CR : forall k y, 0 < k -> cell row' k y <-> cell q k y) by (intros k y K; apply cell_cons_skip; [lia|auto]).
  assert (LR' : length row' = N). { unfold row'. cbn [length]. rewrite skipn_length. lia. }
  assert (CK2 : forall k v, 0 < k -> cell cache2 k v <-> cell cache k v).
  { intros k v K. unfold cache2. change 0%nat with (Z.to_nat 0). rewrite !cell_lset by (rewrite ?lset_length; lia). clear -K. split; [intros [[Q _]|[_ [[Q _]|[_ Q]]]]; [lia|lia|auto]|]. intro. right. split; [lia|]. right. split; [lia|auto]. }
  assert (LC2 : length cache2 = N) by (unfold cache2; rewrite !lset_length; auto).
  split; [|split; [auto|intros n e P C; apply CR in C; auto; destruct (CELL n _ P C) as (z & w & v & o & nx & _ & _ & Q & _); injection Q as ->; discriminate]]. constructor; cbn [d_index d_cache d_data].
  - exists (map (@removelast slot) l ++ [q]). rewrite <- app_assoc. split; auto. rewrite app_length, map_length. cbn [length]. lia.
  - lia.
  - rewrite <- X0. unfold first_xsn. cbn [d_index]. rewrite I0. destruct (map (@removelast slot) l); reflexivity.
  - exists (revision_entry d0 None). split; [split; [lia|reflexivity]|]. repeat split; reflexivity.
  - exists (data ++ [mk_datum (Some (blen F)) None (Some p)]), [], (mk_datum None None (Some p)). split; [rewrite <- !app_assoc; reflexivity|].
    split; [apply Forall_app; split; auto; constructor; [discriminate|constructor]|]. split; [constructor|]. split; auto. split; auto. split; [rewrite app_nil_r, app_length; cbn [length]; lia|].
    intros _. rewrite app_nil_r. split; [|apply revision_sum_last; auto].
    unfold closed_bytes. assert (BO : base_of (data ++ [mk_datum (Some (blen F)) None (Some p)]) = Ok F).
    { unfold base_of. destruct (data ++ _) as [|y r] eqn:QY; [destruct data; discriminate|]. rewrite <- QY, last_last. cbn [dt_cut of_opt bind].
      assert (FY : dt_fdata y = Some p). { assert (I : In y (data ++ [mk_datum (Some (blen F)) None (Some p)])) by (rewrite QY; left; auto). apply in_app_or in I as [I|[<-|[]]]; [|auto]. rewrite Forall_forall in DFD. apply DFD; auto. }
      rewrite FY. cbn [of_opt bind]. unfold p, blen. rewrite prefix_single; [now rewrite firstn_all|intros Q; rewrite Q in L100; cbn in L100; lia|lia]. }
    rewrite BO. cbn [bind fragments]. now rewrite app_nil_r.
  - intros _. rewrite LR'. split; auto.
  - split; [unfold cache2; change 0%nat with (Z.to_nat 0); apply cell_lset; [rewrite lset_length; lia|auto]|].
    split. { apply wfv_dset; [|apply name_ok; reflexivity|constructor]. apply wfv_dset; [|apply name_ok; reflexivity|constructor]. apply wfv_rvd. auto. }
    split; [unfold t'; rewrite dget_dset_neq by discriminate; auto|]. rewrite ES. split; [unfold t'; apply dget_dset_eq|].
    apply same_set. intros k NK. unfold t1. destruct (list_eq_dec Z.eq_dec k K_Size) as [->|NS].
    + rewrite dget_dset_eq, SZ, LQ. split; [split; discriminate|]. intros a b Q1 Q2. injection Q1 as <-. injection Q2 as <-. constructor.
    + rewrite dget_dset_neq by auto. destruct (same_rvd K_Prev _ TW k NK) as [S1 S2]. split; [symmetry; auto|]. intros a b Q1 Q2. apply peq_sym. eauto.
  - intros n y P C. apply CR in C; [|auto]. destruct (CELL n y P C) as (z & w & v & o & nx & LT & G & -> & LX). pose proof (cell_range _ _ _ C) as R.
    destruct (pyget_range cache n ltac:(lia)) as [oc CO]. assert (oc = PNone) by (eapply CCN; eauto). subst oc.
    eexists. exists PNone. split; [reflexivity|]. split; [apply CK2; auto|]. repeat (split; [first [reflexivity|discriminate]|]). right. split; auto.
    exists z, w. split; [reflexivity|]. split; auto. split; [apply (latest_range F secs CH) in LT; lia|]. split; auto. left. split; auto. eapply good_parse; eauto; reflexivity.
  - rewrite ES. exists (map (@removelast slot) l), q. split; auto. split; [lia|]. split; [rewrite LQ; auto|]. split.
    + intros n y P C. destruct (CELL n y P C) as (z & w & v & o & nx & LT & G & -> & LX). eexists. split; [reflexivity|]. split; [discriminate|]. split; [reflexivity|]. split; [reflexivity|]. split; [reflexivity|].
      exists z, w. split; [reflexivity|]. split; [rewrite <- ES; auto|]. split; auto. eapply good_parse; eauto; reflexivity.
    + intros n e P C _. apply CR in C; auto.
  - intros _. exists data, (mk_datum (Some (blen F)) None (Some p)), (mk_datum None None (Some p)). split; reflexivity.
Qed.

Lemma shape_unique cuts : forall frags op cuts' frags' tl', cuts ++ frags ++ [op] = cuts' ++ frags' ++ tl' ->
  Forall is_cut cuts -> Forall is_cut cuts' -> Forall is_frag frags -> Forall is_frag frags' -> dt_cut op = None ->
  ((exists op', tl' = [op'] /\ dt_cut op' = None) \/ (tl' = [] /\ frags' = [])) -> cuts = cuts' /\ frags = frags'.
Proof.
  assert (H : forall f o (x : datum) r, f ++ [o] = x :: r -> Forall is_frag f -> dt_cut o = None -> dt_cut x = None).
  { intros f o x r E F O. destruct f as [|y f]; cbn in E; [injection E as <- _; auto|]. injection E as <- _. inversion F as [|? ? [A _]]; auto. }
  induction cuts as [|x cuts IH]; intros frags op cuts' frags' tl' E C C' F F' O T.
  - destruct cuts' as [|y cuts'].
    + cbn [app] in E. split; auto. destruct T as [(op' & -> & _)|[-> ->]].
      * apply app_inj_tail in E. apply E.
      * destruct frags; discriminate.
    + cbn [app] in E. inversion C' as [|? ? A]; subst. exfalso. apply A. eapply H; eauto.
  - destruct cuts' as [|y cuts'].
    + cbn [app] in E. inversion C as [|? ? A]; subst. exfalso. apply A. destruct T as [(op' & -> & O')|[-> ->]]; [|discriminate].
      symmetry in E. eapply H; eauto.
    + cbn [app] in E. injection E as <- E. inversion C; inversion C'; subst. destruct (IH _ _ _ _ _ E) as [-> ->]; auto.
Qed.

(* what writefile writes *)
Lemma inv_write d F secs row t p out d1 : inv d F secs row t p -> writefile d = Ok (out, d1) -> exists secs' row' t' p',
  inv d1 out secs' row' t' p' /\ secs' <> [] /\ (forall n e, 0 < n -> cell row' n (SDict e) -> n_pos e <> None) /\
  length row' = length row /\ forall n e o, 0 < n -> cell row n (SDict e) -> cell (d_cache d) n o -> cell (d_cache d1) n o /\
    (o = PNone -> exists e', cell row' n (SDict e') /\ parse_at p' e' = parse_at p e).
Proof.
  intros I W. assert (SHP : forall d F secs row t p, inv d F secs row t p -> exists cuts frags op, shaped d cuts frags [op] /\ dt_cut op = None /\ (secs <> [] -> closed_bytes cuts frags = Ok F)).
  { clear. intros d F secs row t p I. destruct (iv_data _ _ _ _ _ _ I) as (cuts & frags & op & A1 & A2 & A3 & A4 & A5 & A6 & A7). destruct (iv_row _ _ _ _ _ _ I) as (lx & R1 & R2).
    exists cuts, frags, op. split; [|split; [auto|intro; apply A7; auto]]. constructor; auto; [|left; eauto]. rewrite A1, R1, app_assoc, !app_length. rewrite app_length in A6. cbn [length]. lia. }
  destruct (SHP _ _ _ _ _ _ I) as (cuts & frags & op & SH & _). destruct (write_shape _ _ _ _ _ _ SH W) as (cuts' & frags' & tl' & SH' & CB & CM & _).
  destruct (inv_commit _ _ _ _ _ _ _ I CM) as (F' & secs' & row' & t' & p' & I' & NE & SV & LL & KV). destruct (SHP _ _ _ _ _ _ I') as (cuts2 & frags2 & op2 & SH2 & O2 & CB2). specialize (CB2 NE).
  destruct (shape_unique cuts2 frags2 op2 cuts' frags' tl') as [-> ->]; [rewrite <- (sh_data _ _ _ _ SH2); apply (sh_data _ _ _ _ SH')|apply SH2|apply SH'|apply SH2|apply SH'|auto|apply SH'|].
  assert (F' = out) by congruence. subst F'. exists secs', row', t', p'. auto.
Qed.

(* what loading gives *)
Lemma inv_load d1 F secs row t p f : inv d1 F secs row t p -> secs <> [] -> (forall n e, 0 < n -> cell row n (SDict e) -> n_pos e <> None) ->
  blen F < 10 ^ 10 -> (length secs <= S f)%nat -> exists d2 row2 t2, loads f F = Ok d2 /\ inv d2 F secs row2 t2 (PvSingle F) /\ length row2 = length row /\
  forall n e, 0 < n -> cell row2 n (SDict e) -> n_pos e <> None.
Proof.
  intros I NE SV BF LF. destruct (iv_len _ _ _ _ _ _ I) as [LC LR]. pose proof (iv_prev _ _ _ _ _ _ I) as PV.
  destruct secs as [|s older] eqn:ES; [congruence|]. destruct PV as (lx & prow & P1 & P2 & P3 & P4 & P5).
  assert (LP : length prow = length row).
  { set (n := Z.of_nat (length row) - 1). assert (N0 : 0 < n) by lia. destruct (pyget_range row n ltac:(lia)) as [x C]. destruct (iv_cells _ _ _ _ _ _ I n _ N0 C) as (e & o & -> & _).
    pose proof (P5 n e N0 C (SV n e N0 C)) as CP. apply cell_range in CP. lia. }
  destruct (load_written F (s :: older) s older (length row) f (iv_file _ _ _ _ _ _ I NE) eq_refl LR) as (d2 & row2 & t2 & E & I2 & L2 & S2); auto.
  { intros n R. destruct (pyget_range row n ltac:(lia)) as [x C]. destruct (iv_cells _ _ _ _ _ _ I n _ ltac:(lia) C) as (e & o & -> & _ & _ & _ & _ & _ & [[Q _]|(_ & z & w & _ & Q1 & _ & Q2 & _)]).
    - exfalso. exact (SV n e ltac:(lia) C Q).
    - eauto. }
  { rewrite P3, LP. reflexivity. }
  exists d2, row2, t2. auto.
Qed.

Lemma authored_inv d : authored d -> exists F secs row t p, inv d F secs row t p.
Proof.
  induction 1 as [d U|d g n v d1 A IH N G|d n o d1 A IH N SV U|d o d1 r A IH SV U|d d1 A IH C|d out d1 fuel d2 A IH W BF LF LD].
  - destruct (inv_unsaved d U) as (row & t & p & I). eauto 10.
  - destruct IH as (F & secs & row & t & p & I). destruct (inv_read _ _ _ _ _ _ _ _ _ _ I N G) as [I1 _]. eauto 10.
  - destruct IH as (F & secs & row & t & p & I). destruct (inv_update _ _ _ _ _ _ _ _ _ I N SV U) as [row1 I1]. eauto 10.
  - destruct IH as (F & secs & row & t & p & I). destruct (inv_add _ _ _ _ _ _ _ _ _ I SV U) as [row1 I1]. eauto 10.
  - destruct IH as (F & secs & row & t & p & I). destruct (inv_commit _ _ _ _ _ _ _ I C) as (F' & secs' & row' & t' & p' & I' & _). eauto 10.
  - destruct IH as (F & secs & row & t & p & I). destruct (inv_write _ _ _ _ _ _ _ _ I W) as (secs' & row' & t' & p' & I' & NE & SV & _).
    destruct (inv_load _ _ _ _ _ _ fuel I' NE SV BF) as (d3 & row3 & t3 & E & I3 & _).
    { destruct (iv_row _ _ _ _ _ _ I') as (lx & R1 & R2). rewrite R1, app_length in LF. cbn [length] in LF. lia. }
    assert (d3 = d2) by congruence. subst d3. eauto 10.
Qed.

(* observations *)
Lemma inv_in_use d F secs row t p : inv d F secs row t p -> in_use d (-1) = Ok (map (fun i => (0, i)) (nums row)).
Proof.
  intros I. destruct (iv_row _ _ _ _ _ _ I) as (lx & R1 & _). unfold in_use. rewrite R1, pyget_last. cbn [bind]. unfold in_use_row.
  assert (H : forall l, (forall i, In i l -> 1 <= i < Z.of_nat (length row)) -> map_res (fun i => let* r := get_iref row i in
      match r with None => Ok [] | Some ir => let* s := pyget row i in let* del := deleted_in s in Ok (if del : bool then [] else [ir]) end) l = Ok (map (fun i => [(0, i)]) l)).
  { induction l as [|i l IH]; intros H; [reflexivity|]. cbn [map_res]. pose proof (H i (or_introl eq_refl)) as R. destruct (pyget_range row i ltac:(lia)) as [x C].
    destruct (iv_cells _ _ _ _ _ _ I i x ltac:(lia) C) as (e & o & -> & _ & G & _ & _ & D & _). unfold get_iref at 1. rewrite (proj2 (pyget_cell row i _ ltac:(lia)) C). cbn [bind as_dict]. cbn [deleted_in bind]. rewrite D, G.
    rewrite IH by (intros; apply H; right; auto). reflexivity. }
  rewrite H. 2:{ intros i Q. apply in_nums in Q. lia. }
  cbn [bind]. f_equal. generalize (nums row). induction l as [|i l IH]; cbn; [auto|now rewrite IH].
Qed.
Lemma inv_value_is d F secs row t p n e o : inv d F secs row t p -> 0 < n -> cell row n (SDict e) -> cell (d_cache d) n o ->
  value d n = if is_none o then parse_at p e else Ok o.
Proof.
  intros I N C CO. destruct (iv_cells _ _ _ _ _ _ I n _ N C) as (e' & o' & Q & CO' & A1 & A2 & A3 & A4 & A5). injection Q as <-. pose proof (cell_fun _ _ _ _ CO CO') as <-. pose proof (cell_range _ _ _ CO) as RO.
  assert (O : open_row d row) by (destruct (iv_row _ _ _ _ _ _ I) as (lx & R1 & _); exists lx; auto).
  assert (P : provider d p). { destruct (iv_data _ _ _ _ _ _ I) as (cuts & frags & op & D1 & _ & _ & _ & D2 & _). exists (cuts ++ frags), op. rewrite D1, <- app_assoc. auto. }
  unfold value, get_object. rewrite (open_last _ _ O), (provider_fdata _ _ P). cbn [bind]. unfold memoize. rewrite (proj2 (pyget_cell row n _ ltac:(lia)) C). cbn [bind deleted_in]. rewrite A4. cbn [bind].
  rewrite (proj2 (pyget_cell _ n _ ltac:(lia)) CO). cbn [bind]. destruct (is_none o) eqn:NO; cbn [negb].
  - replace (n =? 0) with false by lia. rewrite A2. destruct (parse_at p e) as [w| |]; cbn [bind]; auto. rewrite pyset_ok by lia. cbn [bind].
    rewrite (proj2 (pyget_cell _ n w ltac:(lia))); [reflexivity|]. apply cell_lset; [lia|auto].
  - cbn [bind]. rewrite (proj2 (pyget_cell _ n _ ltac:(lia)) CO). reflexivity.
Qed.
Lemma inv_value d F secs row t p n e : inv d F secs row t p -> 0 < n -> cell row n (SDict e) -> n_pos e <> None ->
  exists v z w, value d n = Ok v /\ latest secs n = Some z /\ good F n z w /\ peq v w.
Proof.
  intros I N C NP. destruct (iv_cells _ _ _ _ _ _ I n _ N C) as (e' & o & Q & CO & A1 & A2 & A3 & A4 & A5). injection Q as <-.
  destruct A5 as [[A5 _]|(NE & z & w & B1 & B2 & B3 & B4 & B5)]; [congruence|]. pose proof (inv_value_is _ _ _ _ _ _ _ _ _ I N C CO) as V.
  destruct B5 as [[-> B5]|[B5 B6]].
  - exists w, z, w. cbn [is_none] in V. rewrite B5 in V. split; [auto|]. split; [auto|]. split; [auto|apply peq_refl].
  - exists o, z, w. destruct (is_none o) eqn:NO; [destruct o; discriminate||congruence|]. auto.
Qed.
Lemma good_fun F n z w w' : good F n z w -> good F n z w' -> w = w'.
Proof.
  intros G G'. set (e := with_next (Some (z + 1)) (table_entry n z)).
  assert (A : parse_at (PvSingle F) e = Ok w) by (eapply good_parse; eauto; first [reflexivity|lia]).
  assert (C : parse_at (PvSingle F) e = Ok w') by (eapply good_parse; eauto; first [reflexivity|lia]). congruence.
Qed.
Lemma inv_trailer d F secs row t p : inv d F secs row t p -> value d 0 = Ok (PDict t).
Proof.
  intros I. destruct (iv_tr _ _ _ _ _ _ I) as (T & _). destruct (iv_e0 _ _ _ _ _ _ I) as (e0 & C0 & _ & _ & D0).
  assert (O : open_row d row) by (destruct (iv_row _ _ _ _ _ _ I) as (lx & R1 & _); exists lx; auto).
  assert (P : provider d p). { destruct (iv_data _ _ _ _ _ _ I) as (cuts & frags & op & D1 & _ & _ & _ & D2 & _). exists (cuts ++ frags), op. rewrite D1, <- app_assoc. auto. }
  unfold value, get_object. rewrite (open_last _ _ O), (provider_fdata _ _ P). cbn [bind]. unfold memoize. rewrite (proj2 (pyget_cell row 0 _ ltac:(lia)) C0). cbn [bind deleted_in]. rewrite D0. cbn [bind].
  rewrite (proj2 (pyget_cell _ 0 _ ltac:(lia)) T). cbn [bind is_none negb]. rewrite (proj2 (pyget_cell _ 0 _ ltac:(lia)) T). reflexivity.
Qed.

(* C31 *)
Theorem save_load d out d1 fuel : authored d -> writefile d = Ok (out, d1) -> blen out < 10 ^ 10 -> (length (d_index d1) <= fuel)%nat ->
  exists d2, loads fuel out = Ok d2 /\ length (d_index d2) = length (d_index d1) /\
    (exists live, in_use d1 (-1) = Ok live /\ in_use d2 (-1) = Ok live /\
       in_use d (-1) = Ok live /\
       forall g n, In (g, n) live -> exists v1 v2, value d n = Ok v1 /\ value d1 n = Ok v1 /\ value d2 n = Ok v2 /\ peq v1 v2) /\
    exists t1 t2, value d1 0 = Ok (PDict t1) /\ value d2 0 = Ok (PDict t2) /\ same_entries K_Prev t1 t2.
Proof.
  intros A W BF LF. destruct (authored_inv d A) as (F & secs & row & t & p & I). destruct (inv_write _ _ _ _ _ _ _ _ I W) as (secs1 & row1 & t1 & p1 & I1 & NE & SV & LL & KV).
  destruct (iv_row _ _ _ _ _ _ I1) as (lx & R1 & R2).
  destruct (inv_load _ _ _ _ _ _ fuel I1 NE SV BF) as (d2 & row2 & t2 & E & I2 & L2 & SV2); [rewrite R1, app_length in LF; cbn [length] in LF; lia|].
  exists d2. split; auto. split. { destruct (iv_row _ _ _ _ _ _ I2) as (lx2 & Q1 & Q2). rewrite R1, Q1, !app_length. cbn [length]. lia. }
  split.
  - eexists. split; [apply (inv_in_use _ _ _ _ _ _ I1)|]. split; [rewrite (inv_in_use _ _ _ _ _ _ I2); unfold nums; rewrite L2; reflexivity|].
    split; [rewrite (inv_in_use _ _ _ _ _ _ I); unfold nums; rewrite LL; reflexivity|].
    intros g n IN. apply in_map_iff in IN as (i & Q & IN). injection Q as <- ->. apply in_nums in IN.
    destruct (pyget_range row1 n ltac:(lia)) as [x1 C1]. destruct (iv_cells _ _ _ _ _ _ I1 n _ ltac:(lia) C1) as (e1 & o1 & -> & _).
    destruct (pyget_range row2 n ltac:(lia)) as [x2 C2]. destruct (iv_cells _ _ _ _ _ _ I2 n _ ltac:(lia) C2) as (e2 & o2 & -> & _).
    destruct (inv_value _ _ _ _ _ _ n e1 I1 ltac:(lia) C1 (SV n e1 ltac:(lia) C1)) as (v1 & z1 & w1 & V1 & LT1 & G1 & P1).
    destruct (inv_value _ _ _ _ _ _ n e2 I2 ltac:(lia) C2 (SV2 n e2 ltac:(lia) C2)) as (v2 & z2 & w2 & V2 & LT2 & G2 & P2).
    assert (V0 : value d n = value d1 n).
    { destruct (pyget_range row n ltac:(lia)) as [x0 C0]. destruct (iv_cells _ _ _ _ _ _ I n _ ltac:(lia) C0) as (e0 & o0 & -> & CO & _). destruct (KV n e0 o0 ltac:(lia) C0 CO) as [CO1 PN].
      rewrite (inv_value_is _ _ _ _ _ _ n e0 o0 I ltac:(lia) C0 CO), (inv_value_is _ _ _ _ _ _ n e1 o0 I1 ltac:(lia) C1 CO1). destruct (is_none o0) eqn:NO; [|auto].
      destruct (PN ltac:(destruct o0; discriminate||reflexivity)) as (e' & C' & <-). pose proof (cell_fun _ _ _ _ C' C1) as Q. injection Q as ->. auto. }
    exists v1, v2. split; [congruence|]. split; auto. split; auto. assert (z2 = z1) by congruence. subst z2. assert (w2 = w1) by (eapply good_fun; eauto). subst w2.
    eapply peq_trans; [exact P1|]. apply peq_sym. exact P2.
  - exists t1, t2. split; [eapply inv_trailer; eauto|]. split; [eapply inv_trailer; eauto|].
    destruct (iv_tr _ _ _ _ _ _ I1) as (_ & _ & _ & _ & S1). destruct (iv_tr _ _ _ _ _ _ I2) as (_ & _ & _ & _ & S2). destruct secs1 as [|s older]; [congruence|].
    intros k NK. destruct (S1 k NK) as [A1 A2]. destruct (S2 k NK) as [B1 B2]. split; [rewrite A1; symmetry; auto|].
    intros a b Ea Eb. destruct (dget k (s_tr s)) as [c|] eqn:Ec; [|rewrite (proj2 A1 eq_refl) in Ea; discriminate]. eapply peq_trans; [eapply A2; eauto|]. apply peq_sym. eauto.
Qed.

(* C71 *)
Theorem saved_update d n o d1 out d2 fuel : authored d -> 0 < n -> savable o -> update_object d n o = Ok d1 -> writefile d1 = Ok (out, d2) ->
  blen out < 10 ^ 10 -> (length (d_index d2) <= fuel)%nat -> exists d3 v, loads fuel out = Ok d3 /\ value d3 n = Ok v /\ peq o v.
Proof.
  intros A N SV U W BF LF. assert (A1 : authored d1) by (eapply Au_update; eauto). destruct (authored_inv _ A1) as (F & secs & row & t & p & I).
  destruct (save_load d1 out d2 fuel A1 W BF LF) as (d3 & LD & _ & (live & _ & _ & IU & VL) & _). rewrite (inv_in_use _ _ _ _ _ _ I) in IU. injection IU as <-.
  destruct (update_inv d n o d1 ltac:(lia) U) as (lx & r & old & ov & El & Ce & Eo & RC & ->). pose proof (cell_range _ _ _ Ce) as RN. destruct (iv_row _ _ _ _ _ _ I) as (lx' & R1 & _). cbn [d_index] in R1.
  apply app_inj_tail in R1 as [<- <-].
  destruct (VL 0 n) as (v1 & v2 & V1 & _ & V2 & PQ). { apply (in_map (fun i => (0, i))). apply in_nums. rewrite lset_length. lia. }
  exists d3, v2. split; auto. split; auto.
  assert (V : value (mk_doc (lx ++ [lset r (Z.to_nat n) (SDict (with_del (is_none o) (with_dver (Some (Z.of_nat (length (d_index d)) - 1)) (with_over (Some (ov + 1)) (ient0 n (n_gen old))))))]) (lset (d_cache d) (Z.to_nat n) o) (d_data d)) n = if is_none o then parse_at p (with_del (is_none o) (with_dver (Some (Z.of_nat (length (d_index d)) - 1)) (with_over (Some (ov + 1)) (ient0 n (n_gen old))))) else Ok o).
  { eapply inv_value_is; [exact I|auto| |]; cbn [d_cache]; apply cell_lset; auto; lia. }
  rewrite V in V1. destruct (is_none o) eqn:NO; [destruct (savable_some _ SV); destruct o; discriminate||reflexivity|]. injection V1 as <-. exact PQ.
Qed.

(* C32: the document returned by writefile does not have the object any more *)
Theorem deleted_stays d0 d n d1 out d2 : ready d0 -> simple d0 -> session d0 d -> 0 < n -> first_xsn d1 <> Ok (Some n) -> update_object d n PNone = Ok d1 -> writefile d1 = Ok (out, d2) ->
  value d2 n = Ok PNone.
Proof.
  intros R0 S0 SS N NX U W. destruct (session_ready d0 d SS R0 S0) as [R (PL & P & LC & X)].
  assert (SS1 : session d d1) by (eapply Ss_cons; [eapply Ed_update; eauto|constructor]). destruct (session_ready d d1 SS1 R (conj PL (conj P (conj LC X)))) as [R1 (PL1 & P1 & LC1 & X1)].
  assert (V1 : value d1 n = Ok PNone). { apply (update_reads d n PNone d1 [] d1 N U P (rd_coherent _ R) (rd_coherent _ R1)). constructor. }
  assert (C : commit d1 = Ok d2).
  { unfold writefile in W. destruct (commit d1) as [dx| |]; cbn [bind] in W; try discriminate. destruct (length (d_data dx) <? length (d_index dx))%nat; try discriminate.
    match type of W with bind ?x _ = _ => destruct x; cbn [bind] in W; try discriminate end. match type of W with bind ?x _ = _ => destruct x; cbn [bind] in W; try discriminate end. congruence. }
  destruct (changes d1) as [chg| |] eqn:EC; [|unfold commit in C; rewrite EC in C; discriminate|unfold commit in C; rewrite EC in C; discriminate].
  destruct chg as [|c0 chg0]; [unfold commit in C; rewrite EC in C; injection C as <-; auto|].
  destruct (commit_ready d1 _ d2 R1 P1 EC ltac:(discriminate) C) as (_ & _ & _ & _ & _ & KV).
  destruct (update_inv d n PNone d1 ltac:(lia) U) as (lx & r & old & ov & El & Ce & Eo & RC & E1). pose proof (cell_range _ _ _ Ce) as RN.
  set (row1 := lset r (Z.to_nat n) _) in E1. rewrite (KV row1 n); [auto|exists lx; rewrite E1; reflexivity|unfold row1; rewrite lset_length; lia|auto].
Qed.

Lemma blank_unsaved x y : unsaved (blank_initial x y).
Proof.
  constructor.
  - do 2 eexists. split; [reflexivity|]. split; [reflexivity|]. split; [reflexivity|]. split; [cbn; lia|]. split; [eexists; split; [split; [lia|reflexivity]|auto]|].
    intros n s N [_ C]. assert (W : forall k v, 0 < k -> cell (d_cache (blank_initial x y)) k v -> savable v).
    { clear. intros k v K [_ C]. destruct (Z.to_nat k) as [|[|[|[|m]]]] eqn:E; [lia| | | |destruct m; discriminate]; injection C as <-; (split; [|reflexivity]); constructor; (apply wt_val; [wf_value|discriminate]). }
    assert (R : (Z.to_nat n < 4)%nat) by (match type of C with nth_error ?l _ = _ => change 4%nat with (length l) end; apply nth_error_Some; congruence).
    assert (exists o, cell (d_cache (blank_initial x y)) n o) as [o CO]. { apply pyget_range. cbn; lia. }
    destruct (Z.to_nat n) as [|[|[|[|m]]]] eqn:E; [lia| | | |lia]; injection C as <-; eexists; exists o; (split; [reflexivity|]); cbn [n_num n_gen n_env n_over n_del n_pos with_dver with_over ient0];
      (split; [lia|split; [reflexivity|split; [reflexivity|split; [discriminate|split; [reflexivity|split; [reflexivity|split; [exact CO|]]]]]]]); eapply W; eauto.
  - exists [(K_Root, PRef 0 1)]. split; [split; [lia|reflexivity]|]. split; [unfold wfv; wf_value|]. split; reflexivity.
Qed.
(* what blank makes *)
Lemma blank_authored size d : blank size = Ok d -> authored d.
Proof.
  unfold blank. destruct (paper_size size PAPER_SIZES) as [[x y]|]; cbn [of_opt bind]; [|discriminate]. intro C. eapply Au_commit; [apply Au_new, blank_unsaved|exact C].
Qed.

End WithZlib.
