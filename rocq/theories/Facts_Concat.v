(* concat *)
From Coq Require Import String Sorted.
From Verif Require Import PyBase Model_Filters Model_Objects Model_Filestruct Model_Text Model_Docstruct Model_Api.
From Verif Require Import Spec_Objects Spec_Filestruct Spec_Docstruct Spec_Pages Spec_Squash.
From Verif Require Import Facts_Base Facts_Obj Facts_Refs Facts_Revision Facts_Doc Facts_Commit Facts_Write Facts_Edit Facts_Pages Facts_Squash.
From Coq Require Import ZifyBool ZifyNat.

Section WithZlib.
Context {ZL : Zlib}.

(* ---------- renaming by a function; streams stay as they are ---------- *)
Fixpoint ren (f : ref -> ref) (o : obj) : obj :=
  match o with
  | PRef g n => PRef (fst (f (g, n))) (snd (f (g, n)))
  | PDict d => PDict (map (fun kv => match kv with (k, v) => (k, ren f v) end) d)
  | PList l => PList (map (ren f) l)
  | _ => o
  end.
Definition ren_dict (f : ref -> ref) (d : dict) : dict := map (fun kv => match kv with (k, v) => (k, ren f v) end) d.
Lemma retarget_ren m o : deep_ref_retarget m o = ren (rename m) o.
Proof.
  induction o as [|b|z|x e|s|s|g n|l IH|d IH|d s e IH] using obj_ind'; try reflexivity; cbn.
  - unfold rename. destruct (assoc_ref (g, n) m) as [[? ?]|]; reflexivity.
  - f_equal. apply map_ext_in. rewrite Forall_forall in IH. auto.
  - f_equal. apply map_ext_in. intros [k v] I. rewrite Forall_forall in IH. f_equal. exact (IH _ I).
Qed.
Lemma ren_renamed f o : stream_free o -> renamed f o (ren f o).
Proof.
  induction o as [|b|z|x e|s|s|g n|l IH|d IH|d s e IH] using obj_ind'; intros SF; try (apply rn_leaf; exact Logic.I).
  - apply rn_ref.
  - cbn. constructor. assert (SL : Forall stream_free l) by (inversion SF; subst; auto; contradiction). clear SF.
    induction SL; cbn; constructor; inversion IH; subst; auto.
  - cbn. constructor. assert (SL : Forall (fun kv => stream_free (snd kv)) d) by (inversion SF; subst; auto; contradiction). clear SF.
    induction SL as [|[k v] d HV SL IHd]; cbn; constructor; inversion IH; subst; auto.
  - inversion SF. contradiction.
Qed.
Lemma carried_ren f v v' : carried f v v' -> v' = ren f v.
Proof. intros [sd s e|w w' S R]; [reflexivity|]. eapply renamed_fun; [exact R|]. now apply ren_renamed. Qed.
Lemma ren_carried f v : storable_value v -> carried f v (ren f v).
Proof. intros [_ [S|(sd & s & e & ->)]]; [apply Ca_other; [auto|now apply ren_renamed]|apply Ca_stream]. Qed.
Lemma ren_ren f g o : ren g (ren f o) = ren (fun r => g (f r)) o.
Proof.
  induction o as [|b|z|x e|s|s|a n|l IH|d IH|d s e IH] using obj_ind'; try reflexivity; cbn.
  - destruct (f (a, n)) as [u v]. reflexivity.
  - f_equal. rewrite map_map. apply map_ext_in. rewrite Forall_forall in IH. auto.
  - f_equal. rewrite map_map. apply map_ext_in. intros [k v] I. rewrite Forall_forall in IH. f_equal. exact (IH _ I).
Qed.
Lemma ren_free f o : stream_free o -> stream_free (ren f o).
Proof.
  induction o as [|b|z|x e|s|s|g n|l IH|d IH|d s e IH] using obj_ind'; intros SF; try (apply sf_leaf; exact Logic.I).
  - cbn. constructor. assert (SL : Forall stream_free l) by (inversion SF; subst; auto; contradiction). clear SF.
    induction SL; cbn; constructor; inversion IH; subst; auto.
  - cbn. constructor. assert (SL : Forall (fun kv => stream_free (snd kv)) d) by (inversion SF; subst; auto; contradiction). clear SF.
    induction SL as [|[k v] d HV SL IHd]; cbn; constructor; inversion IH; subst; auto.
  - inversion SF. contradiction.
Qed.
Lemma ren_none f o : ren f o = PNone -> o = PNone.
Proof. destruct o; cbn; auto; discriminate. Qed.
Lemma ren_storable f v : storable_value v -> storable_value (ren f v).
Proof.
  intros [N S]. split; [intro X; apply N; eapply ren_none; eauto|]. destruct S as [S|(sd & s & e & ->)]; [left; now apply ren_free|right; exists sd, s, e; reflexivity].
Qed.
Lemma dget_ren f k d : dget k (ren_dict f d) = option_map (ren f) (dget k d).
Proof. induction d as [|[k' v] d IH]; cbn; [reflexivity|]. destruct (beqb k k'); auto. Qed.

(* ---------- number_from ---------- *)
Lemma number_keys s l : map fst (number_from s l) = l.
Proof. revert s. induction l as [|r l IH]; intro s; cbn; [reflexivity|]. now rewrite IH. Qed.
Lemma rename_number l : forall s i r, NoDup l -> nth_error l i = Some r -> rename (number_from s l) r = (0, s + Z.of_nat i).
Proof.
  induction l as [|a l IH]; intros s i r N E; [destruct i; discriminate|]. inversion N as [|? ? N1 N2]; subst. unfold rename in *. cbn [number_from assoc_ref]. destruct i as [|i].
  - injection E as <-. rewrite (proj2 (ref_eqb_eq _ _) eq_refl). f_equal. lia.
  - cbn in E. destruct (ref_eqb r a) eqn:R; [apply ref_eqb_eq in R; subst; destruct N1; eapply nth_error_In; eauto|]. rewrite (IH (s + 1) i r N2 E). f_equal. lia.
Qed.
Lemma rename_number_out l s r : ~ In r l -> rename (number_from s l) r = r.
Proof. intro N. apply rename_other. now rewrite number_keys. Qed.

(* ---------- copying objects ---------- *)
Lemma copy_objs_spec m l : forall src dst src' dst', coherent src -> editable dst ->
  Forall (fun r : ref => 0 <= snd r /\ exists v, value src (snd r) = Ok v /\ v <> PNone) l -> copy_objs src dst m l = Ok (src', dst') ->
  editable dst' /\ d_data dst' = d_data dst /\
  forall row, open_row dst row ->
    (forall k, 0 <= k < Z.of_nat (length row) -> value dst' k = value dst k) /\
    (exists row', open_row dst' row' /\ length row' = (length row + length l)%nat) /\
    forall i r v, nth_error l i = Some r -> value src (snd r) = Ok v -> value dst' (Z.of_nat (length row) + Z.of_nat i) = Ok (ren (rename m) v).
Proof.
  induction l as [|r l IH]; intros src dst src' dst' C ED F H.
  - cbn in H. injection H as <- <-. split; [auto|]. split; [auto|]. intros row O. split; [auto|]. split; [exists row; split; [auto|cbn; lia]|]. intros [|i] r v E; discriminate.
  - inversion F as [|? ? (N & v & V & NV) F2]; subst. cbn [copy_objs] in H.
    destruct (get_object src (PRef (fst r) (snd r))) as [[o s1]| |] eqn:G; cbn [bind] in H; try discriminate.
    pose proof (value_get _ _ _ _ _ G) as V'. assert (o = v) by congruence. subst o. pose proof (get_ro _ _ _ _ _ C N G) as R1.
    destruct (add_object dst (deep_ref_retarget m v)) as [[d1 ra]| |] eqn:A; cbn [bind] in H; try discriminate.
    rewrite retarget_ren in A. destruct (add_spec _ _ _ _ ED (fun X => NV (ren_none _ _ X)) A) as (row & O & -> & (e & O1) & DA & ED1 & VA & VO). cbn [snd] in *.
    destruct (IH s1 d1 src' dst' (ro_coherent _ _ R1) ED1) as (ED' & D' & K); [|exact H|].
    { eapply Forall_impl; [|exact F2]. intros a (Na & w & W & NW). split; [auto|]. exists w. now rewrite (ro_values _ _ R1). }
    split; [auto|]. split; [congruence|]. intros row2 O2. assert (row2 = row) by (apply (open_fun dst); auto). subst row2. destruct (K _ O1) as (K1 & (row' & O' & L') & K3). rewrite app_length in *. cbn [length] in *.
    split; [intros k Kk; rewrite K1 by lia; apply VO; lia|]. split; [exists row'; split; [auto|lia]|]. intros [|i] q w E W.
    + cbn in E. injection E as <-. rewrite Z.add_0_r. rewrite K1 by lia. rewrite VA. congruence.
    + cbn in E. assert (Iq : In q l) by (eapply nth_error_In; eauto). rewrite Forall_forall in F2. destruct (F2 q Iq) as (Nq & _). rewrite <- (K3 i q w E); [f_equal; lia|]. now rewrite (ro_values _ _ R1).
Qed.
Lemma names_update d n o d1 : 0 < n -> update_object d n o = Ok d1 -> forall r k, k <> n -> names d1 r k <-> names d r k.
Proof.
  intros N U r k K. destruct (update_inv d n o d1 ltac:(lia) U) as (lx & row & old & ov & El & Ce & Eo & RC & E1). set (e1 := with_del _ _) in *. pose proof (cell_range _ _ _ Ce) as RR.
  assert (O : open_row d row) by (exists lx; auto). assert (O1 : open_row d1 (lset row (Z.to_nat n) (SDict e1))) by (exists lx; rewrite E1; reflexivity).
  rewrite (names_row d row _ _ O), (names_row d1 _ _ _ O1). split; intros (A & e & B & X); (split; [auto|]; exists e; split; [|auto]).
  - rewrite cell_lset in B by lia. tauto.
  - rewrite cell_lset by lia. tauto.
Qed.
Lemma names_deleted d n d1 : 0 < n -> update_object d n PNone = Ok d1 -> forall r, ~ names d1 r n.
Proof.
  intros N U r. destruct (update_inv d n PNone d1 ltac:(lia) U) as (lx & row & old & ov & El & Ce & Eo & RC & E1). set (e1 := with_del _ _) in *. pose proof (cell_range _ _ _ Ce) as RR.
  assert (O1 : open_row d1 (lset row (Z.to_nat n) (SDict e1))) by (exists lx; rewrite E1; reflexivity).
  rewrite (names_row d1 _ _ _ O1). intros (A & e & B & D & X). rewrite cell_lset in B by lia. destruct B as [[_ B]|[B _]]; [|congruence]. injection B as ->. discriminate.
Qed.

(* ---------- trees ---------- *)
Fixpoint retree (f : ref -> ref) (t : ptree) : ptree :=
  match t with
  | Leaf o p => Leaf (ren f o) (ren_dict f p)
  | Node o nd kids => Node (ren f o) (ren_dict f nd) (map (retree f) kids)
  end.
Lemma tref_retree f t : tref (retree f t) = ren f (tref t).
Proof. destruct t; reflexivity. Qed.
Lemma fst_leaves o nd kids : map fst (leaves (Node o nd kids)) = flat_map (fun k => map fst (leaves k)) kids.
Proof.
  cbn [leaves]. induction kids as [|k kids IH]; cbn [flat_map map]; [reflexivity|]. rewrite map_app, map_map. etransitivity; [apply f_equal; exact IH|]. apply (f_equal (fun z => z ++ _)). now apply map_ext.
Qed.
Lemma leaves_retree f t : map fst (leaves (retree f t)) = map (fun x => (ren f (fst x), ren_dict f (snd x))) (map fst (leaves t)).
Proof.
  revert t. apply (ptree_rect2 (fun t => map fst (leaves (retree f t)) = map (fun x => (ren f (fst x), ren_dict f (snd x))) (map fst (leaves t)))).
  - reflexivity.
  - intros o nd kids IH. cbn [retree]. rewrite !fst_leaves. induction IH as [|k kids H F IHk]; cbn [map flat_map]; [reflexivity|]. now rewrite map_app, H, IHk.
Qed.
Lemma retree_holds f c src d : (forall r n p, names src r n -> n <> c -> value src n = Ok (PDict p) -> value d (snd (f r)) = Ok (PDict (ren_dict f p)) /\ 0 < snd (f r)) ->
  (forall p, value src c = Ok (PDict p) -> dget K_Type p <> Some (PStr K_Page) /\ dget K_Type p <> Some (PStr K_Pages)) ->
  forall t, holds src t -> exact_refs src t -> holds d (retree f t).
Proof.
  intros V T. apply (ptree_rect2 (fun t => holds src t -> exact_refs src t -> holds d (retree f t))).
  - intros o p H X. inversion H as [? n ? (gn & -> & N & Vn) Ty|]; subst. inversion X as [? ? ? NM|]; subst. cbn [retree ren].
    assert (NC : n <> c) by (intros ->; destruct (T _ Vn); congruence). destruct (V _ _ _ NM NC Vn) as [V1 V2]. econstructor; [exists (fst (f (gn, n))); split; [reflexivity|]; split; [exact V2|exact V1]|]. rewrite dget_ren, Ty. reflexivity.
  - intros o nd kids IH H X. inversion H as [|? n ? ? (gn & -> & N & Vn) Ty K FH]; subst. inversion X as [|? ? ? ? NM FX]; subst. cbn [retree ren].
    assert (NC : n <> c) by (intros ->; destruct (T _ Vn); congruence). destruct (V _ _ _ NM NC Vn) as [V1 V2]. econstructor; [exists (fst (f (gn, n))); split; [reflexivity|]; split; [exact V2|exact V1]| | |].
    + rewrite dget_ren, Ty. reflexivity.
    + rewrite dget_ren, K. cbn. rewrite !map_map. do 2 f_equal. apply map_ext. intro k. symmetry. apply tref_retree.
    + apply Forall_map. rewrite Forall_forall in *. intros k I. apply IH; auto.
Qed.
Lemma same_depth d t1 : forall t2, holds d t1 -> holds d t2 -> tnum t1 = tnum t2 -> depth t1 = depth t2.
Proof.
  revert t1. apply (ptree_rect2 (fun t1 => forall t2, holds d t1 -> holds d t2 -> tnum t1 = tnum t2 -> depth t1 = depth t2)).
  - intros o p t2 H1 H2 E. inversion H1 as [? n ? (g & -> & N & V) T|]; subst. inversion H2 as [? n2 ? (g2 & -> & N2 & V2) T2|? n2 ? ? (g2 & -> & N2 & V2) T2 K F]; subst; [reflexivity|].
    cbn in E. subst n2. rewrite V in V2. injection V2 as <-. rewrite T in T2. discriminate.
  - intros o nd kids IH t2 H1 H2 E. inversion H1 as [|? n ? ? (g & -> & N & V) T K F]; subst. inversion H2 as [? n2 ? (g2 & -> & N2 & V2) T2|? n2 ? kids2 (g2 & -> & N2 & V2) T2 K2 F2]; subst; cbn in E; subst n2; rewrite V in V2; injection V2 as <-.
    + rewrite T in T2. discriminate.
    + rewrite K in K2. injection K2 as K2. cbn [depth]. f_equal. clear - IH F F2 K2. revert kids2 F2 K2. induction IH as [|k kids Hk IH IHk]; intros [|k2 kids2] F2 K2; cbn in K2; try discriminate; [reflexivity|]. injection K2 as E1 E2.
      inversion F; inversion F2; subst. cbn [fold_right]. f_equal; [apply Hk; auto; unfold tnum; now rewrite E1|]. apply IHk; auto.
Qed.
Lemma holds_avoid d d1 T : holds d T -> (forall n, 0 <= n -> n <> tnum T -> value d1 n = value d n \/ forall v, value d n <> Ok v) ->
  forall t, holds d t -> (depth t < depth T)%nat -> holds d1 t.
Proof.
  intros HT V. apply (ptree_rect2 (fun t => holds d t -> (depth t < depth T)%nat -> holds d1 t)).
  - intros o p H L. inversion H as [? n ? (g & -> & N & Vn) Ty|]; subst. assert (NE : n <> tnum T) by (intros ->; pose proof (same_depth d _ _ H HT eq_refl); lia).
    econstructor; [|exact Ty]. exists g. split; [reflexivity|]. split; [exact N|]. destruct (V n ltac:(lia) NE) as [->|X]; [exact Vn|now apply X in Vn].
  - intros o nd kids IH H L. inversion H as [|? n ? ? (g & -> & N & Vn) Ty K F]; subst. assert (NE : n <> tnum T) by (intros ->; pose proof (same_depth d _ _ H HT eq_refl); lia).
    econstructor; [|exact Ty|exact K|].
    + exists g. split; [reflexivity|]. split; [exact N|]. destruct (V n ltac:(lia) NE) as [->|X]; [exact Vn|now apply X in Vn].
    + rewrite Forall_forall in IH, F |- *. intros k I. apply IH; auto. pose proof (depth_kid (PRef g n) nd kids k I). lia.
Qed.
Lemma names_fun d r r' n : names d r n -> names d r' n -> r = r'.
Proof.
  intros (row & e & O & N & C & D & ->) (row' & e' & O' & _ & C' & _ & ->). assert (row' = row) by (apply (open_fun d); auto). subst row'. f_equal.
  destruct C as [_ C], C' as [_ C']. congruence.
Qed.
Lemma names_pos d r n : names d r n -> 0 < n.
Proof. intros (row & e & O & N & _). auto. Qed.
Lemma update_row0 d n o d1 row : 0 < n -> d_index d = [row] -> update_object d n o = Ok d1 -> exists row1, open_row d1 row1 /\ d_index d1 = [row1] /\ pyget row1 0 = pyget row 0 /\ length row1 = length row.
Proof.
  intros N E U. destruct (update_inv d n o d1 ltac:(lia) U) as (lx & r & old & ov & El & Ce & Eo & RC & E1). rewrite E in El. destruct lx as [|a lx]; [|destruct lx; discriminate]. injection El as <-. pose proof (cell_range _ _ _ Ce) as RR.
  eexists. split; [exists []; rewrite E1; reflexivity|]. split; [rewrite E1; reflexivity|]. split; [|apply lset_length]. apply cells_pyget; [lia|]. intro x. rewrite cell_lset by lia. split; [intros [[X _]|[_ X]]; [lia|auto]|intro X; right; split; [lia|auto]].
Qed.
Lemma first_row0 d row x : d_index d = [row] -> first_xsn d = Ok x -> forall z e, pyget row 0 = Ok z -> z = SDict e -> n_xsn e = x.
Proof. intros E F z e Z ->. unfold first_xsn in F. rewrite E in F. change (pyget [row] 0) with (@Ok (list slot) row) in F. cbn [bind] in F. rewrite Z in F. cbn [bind] in F. congruence. Qed.

Lemma Forall2_copies f (l : list leaf) : (forall y, In y l -> stream_free (leaf_ref y) /\ stream_free (PDict (leaf_page y))) ->
  Forall2 (copy_of f) l (map (fun x => (ren f (fst x), ren_dict f (snd x))) (map fst l)).
Proof.
  induction l as [|y l IH]; intro H; cbn [map]; constructor; [|apply IH; intros; apply H; now right]. destruct (H y (or_introl eq_refl)) as [H1 H2]. split; cbn [fst snd]; [apply (ren_renamed f _ H1)|apply (ren_renamed f _ H2)].
Qed.
Lemma exact_leaf d t : exact_refs d t -> forall y, In y (leaves t) -> exists g, leaf_ref y = PRef g (leaf_num y) /\ names d (g, leaf_num y) (leaf_num y).
Proof.
  revert t. apply (ptree_rect2 (fun t => exact_refs d t -> forall y, In y (leaves t) -> exists g, leaf_ref y = PRef g (leaf_num y) /\ names d (g, leaf_num y) (leaf_num y))).
  - intros o p X y [<-|[]]. inversion X; subst. exists g. split; [reflexivity|assumption].
  - intros o nd kids IH X y I. inversion X as [|? ? ? ? NM FX]; subst. cbn [leaves] in I. apply in_flat_map in I. destruct I as (k & Ik & I). apply in_map_iff in I. destruct I as (z & <- & I). rewrite Forall_forall in IH, FX. exact (IH k Ik (FX k Ik) z I).
Qed.

Lemma nodup_snd (l : list ref) : StronglySorted Z.lt (map snd l) -> NoDup l.
Proof. intro S. apply (NoDup_map_inv snd). now apply sorted_nodup. Qed.

(* what is read from the source *)
Lemma source_spec src ts b s0 dsrc : editable src -> self_numbered src -> all_storable src -> has_tree src ts -> exact_refs src ts -> exact_root src ->
  (forall x, first_xsn src = Ok (Some x) -> x <= 0) -> counted ts b -> squash src = Ok (Some s0, dsrc) ->
  exists f1 l1 cs scat ic jr, catalog_at src cs scat /\ live_numbers src l1 /\ renumbering src 1 l1 f1 /\ squashed src l1 f1 s0 /\
    nth_error l1 ic = Some cs /\ nth_error l1 jr = Some (tnum ts) /\ ic <> jr /\
    catalog_at s0 (1 + Z.of_nat ic) (ren_dict f1 scat) /\ dget K_Pages (ren_dict f1 scat) = Some (PRef 0 (1 + Z.of_nat jr)) /\
    value s0 (1 + Z.of_nat jr) = Ok (PDict (ren_dict f1 (tdict ts))) /\
    dget K_Count (ren_dict f1 (tdict ts)) = Some (PInt b) /\
    exists row z, d_index s0 = [row] /\ pyget row 0 = Ok z /\ forall e x, z = SDict e -> n_xsn e = Some x -> x <= 0.
Proof.
  intros ED SN KP (cs & scat & CA & T1 & T2 & PG & HO & (o & nd & kids & Et)) EX ER FX CT SQ.
  destruct (squash_inv src s0 dsrc cs scat ED SN CA KP SQ) as (_ & l1 & f1 & LN & RN & SD & (row & x & EI & FX1 & FX2 & _)).
  pose proof CA as (t & root & VT & Er & (gc & -> & NC & VC)). pose proof (ER t gc cs VT Er) as NMc.
  assert (NMr : exists g, tref ts = PRef g (tnum ts) /\ names src (g, tnum ts) (tnum ts)).
  { subst ts. inversion EX as [|g n ? ? NM _]; subst. exists g. split; [reflexivity|exact NM]. }
  destruct NMr as (gr & TR & NMr).
  assert (VR : value src (tnum ts) = Ok (PDict (tdict ts))).
  { subst ts. inversion HO as [|? n ? ? (g & -> & N & V) Ty K FH]; subst. exact V. }
  assert (IX : forall r n, names src r n -> exists i, nth_error l1 i = Some n).
  { intros r n N. apply In_nth_error. apply LN. eauto. }
  destruct (IX _ _ NMc) as [ic Ic]. destruct (IX _ _ NMr) as [jr Jr].
  assert (VAL : forall i n r v, nth_error l1 i = Some n -> names src r n -> value src n = Ok v -> value s0 (1 + Z.of_nat i) = Ok (ren f1 v)).
  { intros i n r v E N V. destruct (sq_values _ _ _ _ SD i n E) as (w & w' & W & CW & W'). replace (1 + Z.of_nat i) with (Z.of_nat i + 1) by lia. rewrite W'. assert (w = v) by congruence. subst w. now rewrite (carried_ren _ _ _ CW). }
  assert (NIJ : ic <> jr).
  { intros ->. assert (cs = tnum ts) by congruence. subst ts cs. rewrite VC in VR. injection VR as X. cbn [tdict] in X. inversion HO as [|? ? ? ? _ Ty _ _]; subst. congruence. }
  exists f1, l1, cs, scat, ic, jr. split; [auto|]. split; [auto|]. split; [auto|]. split; [auto|]. split; [auto|]. split; [auto|]. split; [auto|]. split; [|split; [|split; [|split]]].
  - destruct (sq_root _ _ _ _ SD) as (t' & rt & rt' & VT' & Er' & RR & V0). assert (t' = t) by congruence. subst t'. assert (rt = PRef gc cs) by congruence. subst rt.
    exists [(K_Root, rt')], rt'. split; [auto|]. split; [reflexivity|]. assert (RR' : rt' = ren f1 (PRef gc cs)) by (eapply renamed_fun; [exact RR|apply ren_renamed; now apply sf_leaf]). 
    rewrite RR'. cbn [ren]. rewrite (proj1 RN ic cs (gc, cs) Ic NMc). exists 0. split; [reflexivity|]. split; [lia|]. exact (VAL ic cs _ _ Ic NMc VC).
  - rewrite dget_ren, PG. cbn [option_map]. rewrite TR. cbn [ren]. now rewrite (proj1 RN jr _ _ Jr NMr).
  - exact (VAL jr _ _ _ Jr NMr VR).
  - rewrite dget_ren. unfold counted in CT. now rewrite CT.
  - unfold first_xsn in FX2. rewrite EI in FX2. change (pyget [row] 0) with (@Ok (list slot) row) in FX2. cbn [bind] in FX2. destruct (pyget row 0) as [z| |] eqn:Z; cbn [bind] in FX2; try discriminate.
    exists row, z. split; [auto|]. split; [auto|]. intros e q -> Q. injection FX2 as FX2. apply FX. rewrite FX1. f_equal. destruct (truthy x); congruence.
Qed.

Lemma concat_spec left right (tl : bool) d tt ts a b : let tgt := if tl then left else right in let src := if tl then right else left in
  editable tgt -> editable src -> self_numbered src -> all_storable src -> has_tree tgt tt -> has_tree src ts -> exact_refs src ts -> exact_root src ->
  (forall x, first_xsn src = Ok (Some x) -> x <= 0) -> counted tt a -> counted ts b -> concat_docs left right tl = Ok d ->
  exists f t copies, joined tgt src f (tnum tt) d /\ has_tree d t /\ Forall2 (copy_of f) (leaves ts) copies /\
    map fst (leaves t) = (if tl then map fst (leaves tt) ++ copies else copies ++ map fst (leaves tt)) /\
    counted t (a + b) /\ tref t = tref tt /\
    (forall k, k <> K_Kids -> k <> K_Count -> dget k (tdict t) = dget k (tdict tt)).
Proof.
  intros tgt src EDT ED SN KP HT HS EX ER FX CA CB H. unfold concat_docs in H. cbv zeta in H. fold tgt in H. fold src in H.
  pose proof (editable_coherent tgt EDT) as CT. pose proof HT as (c & cat & CTt & T1 & T2 & PG & HO & (o & nd & kids & Et)).
  destruct (last_row tgt) as [row| |] eqn:LR; cbn [bind] in H; try discriminate. pose proof (last_open _ _ LR) as O.
  destruct (catalog_read tgt c cat CT CTt) as (g & new1 & EC & RN1). rewrite EC in H. cbn [bind] in H.
  destruct (squash src) as [[so dsrc]| |] eqn:SQ; cbn [bind] in H; try discriminate. destruct so as [s0|]; cbn [of_opt bind] in H; try discriminate.
  destruct (source_spec src ts b s0 dsrc ED SN KP HS EX ER FX CB SQ) as (f1 & l1 & cs & scat & ic & jr & CAs & LN & RN & SD & Ic & Jr & NIJ & CA0 & PG0 & VR0 & CT0 & (row0 & z0 & EI0 & Z0 & XS0)).
  pose proof (sq_editable _ _ _ _ SD) as ED0. pose proof (editable_coherent s0 ED0) as C0.
  destruct (catalog_read s0 _ _ C0 CA0) as (g0 & s1 & EC0 & R01). rewrite EC0 in H. cbn [bind item] in H. rewrite PG0 in H. cbn [of_opt bind] in H.
  assert (P1 : points_at s1 (PRef 0 (1 + Z.of_nat jr)) (1 + Z.of_nat jr) (PDict (ren_dict f1 (tdict ts)))).
  { exists 0. split; [auto|]. split; [lia|]. rewrite (ro_values _ _ R01); [auto|lia]. }
  destruct (points_read s1 _ _ _ (ro_coherent _ _ R01) P1) as (s2 & G2 & R12). rewrite G2 in H. cbn [bind item] in H. rewrite CT0 in H. cbn [of_opt bind get_object ref_of snd fst] in H.
  assert (R02 : read_only s0 s2) by (eapply read_only_trans; eauto).
  destruct (update_object s2 (1 + Z.of_nat ic) PNone) as [s4| |] eqn:U4; cbn [bind] in H; try discriminate.
  assert (ED2 : editable s2) by (eapply editable_ro; eauto). assert (IP : 0 < 1 + Z.of_nat ic) by lia. pose proof (update_spec s2 _ _ s4 ED2 IP U4) as UP.
  destruct (update_row0 s2 (1 + Z.of_nat ic) PNone s4 row0 IP (eq_trans (ro_index _ _ R02) EI0) U4) as (row4 & O4 & EI4 & Z4 & L4).
  rewrite (open_last _ _ O4) in H. cbn [bind] in H. rewrite Z4, Z0 in H. cbn [bind] in H.
  destruct z0 as [|ze|zl]; cbn [bind] in H; try discriminate.
  assert (S5 : (match n_xsn ze with Some x => if 0 <? x then update_object s4 x PNone else Ok s4 | None => Ok s4 end) = Ok s4).
  { destruct (n_xsn ze) as [x|] eqn:NX; [|auto]. pose proof (XS0 ze x eq_refl NX).
    now replace (0 <? x) with false by lia. }
  rewrite S5 in H. cbn [bind] in H. clear S5.
  assert (N0 : forall r n, names s2 r n <-> names s0 r n).
  { intros r n. unfold names, open_row. rewrite (ro_index _ _ R02). tauto. }
  assert (N4 : forall r n, names s4 r n <-> r = (0, n) /\ 1 <= n <= Z.of_nat (length l1) /\ n <> 1 + Z.of_nat ic).
  { intros r n. destruct (Z.eq_dec n (1 + Z.of_nat ic)) as [->|NE].
    - split; [intro X; destruct (names_deleted s2 _ s4 IP U4 r X)|tauto].
    - rewrite (names_update s2 _ _ s4 IP U4 r n NE), N0. split; [intro X; split; [exact (sq_gen _ _ _ _ SD r n X)|]; split; [apply (sq_live _ _ _ _ SD); eauto|auto]|].
      intros (-> & L & _). apply (sq_live _ _ _ _ SD) in L. destruct L as [r X]. now rewrite (sq_gen _ _ _ _ SD r n X) in X. }
  pose proof (up_editable _ _ _ _ UP) as ED4.
  destruct (in_use_doc s4 ED4) as (objs & IU & SS & IN). { exists row4. split; [auto|]. destruct row4; [rewrite Z0 in Z4; discriminate|discriminate]. }
  rewrite IU in H. cbn [bind] in H. pose proof (nodup_snd objs SS) as ND. set (start := Z.of_nat (length row)) in *. set (m := number_from start objs) in *.
  assert (IO : forall n, 1 <= n <= Z.of_nat (length l1) -> n <> 1 + Z.of_nat ic -> In (0, n) objs) by (intros n L NE; apply IN, N4; auto).
  assert (OI : forall r, In r objs -> fst r = 0 /\ 1 <= snd r <= Z.of_nat (length l1) /\ snd r <> 1 + Z.of_nat ic).
  { intros [gg n] I. apply IN, N4 in I. destruct I as (E & X). injection E as ->. auto. }
  (* the values of the source *)
  assert (VS : forall i n v, nth_error l1 i = Some n -> n <> cs -> value src n = Ok v -> 1 <= 1 + Z.of_nat i <= Z.of_nat (length l1) /\ i <> ic /\ value s4 (1 + Z.of_nat i) = Ok (ren f1 v) /\ storable_value v).
  { intros i n v E NC V. assert (NI : i <> ic) by (intros ->; congruence). assert (LI : (i < length l1)%nat) by (apply nth_error_Some; congruence). split; [lia|]. split; [auto|].
    destruct (sq_values _ _ _ _ SD i n E) as (w & w' & W & CW & W'). assert (w = v) by congruence. subst w. split.
    - rewrite (up_other _ _ _ _ UP) by lia. rewrite (ro_values _ _ R02) by lia. replace (1 + Z.of_nat i) with (Z.of_nat i + 1) by lia. rewrite W'. now rewrite (carried_ren _ _ _ CW).
    - assert (exists r, names src r n) as [r NM] by (apply LN; eapply nth_error_In; eauto). exact (KP r n v NM V). }
  assert (VO : forall r, In r objs -> exists i n v, snd r = 1 + Z.of_nat i /\ nth_error l1 i = Some n /\ n <> cs /\ value src n = Ok v).
  { intros r I. destruct (OI r I) as (_ & L & NE). destruct (nth_error l1 (Z.to_nat (snd r - 1))) as [n|] eqn:E; [|apply nth_error_None in E; lia].
    destruct (sq_values _ _ _ _ SD _ n E) as (v & _ & V & _). exists (Z.to_nat (snd r - 1)), n, v. split; [lia|]. split; [auto|]. split; [|auto]. intros ->.
    pose proof (proj1 (NoDup_nth_error l1) (sorted_nodup _ (proj1 LN)) ic (Z.to_nat (snd r - 1))) as U. rewrite Ic, E in U. specialize (U ltac:(apply nth_error_Some; congruence) eq_refl). lia. }
  destruct (copy_objs s4 new1 m objs) as [[s5 new2]| |] eqn:CO; cbn [bind] in H; try discriminate.
  pose proof (editable_ro tgt new1 EDT RN1) as ED1.
  assert (O1 : open_row new1 row) by (destruct O as [lx EO]; exists lx; now rewrite (ro_index _ _ RN1)).
  destruct (copy_objs_spec m objs s4 new1 s5 new2 (editable_coherent _ ED4) ED1) as (EDN2 & _ & K); [|exact CO|].
  { apply Forall_forall. intros r I. destruct (VO r I) as (i & n & v & Er & E & NC & V). destruct (VS i n v E NC V) as (L & NI & V4 & ST). rewrite Er. split; [lia|]. exists (ren f1 v). split; [auto|]. intro X. apply ren_none in X. destruct ST. congruence. }
  destruct (K row O1) as (K1 & (row2 & O2 & L2) & K3). clear K.
  (* the renaming *)
  set (f := fun r => rename m (f1 r)).
  assert (FF : forall i n r, nth_error l1 i = Some n -> n <> cs -> names src r n -> exists j, nth_error objs j = Some (0, 1 + Z.of_nat i) /\ f r = (0, start + Z.of_nat j)).
  { intros i n r E NC NM. assert (NI : i <> ic) by (intros ->; congruence). assert (LI : (i < length l1)%nat) by (apply nth_error_Some; congruence).
    destruct (In_nth_error _ _ (IO (1 + Z.of_nat i) ltac:(lia) ltac:(lia))) as [j J]. exists j. split; [auto|]. unfold f. rewrite (proj1 RN i n r E NM). unfold m. now rewrite (rename_number objs start j _ ND J). }
  assert (JV : forall r n v, names src r n -> n <> cs -> value src n = Ok v -> exists k, f r = (0, k) /\ start <= k /\ value new2 k = Ok (ren f v) /\ storable_value v).
  { intros r n v NM NC V. assert (exists i, nth_error l1 i = Some n) as [i E] by (apply In_nth_error, LN; eauto). destruct (FF i n r E NC NM) as (j & J & Fr). exists (start + Z.of_nat j). split; [auto|]. split; [lia|].
    destruct (VS i n v E NC V) as (_ & _ & V4 & ST). split; [|auto]. unfold start. rewrite (K3 j _ (ren f1 v) J V4). now rewrite ren_ren. }
  (* the root of the target *)
  cbn [item] in H. rewrite PG in H. cbn [of_opt bind] in H. subst tt. inversion HO as [|? n ? ? (gr & -> & NR & VR) Ty KD FH]; subst. cbn [tref] in H.
  assert (NL : n < start) by (unfold start; eapply value_range; eauto; lia).
  assert (V2 : value new2 n = Ok (PDict nd)) by (rewrite K1 by (fold start; lia); rewrite (ro_values _ _ RN1); [auto|lia]).
  destruct (read_ok new2 gr n _ (editable_coherent _ EDN2) ltac:(lia) V2) as (new3 & G3 & R23). rewrite G3 in H. cbn [bind item] in H.
  unfold counted in CA. cbn [tdict] in CA. rewrite CA in H. cbn [of_opt bind get_object] in H. rewrite KD in H. cbn [of_opt bind get_object ref_of] in H.
  assert (TGT : exists k, assoc_ref (0, 1 + Z.of_nat jr) m = Some (0, k) /\ f (match tref ts with PRef g n => (g, n) | _ => (0, 0) end) = (0, k) /\ start <= k).
  { assert (NM : exists g, tref ts = PRef g (tnum ts) /\ names src (g, tnum ts) (tnum ts)).
    { destruct HS as (? & ? & _ & _ & _ & _ & _ & (o & nd' & kids' & ->)). inversion EX as [|g' n' ? ? NM _]; subst. exists g'. split; [reflexivity|exact NM]. }
    destruct NM as (gg & TR & NM). rewrite TR.
    assert (NC : tnum ts <> cs) by (intro X; rewrite X in Jr; apply NIJ; apply (proj1 (NoDup_nth_error l1) (sorted_nodup _ (proj1 LN))); [apply nth_error_Some; congruence|congruence]).
    destruct (FF jr _ _ Jr NC NM) as (j & J & Fr). exists (start + Z.of_nat j). split; [|split; [exact Fr|lia]].
    pose proof (rename_number objs start j _ ND J) as X. unfold rename in X. change (number_from start objs) with m in X. destruct (assoc_ref (0, 1 + Z.of_nat jr) m) as [y|] eqn:Y; [now rewrite X|]. apply assoc_ref_None in Y. destruct Y. unfold m. rewrite number_keys. eapply nth_error_In; eauto. }
  destruct TGT as (kx & AS & FT & KX). rewrite AS in H. cbn [of_opt bind py_add dict_of ref_of snd fst] in H.
  set (x := PRef 0 kx) in *. set (kids' := if tl then map tref kids ++ [x] else x :: map tref kids) in *. set (nd' := dset K_Count (PInt (a + b)) (dset K_Kids (PList kids') nd)) in *.
  assert (EDN3 : editable new3) by (eapply editable_ro; eauto). pose proof (update_spec new3 n _ d EDN3 NR H) as UD.
  assert (VD : forall k, 0 <= k -> k <> n -> value d k = value new2 k) by (intros k K0 KN; rewrite (up_other _ _ _ _ UD) by auto; apply (ro_values _ _ R23); auto).
  assert (VT : forall k, 0 <= k < start -> k <> n -> value d k = value tgt k).
  { intros k K0 KN. rewrite VD by (auto; lia). rewrite K1 by (fold start; lia). apply (ro_values _ _ RN1). lia. }
  assert (JD : forall r k v, names src r k -> k <> cs -> value src k = Ok v -> exists q, f r = (0, q) /\ start <= q /\ value d q = Ok (ren f v) /\ storable_value v).
  { intros r k v NM NC V. destruct (JV r k v NM NC V) as (q & A1 & A2 & A3 & A4). exists q. split; [auto|]. split; [auto|]. split; [|auto]. rewrite VD by lia. exact A3. }
  destruct HS as (cs' & scat' & CAs' & T1' & T2' & PG' & HO' & ES).
  assert (CSE : forall u v, catalog_at src u v -> u = cs).
  { intros u v (t1 & r1 & A1 & A2 & (q1 & -> & A3 & A4)). destruct CAs as (t2 & r2 & B1 & B2 & (q2 & -> & B3 & B4)). congruence. }
  assert (HT' : holds d (retree f ts)).
  { apply (retree_holds f cs src d); [| |exact HO'|exact EX].
    - intros r k p NM NC V. destruct (JD r k _ NM NC V) as (q & A1 & A2 & A3 & _). rewrite A1. cbn [snd]. split; [exact A3|]. lia.
    - intros p V. pose proof (CSE cs' scat' CAs') as QE. subst cs'. destruct CAs' as (t2 & r2 & B1 & B2 & (q2 & -> & B3 & B4)). rewrite V in B4. injection B4 as ->. auto. }
  set (kt := if tl then kids ++ [retree f ts] else retree f ts :: kids).
  exists f, (Node (PRef gr n) nd' kt), (map (fun x => (ren f (fst x), ren_dict f (snd x))) (map fst (leaves ts))).
  assert (XR : x = tref (retree f ts)).
  { rewrite tref_retree. destruct ES as (o & ndd & kk & ->). inversion EX as [|g' n' ? ? NM _]; subst. cbn [tref ren] in *. rewrite FT. reflexivity. }
  assert (KDG : dget K_Kids nd' = Some (PList (map tref kt))).
  { unfold nd'. rewrite dget_dset_neq by discriminate. rewrite dget_dset_eq. f_equal. f_equal. unfold kids', kt. destruct tl; [rewrite map_app|]; cbn [map]; now rewrite XR. }
  split; [|split; [|split; [|split; [|split; [|split]]]]].
  - constructor.
    + exact (up_editable _ _ _ _ UD).
    + intros row' k O' L NE. assert (row' = row) by (apply (open_fun tgt); auto). subst row'. apply VT; auto.
    + intros u v r k w CU NM NC V. rewrite (CSE u v CU) in NC. destruct (JD r k w NM NC V) as (q & A1 & A2 & A3 & A4). exists q, (ren f w). split; [auto|]. split; [intros row' O'; assert (row' = row) by (apply (open_fun tgt); auto); subst row'; exact A2|]. split; [now apply ren_carried|auto].
    + intros u v r r' k k' CU NM NC NM' NC' E. rewrite (CSE u v CU) in NC, NC'.
      assert (exists i, nth_error l1 i = Some k) as [i Ei] by (apply In_nth_error, LN; eauto). assert (exists i, nth_error l1 i = Some k') as [i' Ei'] by (apply In_nth_error, LN; eauto).
      destruct (FF i k r Ei NC NM) as (j & J & Fr). destruct (FF i' k' r' Ei' NC' NM') as (j' & J' & Fr'). assert (QJ : start + Z.of_nat j = start + Z.of_nat j') by congruence. assert (j = j') by (clear - QJ; lia). subst j'. assert (QI : 1 + Z.of_nat i = 1 + Z.of_nat i') by congruence. assert (i = i') by (clear - QI; lia). subst i'.
      assert (k = k') by congruence. subst k'. eapply names_fun; eauto.
  - destruct CTt as (tr & rt & B1 & B2 & (gc & -> & B3 & B4)). exists c, cat.
    assert (CN : c <> n) by (intros ->; rewrite VR in B4; injection B4 as <-; congruence).
    assert (CL : c < start) by (unfold start; eapply value_range; eauto; lia).
    split; [|split; [auto|split; [auto|split; [exact PG|split]]]].
    + exists tr, (PRef gc c). split; [rewrite VT; [auto|lia|lia]|]. split; [auto|]. exists gc. split; [auto|]. split; [auto|]. rewrite VT; [auto|lia|auto].
    + econstructor; [exists gr; split; [reflexivity|]; split; [exact NR|exact (up_value _ _ _ _ UD)]| |exact KDG|].
      * unfold nd'. rewrite !dget_dset_neq by discriminate. exact Ty.
      * assert (FK : Forall (holds d) kids).
        { rewrite Forall_forall in FH |- *. intros k I. apply (holds_avoid tgt d (Node (PRef gr n) nd kids) HO); [|auto|eapply depth_kid; eauto]. cbn. intros q Q QN. destruct (Z_lt_ge_dec q start) as [L|G]; [left; apply VT; [lia|auto]|].
          right. intros w W. pose proof (value_range tgt q w Q W row O). lia. }
        unfold kt. destruct tl; [apply Forall_app; split; [exact FK|constructor; [exact HT'|constructor]]|constructor; [exact HT'|exact FK]].
    + eauto.
  - apply Forall2_copies. intros y I. pose proof (leaf_holds src ts HO') as LH. rewrite Forall_forall in LH. destruct (LH y I) as (k & (gk & EK & NK & VK) & TK). split; [rewrite EK; now apply sf_leaf|]. destruct (exact_leaf src ts EX y I) as (gy & EY & NY). rewrite EK in EY. injection EY as -> ->. destruct (KP _ _ _ NY VK) as [_ [SF|(? & ? & ? & X)]]; [exact SF|discriminate].
  - unfold kt. rewrite !fst_leaves. destruct tl; cbn [flat_map]; [rewrite flat_map_app; cbn [flat_map]; rewrite app_nil_r|]; now rewrite leaves_retree.
  - unfold counted, nd'. cbn [tdict]. apply dget_dset_eq.
  - reflexivity.
  - intros k K1' K2'. cbn [tdict]. unfold nd'. now rewrite !dget_dset_neq by auto.
Qed.

(* ---------- tests on concrete documents ---------- *)
Fixpoint sfb (o : obj) : bool :=
  match o with
  | PList l => forallb sfb l
  | PDict d => forallb (fun kv => match kv with (_, v) => sfb v end) d
  | PStream _ _ _ => false
  | _ => true
  end.
Lemma sfb_ok o : sfb o = true -> stream_free o.
Proof.
  induction o as [|b|z|x e|s|s|g n|l IH|d IH|d s e IH] using obj_ind'; cbn [sfb]; intro H; try (apply sf_leaf; exact Logic.I).
  - apply sf_list. rewrite forallb_forall in H. rewrite Forall_forall in IH |- *. auto.
  - apply sf_dict. rewrite forallb_forall in H. rewrite Forall_forall in IH |- *. intros [k v] I. exact (IH _ I (H _ I)).
  - discriminate.
Qed.
Definition nameb (d : doc) (g n : Z) : bool :=
  match last_row d with
  | Ok row => (0 <? n) && match pyget row n with Ok (SDict e) => negb (n_del e) && (n_gen e =? g) | _ => false end
  | _ => false
  end.
Lemma nameb_ok d g n : nameb d g n = true <-> names d (g, n) n.
Proof.
  unfold nameb. split.
  - destruct (last_row d) as [row| |] eqn:L; try discriminate. intro H. apply andb_prop in H. destruct H as [N H]. destruct (pyget row n) as [s| |] eqn:P; try discriminate. destruct s as [|e|]; try discriminate.
    apply andb_prop in H. destruct H as [D G]. exists row, e. split; [now apply last_open|]. split; [lia|]. split; [apply pyget_cell; [lia|auto]|]. split; [now apply negb_true_iff|f_equal; lia].
  - intros (row & e & O & N & C & D & E). injection E as ->. rewrite (open_last _ _ O). apply andb_true_intro. split; [lia|]. rewrite (proj2 (pyget_cell row n _ ltac:(lia)) C). rewrite D. cbn. lia.
Qed.
Fixpoint exactb (d : doc) (t : ptree) : bool :=
  match t with
  | Leaf (PRef g n) _ => nameb d g n
  | Node (PRef g n) _ kids => nameb d g n && forallb (exactb d) kids
  | _ => false
  end.
Lemma exactb_ok d t : exactb d t = true -> exact_refs d t.
Proof.
  revert t. apply (ptree_rect2 (fun t => exactb d t = true -> exact_refs d t)).
  - intros o p. cbn. destruct o; try discriminate. intro H. constructor. now apply nameb_ok.
  - intros o nd kids IH. cbn. destruct o; try discriminate. intro H. apply andb_prop in H. destruct H as [H1 H2]. constructor; [now apply nameb_ok|]. rewrite forallb_forall in H2. rewrite Forall_forall in IH |- *. auto.
Qed.
(* the cells from 1 on, with the tests for self_numbered and all_storable *)
Definition squashable (d : doc) : bool :=
  match last_row d with
  | Ok row => forallb (fun n =>
      match pyget row n with
      | Ok (SDict e) => (n_num e =? n) &&
          (n_del e || match value d n with Ok v => negb (is_none v) && (sfb v || match v with PStream _ _ _ => true | _ => false end) | _ => false end)
      | _ => true
      end) (nums row)
  | _ => false
  end.
Lemma squashable_ok d : squashable d = true -> self_numbered d /\ all_storable d /\ forall r n, names d r n -> exists v, value d n = Ok v.
Proof.
  unfold squashable. destruct (last_row d) as [row| |] eqn:L; try discriminate. intro H. rewrite forallb_forall in H. pose proof (last_open _ _ L) as O.
  assert (X : forall n e, 0 < n -> cell row n (SDict e) -> n_num e = n /\ (n_del e = false -> exists v, value d n = Ok v /\ storable_value v)).
  { intros n e N C. pose proof (cell_range _ _ _ C). specialize (H n ltac:(apply in_nums; lia)). rewrite (proj2 (pyget_cell row n _ ltac:(lia)) C) in H. apply andb_prop in H. destruct H as [H1 H2]. split; [lia|]. intro D. rewrite D in H2. cbn [orb] in H2.
    destruct (value d n) as [v| |]; try discriminate. exists v. split; [auto|]. apply andb_prop in H2. destruct H2 as [H2 H3]. split; [intros ->; discriminate|]. apply orb_prop in H3. destruct H3 as [H3|H3]; [left; now apply sfb_ok|right]. destruct v; try discriminate. eauto. }
  split; [|split].
  - intros r n e Or N C. assert (r = row) by (apply (open_fun d); auto). subst r. now apply X.
  - intros r n v NM V. destruct (proj1 (names_row d row r n O) NM) as (N & e & C & D & _). destruct (proj2 (X n e N C) D) as (w & W & S). congruence.
  - intros r n NM. destruct (proj1 (names_row d row r n O) NM) as (N & e & C & D & _). destruct (proj2 (X n e N C) D) as (w & W & S). eauto.
Qed.
Definition rootb (d : doc) : bool :=
  match value d 0 with
  | Ok (PDict t) => match dget K_Root t with Some (PRef g n) => nameb d g n | _ => true end
  | _ => true
  end.
Lemma rootb_ok d : rootb d = true -> exact_root d.
Proof. unfold rootb, exact_root. intros H t g n V E. rewrite V, E in H. now apply nameb_ok. Qed.
End WithZlib.
