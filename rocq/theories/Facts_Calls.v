(* Calls of the api that read or edit a document *)
From Coq Require Import String Sorted.
From Verif Require Import PyBase Model_Filters Model_Objects Model_Filestruct Model_Text Model_Docstruct Model_Api.
From Verif Require Import Spec_Objects Spec_Filters Spec_Filestruct Spec_Docstruct Spec_Pages Spec_Squash Spec_Calls.
From Verif Require Import Facts_Base Facts_Obj Facts_Filters Facts_Revision Facts_Doc Facts_Edit Facts_Squash Facts_Pages Facts_Checks Facts_Objstm.
From Coq Require Import ZifyBool ZifyNat.

Section WithZlib.
Context {ZL : Zlib}.

Lemma names_ro d d1 r n : read_only d d1 -> names d1 r n <-> names d r n.
Proof. intros [R1 _ _ _ _]. unfold names, open_row. now rewrite R1. Qed.

(* ---------- list_streams ---------- *)
Lemma streams_spec l : forall d, coherent d -> Forall (fun r : ref => 0 < snd r) l -> StronglySorted Z.lt (map snd l) ->
  (forall m d1, streams_of d l = Ok (m, d1) -> read_only d d1 /\ StronglySorted Z.lt m /\
    forall n, In n m <-> In n (map snd l) /\ exists x c e, value d n = Ok (PStream x c e)) /\
  ((forall r, In r l -> exists v, value d (snd r) = Ok v) -> exists m d1, streams_of d l = Ok (m, d1)).
Proof.
  induction l as [|[g n] l IH]; intros d C P SO; cbn [streams_of].
  - split; [|eauto]. intros m d1 E. injection E as <- <-. split; [now apply read_only_refl|]. split; [constructor|]. intro n. cbn [map In]. tauto.
  - inversion P as [|? ? N P']; subst. cbn [snd fst] in *. cbn [map snd] in SO. inversion SO as [|? ? SO' LT]; subst. split.
    + intros m d1 E. destruct (get_object d (PRef g n)) as [[v d2]| |] eqn:G; cbn [bind] in E; try discriminate.
      pose proof (get_ro d g n v d2 C ltac:(lia) G) as R. pose proof (value_get _ _ _ _ _ G) as V.
      destruct (streams_of d2 l) as [[m2 d3]| |] eqn:E2; cbn [bind] in E; try discriminate. injection E as <- <-.
      destruct (proj1 (IH d2 (ro_coherent _ _ R) P' SO') m2 d3 E2) as (R2 & SS & I). split; [eapply read_only_trans; eauto|].
      assert (I' : forall k, In k m2 <-> In k (map snd l) /\ exists x c e, value d k = Ok (PStream x c e)).
      { intro k. rewrite I. split; intros (A & x & c & e & B); (split; [auto|]); exists x, c, e; [rewrite <- (ro_values _ _ R); [auto|]|rewrite (ro_values _ _ R); [auto|]]; (apply in_map_iff in A; destruct A as (r & <- & A); rewrite Forall_forall in P'; specialize (P' r A); lia). }
      assert (LTm : Forall (Z.lt n) m2). { rewrite Forall_forall in *. intros k Ik. apply I' in Ik. destruct Ik as [Ik _]. auto. }
      cbn [map snd In]. destruct v as [| | | | | | | | |x c e]; try (split; [auto|]; intro k; rewrite I'; split; [tauto|]; intros [[<-|A] B]; [|auto]; rewrite V in B; destruct B as (? & ? & ? & B); discriminate).
      split; [constructor; auto|]. intro k. cbn [In]. rewrite I'. split; [intros [<-|B]; [split; [auto|]; eauto|tauto]|tauto].
    + intros H. destruct (H (g, n) (or_introl eq_refl)) as [v V]. cbn [snd] in V. destruct (read_ok d g n v C ltac:(lia) V) as (d1 & G & R). rewrite G. cbn [bind].
      destruct (proj2 (IH d1 (ro_coherent _ _ R) P' SO')) as (m & d2 & E).
      { intros r Ir. destruct (H r (or_intror Ir)) as [w W]. exists w. rewrite (ro_values _ _ R); [auto|]. rewrite Forall_forall in P'. specialize (P' r Ir). lia. }
      rewrite E. cbn [bind]. eauto.
Qed.
Lemma in_use_tidy d row : open_row d row -> Spec_Docstruct.tidy row -> row <> [] ->
  exists l, in_use d (-1) = Ok l /\ StronglySorted Z.lt (map snd l) /\ (forall g n, In (g, n) l <-> names d (g, n) n) /\ Forall (fun r : ref => 0 < snd r) l.
Proof.
  intros O T NR. destruct (in_use_spec row T NR) as (l & E & SS & I). exists l. unfold in_use. pose proof O as O'. destruct O as [ix Ei]. rewrite Ei, pyget_last. cbn [bind]. split; [exact E|]. split; [exact SS|]. split.
  - intros g n. rewrite I, (names_row d row _ _ O'). split; intros (A & e & B & D & X); (split; [auto|]; exists e; split; [auto|]; split; [auto|]; congruence).
  - apply Forall_forall. intros [g n] J. apply I in J. exact (proj1 J).
Qed.
Theorem list_streams_spec d row : coherent d -> open_row d row -> Spec_Docstruct.tidy row -> row <> [] ->
  (forall l d1, list_streams d = Ok (l, d1) -> stream_numbers d l /\ same_values d d1) /\
  (readable d -> exists l d1, list_streams d = Ok (l, d1)).
Proof.
  intros C O T NR. destruct (in_use_tidy d row O T NR) as (l & E & SS & I & P). unfold list_streams. rewrite E. cbn [bind].
  destruct (streams_spec l d C P SS) as [A B]. split.
  - intros m d1 H. destruct (A m d1 H) as (R & SM & J). split; [|exact (ro_values _ _ R)]. split; [exact SM|]. intro n. rewrite J.
    assert (X : In n (map snd l) <-> exists r, names d r n).
    { rewrite in_map_iff. split.
      - intros ([g k] & <- & K). exists (g, k). now apply I.
      - intros ([g k] & N). assert (k = n) by (destruct N as (? & ? & _ & _ & _ & _ & N); congruence). subst k. exists (g, n). split; [auto|]. now apply I. }
    rewrite X. tauto.
  - intro RD. apply B. intros [g n] J. apply I in J. cbn [snd]. eauto.
Qed.

(* ---------- apply_filter ---------- *)
Lemma obj_at_ok d n v : editable d -> 0 < n -> value d n = Ok v -> exists d1, obj_at d n = Ok (v, d1) /\ read_only d d1.
Proof.
  intros ED N V. pose proof (editable_coherent d ED) as C. pose proof ED as (_ & _ & (row & O) & H). pose proof (value_range d n v ltac:(lia) V row O) as RG.
  unfold obj_at. rewrite (open_last _ _ O). cbn [bind]. destruct (pyget_range row n ltac:(lia)) as [s Cs]. rewrite (proj2 (pyget_cell row n s ltac:(lia)) Cs). cbn [bind].
  destruct (H row O) as [_ H2]. destruct (H2 n s N Cs) as (e & -> & _). cbn [as_dict bind]. apply read_ok; auto. lia.
Qed.
Lemma dget_ddel_eq k d : dget k (ddel k d) = None.
Proof. induction d as [|[k' v] d IH]; cbn [ddel filter dget fst]; [auto|]. destruct (beqb k k') eqn:E; cbn [negb]; [exact IH|]. cbn [dget]. rewrite E. exact IH. Qed.
Lemma refilter_roundtrip (flt : bytes) (x : dict) (c : bytes) :
  (forall b, Forall isbyte b -> z_decompress (z_compress b) = Some b) -> Forall isbyte c -> dget K_DecodeParms x = None ->
  supported flt \/ flt = [] /\ dget K_Filter x <> None ->
  let x1 := match dget K_Filter x, flt with Some _, [] => ddel K_Filter x | _, _ => dset K_Filter (PStr flt) x end in
  exists x' e', (exists len, forge_stream x1 c = Ok (PStream x' (Some c) (Some e'), len)) /\
    dget K_Filter x' = (match flt with [] => None | _ => Some (PStr flt) end) /\
    (forall k, k <> K_Filter -> k <> K_Length -> dget k x' = dget k x) /\
    decode_stream (Some e') x' = Ok (Some c).
Proof.
  intros ZZ BC NP S x1.
  assert (F1 : dget K_Filter x1 = match flt with [] => None | _ => Some (PStr flt) end).
  { unfold x1. destruct (dget K_Filter x) eqn:E; [|destruct S as [S|[-> S]]; [|congruence]; destruct flt; [destruct S as [S|[S|S]]; discriminate S|apply dget_dset_eq]].
    destruct flt; [apply dget_ddel_eq|apply dget_dset_eq]. }
  assert (K1 : forall k, k <> K_Filter -> dget k x1 = dget k x).
  { intros k K. unfold x1. destruct (dget K_Filter x), flt; try (apply dget_dset_neq; exact K). now apply dget_ddel_neq. }
  assert (RT : exists e, encode_stream c x1 = Ok e /\ forall y, dget K_Filter y = dget K_Filter x1 -> dget K_DecodeParms y = dget K_DecodeParms x1 -> decode_stream (Some e) y = Ok (Some c)).
  { destruct flt as [|z flt].
    - destruct (nofilter_roundtrip x1 c F1) as [A B]. exists c. split; [auto|]. intros y Y1 Y2. destruct (nofilter_roundtrip y c) as [_ Q]; [rewrite Y1; exact F1|exact Q].
    - destruct S as [S|[S _]]; [|discriminate].
      assert (SF : forall y, dget K_Filter y = dget K_Filter x1 -> dget K_DecodeParms y = dget K_DecodeParms x1 -> single_filter y (z :: flt)).
      { intros y Y1 Y2. unfold single_filter. rewrite Y1, Y2, F1, K1 by discriminate. change (B "/DecodeParms") with K_DecodeParms in NP. auto. }
      destruct (filter_roundtrip x1 (z :: flt) c ZZ BC (SF x1 eq_refl eq_refl) S) as (e & A & _). exists e. split; [auto|]. intros y Y1 Y2.
      destruct (filter_roundtrip y (z :: flt) c ZZ BC (SF y Y1 Y2) S) as (e' & A' & D). assert (EE : e' = e); [|rewrite <- EE; exact D].
      unfold encode_stream in A, A'. rewrite Y1 in A'. congruence. }
  destruct RT as (e & EN & DE). unfold forge_stream. rewrite EN. cbn [bind].
  eexists _, e. split; [eexists; reflexivity|].
  assert (L : forall k, k <> K_Length -> dget k (match dget K_Length x1 with Some (PInt _) => dset K_Length (PInt (Z.of_nat (length e) + 1)) x1 | _ => x1 end) = dget k x1).
  { intros k K. destruct (dget K_Length x1) as [[]|]; auto. now apply dget_dset_neq. }
  split; [rewrite L by discriminate; exact F1|]. split; [intros k A B; rewrite L by auto; now apply K1|]. apply DE; apply L; discriminate.
Qed.
Lemma filter_one_spec d n flt v x c : (forall b, Forall isbyte b -> z_decompress (z_compress b) = Some b) -> editable d -> 0 < n -> value d n = Ok v -> simple_stream v x c ->
  supported flt \/ flt = [] /\ dget K_Filter x <> None ->
  exists d1 v', filter_one d n flt = Ok d1 /\ editable d1 /\ value d1 n = Ok v' /\ refiltered flt v v' /\ forall k, 0 <= k -> k <> n -> value d1 k = value d k.
Proof.
  intros ZZ ED N V SS S. pose proof SS as ([e ->] & BC & NP & FI). unfold filter_one. destruct (obj_at_ok d n _ ED N V) as (d1 & G & R). rewrite G. cbn [bind].
  assert (SAME : exists b, match dget K_Filter x with None => Ok false | Some (PStr f) => Ok (beqb f flt) | Some (PBytes _) => Ok false | Some _ => Exc EAttributeError end = Ok b /\ (b = true -> dget K_Filter x = Some (PStr flt))).
  { destruct FI as [FI|[f FI]]; change (B "/Filter") with K_Filter in FI; rewrite FI; eexists; (split; [reflexivity|]); [discriminate|]. intro Q. apply beqb_eq in Q. now subst. }
  destruct SAME as (b & -> & SB). cbn [bind]. destruct b.
  - exists d1, (PStream x (Some c) e). split; [auto|]. split; [eapply editable_ro; eauto|]. split; [rewrite (ro_values _ _ R); [auto|lia]|]. split; [|intros k K _; now apply (ro_values _ _ R)].
    exists x, c. split; [auto|]. left. split; [auto|]. exact (SB eq_refl).
  - destruct (refilter_roundtrip flt x c ZZ BC NP S) as (x' & e' & [len FG] & F1 & K1 & DE). cbn [of_opt bind]. rewrite FG. cbn [bind].
    assert (V1 : value d1 n = Ok (PStream x (Some c) e)) by (rewrite (ro_values _ _ R); [auto|lia]).
    destruct (update_ok d1 n (PStream x' (Some c) (Some e')) _ (editable_ro _ _ ED R) N V1) as (d2 & U & [S1 S2 S3 S4 S5]).
    exists d2, (PStream x' (Some c) (Some e')). split; [auto|]. split; [auto|]. split; [auto|]. split.
    + exists x, c. split; [auto|]. right. exists x', e'. auto.
    + intros k K NE. rewrite S5 by auto. now apply (ro_values _ _ R).
Qed.
Theorem apply_filter_spec flt : forall ns d, (forall b, Forall isbyte b -> z_decompress (z_compress b) = Some b) -> editable d -> NoDup ns ->
  (forall n, In n ns -> 0 < n /\ exists v x c, value d n = Ok v /\ simple_stream v x c /\ (supported flt \/ flt = [] /\ dget K_Filter x <> None)) ->
  exists d1, apply_filter d ns flt = Ok d1 /\ editable d1 /\
    (forall n v, In n ns -> value d n = Ok v -> exists v', value d1 n = Ok v' /\ refiltered flt v v') /\
    forall k, 0 <= k -> ~ In k ns -> value d1 k = value d k.
Proof.
  induction ns as [|n ns IH]; intros d ZZ ED ND H; cbn [apply_filter].
  - exists d. split; [auto|]. split; [auto|]. split; [intros n v []|auto].
  - inversion ND as [|? ? NI ND']; subst. destruct (H n (or_introl eq_refl)) as (N & v & x & c & V & SS & S).
    destruct (filter_one_spec d n flt v x c ZZ ED N V SS S) as (d1 & v' & E & ED1 & V1 & RF & OT). rewrite E. cbn [bind].
    destruct (IH d1 ZZ ED1 ND') as (d2 & E2 & ED2 & IN & OUT).
    { intros m M. destruct (H m (or_intror M)) as (M0 & w & y & cc & W & X). split; [auto|]. exists w, y, cc. split; [|auto]. rewrite OT; [auto|lia|congruence]. }
    exists d2. split; [auto|]. split; [auto|]. split.
    + intros m w [<-|M] W.
      * assert (w = v) by congruence. subst w. exists v'. split; [rewrite OUT; [auto|lia|auto]|auto].
      * apply IN; auto. destruct (H m (or_intror M)) as (M0 & _). rewrite OT; [auto|lia|congruence].
    + intros k K NK. cbn [In] in NK. rewrite OUT by tauto. apply OT; [auto|]. intro Q. apply NK. auto.
Qed.
(* ---------- lists of pages ---------- *)
Lemma index_pyget {A} (l : list A) i x : at_index l i x <-> pyget l i = Ok x.
Proof.
  unfold at_index, pyget. split.
  - intros (j & E & H). assert (J : (j < length l)%nat) by (apply nth_error_Some; congruence). unfold pyidx.
    destruct H as [->| ->].
    + replace ((0 <=? Z.of_nat j) && (Z.of_nat j <? Z.of_nat (length l))) with true by lia. rewrite Nat2Z.id, E. reflexivity.
    + replace ((0 <=? Z.of_nat j - Z.of_nat (length l)) && (Z.of_nat j - Z.of_nat (length l) <? Z.of_nat (length l))) with false by lia.
      replace ((- Z.of_nat (length l) <=? Z.of_nat j - Z.of_nat (length l)) && (Z.of_nat j - Z.of_nat (length l) <? 0)) with true by lia.
      replace (Z.of_nat j - Z.of_nat (length l) + Z.of_nat (length l)) with (Z.of_nat j) by lia. rewrite Nat2Z.id, E. reflexivity.
  - unfold pyidx. intro H. destruct ((0 <=? i) && (i <? Z.of_nat (length l))) eqn:Q.
    + exists (Z.to_nat i). destruct (nth_error l (Z.to_nat i)) as [y|]; [|discriminate]. injection H as ->. split; [auto|]. left. lia.
    + destruct ((- Z.of_nat (length l) <=? i) && (i <? 0)) eqn:R; [|discriminate].
      exists (Z.to_nat (i + Z.of_nat (length l))). destruct (nth_error l (Z.to_nat (i + Z.of_nat (length l)))) as [y|]; [|discriminate]. injection H as ->. split; [auto|]. right. lia.
Qed.
Lemma index2 {A C} (R : A -> C -> Prop) l m i y : Forall2 R l m -> at_index m i y -> exists x, pyget l i = Ok x /\ R x y.
Proof.
  intros F (j & E & H). destruct (Forall2_nth R l m F j y E) as (x & X & XY). exists x. split; [|auto]. apply index_pyget. exists j. split; [auto|].
  assert (length l = length m) by (clear -F; induction F; cbn; congruence). destruct H as [->| ->]; [left|right]; [auto|]. congruence.
Qed.
Lemma index_in {A} (l : list A) i x : at_index l i x -> In x l.
Proof. intros (j & E & _). eapply nth_error_In; eauto. Qed.

(* ---------- more objects ---------- *)
Definition kept (d d1 : doc) : Prop := forall n v, 0 <= n -> value d n = Ok v -> value d1 n = Ok v.
Lemma points_kept d d1 o n v : kept d d1 -> points_at d o n v -> points_at d1 o n v.
Proof. intros R (g & E & N & V). exists g. split; [auto|]. split; [auto|]. apply R; [lia|auto]. Qed.
Lemma holds_kept d d1 t : kept d d1 -> holds d t -> holds d1 t.
Proof.
  intro R. revert t. apply (ptree_rect2 (fun t => holds d t -> holds d1 t)).
  - intros o p H. inversion H; subst. econstructor; eauto. eapply points_kept; eauto.
  - intros o nd kids IH H. inversion H; subst. econstructor; eauto; [eapply points_kept; eauto|]. rewrite Forall_forall in *. intros k I. auto.
Qed.
Lemma has_tree_kept d d1 t : kept d d1 -> has_tree d t -> has_tree d1 t.
Proof.
  intros R (c & cat & (tr & r & A1 & A2 & A3) & T1 & T2 & B & H & E). exists c, cat. split; [|repeat (split; [assumption|]); split; [eapply holds_kept; eauto|auto]].
  exists tr, r. split; [apply R; [lia|auto]|]. split; [auto|]. eapply points_kept; eauto.
Qed.
Lemma leaf_points d t x : has_tree d t -> In x (leaves t) -> 0 < leaf_num x /\ exists g, leaf_ref x = PRef g (leaf_num x) /\ value d (leaf_num x) = Ok (PDict (leaf_page x)).
Proof.
  intros (_ & _ & _ & _ & _ & _ & HH & _) I. pose proof (leaf_holds d t HH) as LH. rewrite Forall_forall in LH. destruct (LH x I) as (n & (g & Er & N & V) & _).
  unfold leaf_num. rewrite Er. split; [auto|]. exists g. auto.
Qed.

(* ---------- add_text_annotation ---------- *)
Lemma annotation_is text rect opened : is_annotation (annotation text rect opened) text rect opened.
Proof. eexists. split; [reflexivity|]. repeat split; reflexivity. Qed.
Theorem annotation_spec t f d base i x l text rect opened : editable d -> has_tree d t -> (depth t < f)%nat -> at_index (leaves t) i x -> annots d (leaf_page x) l ->
  exists d1 base', add_text_annotation f d base i text rect opened = Ok (d1, base') /\ annotated d d1 x l text rect opened.
Proof.
  intros ED HT D IX AN. destruct (add_total d (annotation text rect opened) ED) as (d1 & a & A). unfold add_text_annotation. rewrite A. cbn [bind].
  assert (NN : annotation text rect opened <> PNone) by (unfold annotation; discriminate). destruct (add_spec d _ d1 a ED NN A) as (row & O & Ea & (e1 & O1) & _ & ED1 & V1 & K1).
  assert (OR : forall r, open_row d r -> r = row) by (intros r Or; now apply (open_fun d)).
  assert (KD : kept d d1). { intros n v N V. rewrite K1; [auto|]. pose proof (value_range d n v N V row O). rewrite Ea. cbn [snd]. lia. }
  pose proof (has_tree_kept d d1 t KD HT) as HT1. pose proof (index_in _ _ _ IX) as IN. destruct (leaf_points d t x HT IN) as (PN & g & ER & VP).
  destruct (flat_spec t f d1 base (editable_coherent _ ED1) HT1 D) as (cl & base' & d2 & FL & R2 & LI & _). rewrite FL. cbn [bind of_opt].
  destruct (index2 _ _ _ _ _ LI IX) as ([o inh] & G & [EQ _]). cbn [fst] in EQ. subst o. rewrite G. cbn [bind fst]. rewrite ER.
  destruct (read_ok d2 g (leaf_num x) (PDict (leaf_page x)) (ro_coherent _ _ R2) ltac:(lia)) as (d3 & G3 & R3); [rewrite (ro_values _ _ R2) by lia; apply KD; [lia|auto]|].
  rewrite G3. cbn [bind dict_of]. pose proof (read_only_trans _ _ _ R2 R3) as R13. pose proof (editable_ro _ _ ED1 R13) as ED3.
  assert (RNG : leaf_num x < Z.of_nat (length row)) by (eapply value_range; eauto; lia).
  assert (V3 : forall k, 0 <= k < Z.of_nat (length row) -> value d3 k = value d k). { intros k K. rewrite (ro_values _ _ R13) by lia. apply K1. rewrite Ea. cbn [snd]. lia. }
  assert (VA3 : value d3 (snd a) = Ok (annotation text rect opened)). { rewrite (ro_values _ _ R13); [auto|]. rewrite Ea. cbn [snd]. lia. }
  change (B "/Annots") with K_Annots in *. destruct AN as [[NA ->]|(r & n & HA & PA)].
  - change (B "/Annots") with K_Annots in NA. rewrite NA. destruct (add_total d3 (PList [PRef (fst a) (snd a)]) ED3) as (d4 & b & A4). rewrite A4. cbn [bind].
    assert (NN2 : PList [PRef (fst a) (snd a)] <> PNone) by discriminate. destruct (add_spec d3 _ d4 b ED3 NN2 A4) as (row3 & O3 & Eb & (e4 & O4) & _ & ED4 & V4 & K4).
    assert (row3 = row ++ [SDict e1]). { apply (open_fun d3); [auto|]. unfold open_row in *. now rewrite (ro_index _ _ R13). } subst row3.
    assert (LB : snd b = Z.of_nat (length row) + 1) by (rewrite Eb; cbn [snd]; rewrite app_length; cbn; lia).
    assert (LA : snd a = Z.of_nat (length row)) by (rewrite Ea; reflexivity).
    destruct (update_ok d4 (leaf_num x) (PDict (dset K_Annots (PRef (fst b) (snd b)) (leaf_page x))) (PDict (leaf_page x)) ED4 PN) as (d5 & U & [S1 S2 S3 S4 S5]).
    { rewrite K4 by lia. rewrite V3 by lia. exact VP. }
    cbn [snd]. rewrite U. cbn [bind]. exists d5, base'. split; [reflexivity|]. constructor.
    + exists (snd a), (annotation text rect opened), (dset K_Annots (PRef (fst b) (snd b)) (leaf_page x)). split; [intros r Or; rewrite (OR r Or); lia|].
      split; [rewrite S5 by lia; rewrite K4 by lia; exact VA3|]. split; [apply annotation_is|]. split; [exact S4|]. split.
      * right. exists (PRef (fst b) (snd b)), (snd b). split; [apply dget_dset_eq|]. exists (fst b). split; [auto|]. split; [lia|]. rewrite S5 by lia. rewrite V4. do 4 f_equal. rewrite Ea. reflexivity.
      * intros k K. apply dget_dset_neq. exact K.
    + intros k r K Or L NX _. rewrite (OR r Or) in L. rewrite S5 by lia. rewrite K4 by lia. apply V3. lia.
    + exact S1.
  - change (B "/Annots") with K_Annots in HA. rewrite HA. destruct PA as (gn & -> & PN2 & VN).
    assert (RN : n < Z.of_nat (length row)) by (eapply value_range; eauto; lia).
    destruct (read_ok d3 gn n (PList l) (ro_coherent _ _ R13) ltac:(lia)) as (d4 & G4 & R4); [rewrite V3 by lia; exact VN|]. rewrite G4. cbn [bind snd].
    destruct (update_ok d4 n (PList (l ++ [PRef (fst a) (snd a)])) (PList l) (editable_ro _ _ ED3 R4) PN2) as (d5 & U & [S1 S2 S3 S4 S5]); [rewrite (ro_values _ _ R4) by lia; rewrite V3 by lia; exact VN|].
    rewrite U. cbn [bind]. assert (LA : snd a = Z.of_nat (length row)) by (rewrite Ea; reflexivity).
    assert (NX : leaf_num x <> n) by (intros Q; rewrite Q in VP; congruence).
    exists d5, base'. split; [reflexivity|]. constructor.
    + exists (snd a), (annotation text rect opened), (leaf_page x). split; [intros r Or; rewrite (OR r Or); lia|].
      split; [rewrite S5 by lia; rewrite (ro_values _ _ R4) by lia; exact VA3|]. split; [apply annotation_is|]. split; [rewrite S5 by lia; rewrite (ro_values _ _ R4) by lia; rewrite V3 by lia; exact VP|]. split; [|auto].
      right. exists (PRef gn n), n. split; [exact HA|]. exists gn. split; [auto|]. split; [auto|]. rewrite S4. do 4 f_equal. rewrite Ea. reflexivity.
    + intros k r K Or L NX' NA. rewrite (OR r Or) in L. assert (k <> n) by (intros ->; exact (NA gn HA)). rewrite S5 by auto. rewrite (ro_values _ _ R4) by lia. apply V3. lia.
    + exact S1.
Qed.

(* ---------- get_page_contents ---------- *)
Lemma deref_get d o v : coherent d -> deref d o v -> exists d1, get_object d o = Ok (v, d1) /\ read_only d d1.
Proof.
  intros C H. destruct H as [g n v N V|v NR]; [now apply read_ok|]. exists d. split; [|now apply read_only_refl]. destruct v; try reflexivity. destruct (NR gen num eq_refl).
Qed.
Lemma deref_ro d d1 o v : read_only d d1 -> deref d o v -> deref d1 o v.
Proof. intros R H. destruct H as [g n v N V|v NR]; [|now apply De_val]. apply De_ref; [auto|]. now rewrite (ro_values _ _ R). Qed.
Lemma contents2_spec l : forall d m, coherent d -> Forall2 (deref d) l m -> exists d1, contents2 d l = Ok (m, d1) /\ read_only d d1.
Proof.
  induction l as [|o l IH]; intros d m C F; inversion F as [|? v ? m' H F']; subst; cbn [contents2]; [exists d; split; [auto|now apply read_only_refl]|].
  destruct (deref_get d o v C H) as (d1 & G & R). rewrite G. cbn [bind]. destruct (IH d1 m' (ro_coherent _ _ R)) as (d2 & E & R2).
  { eapply Facts_Pages.Forall2_impl; [|exact F']. cbn beta. intros a b. now apply deref_ro. }
  rewrite E. cbn [bind]. exists d2. split; [auto|]. eapply read_only_trans; eauto.
Qed.
Lemma parts_ro d d1 o m : read_only d d1 -> parts d o m -> parts d1 o m.
Proof.
  intros R H. destruct H as [l m H F|v w H NL H2].
  - eapply Pa_list; [eapply deref_ro; eauto|]. eapply Facts_Pages.Forall2_impl; [|exact F]. cbn beta. intros a b. now apply deref_ro.
  - eapply Pa_one; eauto using deref_ro.
Qed.
Lemma contents1_spec l : forall d ps, coherent d -> Forall2 (parts d) l ps -> exists d1, contents1 d l = Ok (concat ps, d1) /\ read_only d d1.
Proof.
  induction l as [|o l IH]; intros d ps C F; inversion F as [|? m ? ps' H F']; subst; cbn [contents1 concat]; [exists d; split; [auto|now apply read_only_refl]|].
  assert (X : exists v d1 d2, get_object d o = Ok (v, d1) /\ contents2 d1 (match v with PList x => x | _ => [v] end) = Ok (m, d2) /\ read_only d d2).
  { destruct H as [x m H FF|v w H NL H2].
    - destruct (deref_get d o _ C H) as (d1 & G & R). destruct (contents2_spec x d1 m (ro_coherent _ _ R)) as (d2 & E & R2); [eapply Facts_Pages.Forall2_impl; [|exact FF]; cbn beta; intros a b; now apply deref_ro|].
      exists (PList x), d1, d2. split; [auto|]. split; [auto|]. eapply read_only_trans; eauto.
    - destruct (deref_get d o _ C H) as (d1 & G & R). destruct (contents2_spec [v] d1 [w] (ro_coherent _ _ R)) as (d2 & E & R2); [constructor; [eapply deref_ro; eauto|constructor]|].
      exists v, d1, d2. split; [auto|]. split; [destruct v; try exact E; destruct (NL l0 eq_refl)|]. eapply read_only_trans; eauto. }
  destruct X as (v & d1 & d2 & G & E & R). rewrite G. cbn [bind]. rewrite E. cbn [bind].
  destruct (IH d2 ps' (ro_coherent _ _ R)) as (d3 & E3 & R3); [eapply Facts_Pages.Forall2_impl; [|exact F']; cbn beta; intros a b; now apply parts_ro|].
  rewrite E3. cbn [bind]. exists d3. split; [auto|]. eapply read_only_trans; eauto.
Qed.
Theorem contents_spec t f d base i x l : coherent d -> has_tree d t -> (depth t < f)%nat -> at_index (leaves t) i x -> page_contents d (leaf_page x) l ->
  exists base' d1, get_page_contents f d base i = Ok (l, base', d1) /\ same_values d d1.
Proof.
  intros C HT D IX (items & ps & F & -> & HC). unfold get_page_contents. destruct (flat_spec t f d base C HT D) as (cl & base' & d1 & FL & R & LI & _). rewrite FL. cbn [bind of_opt].
  destruct (index2 _ _ _ _ _ LI IX) as ([o inh] & G & [EQ _]). cbn [fst] in EQ. subst o. rewrite G. cbn [bind fst].
  destruct (leaf_points d t x HT (index_in _ _ _ IX)) as (PN & g & ER & VP). rewrite ER.
  destruct (read_ok d1 g (leaf_num x) (PDict (leaf_page x)) (ro_coherent _ _ R) ltac:(lia)) as (d2 & G2 & R2); [rewrite (ro_values _ _ R) by lia; exact VP|]. rewrite G2. cbn [bind item].
  change (B "/Contents") with K_Contents in HC. pose proof (read_only_trans _ _ _ R R2) as R12.
  destruct (contents1_spec items d2 ps (ro_coherent _ _ R12)) as (d3 & E3 & R3); [eapply Facts_Pages.Forall2_impl; [|exact F]; cbn beta; intros a b; now apply parts_ro|].
  destruct HC as [HC|(gg & n & HC & ->)]; rewrite HC; cbn [of_opt bind]; rewrite E3; cbn [bind]; exists base', d3; (split; [reflexivity|]); exact (ro_values _ _ (read_only_trans _ _ _ R12 R3)).
Qed.

(* ---------- metadata ---------- *)
Lemma metadata_entries ks : forall d i rs, coherent d -> Forall2 (info_text d i) ks rs ->
  exists d1, metadata_of d i (map (fun k => 47 :: k) ks) = Ok (combine ks rs, d1) /\ read_only d d1.
Proof.
  induction ks as [|k ks IH]; intros d i rs C F; inversion F as [|? r ? rs' H F']; subst; cbn [metadata_of map combine skipn]; [exists d; split; [auto|now apply read_only_refl]|].
  assert (X : exists v d1, get_object d (match dget (47 :: k) i with Some v => v | None => PNone end) = Ok (v, d1) /\ read_only d d1 /\
    match v with PNone => Ok None | PBytes s => let* t := text_string s in Ok (match t with [] => None | _ => Some t end) | _ => Exc EUnsupported end = Ok r).
  { change (B "/" ++ k) with (47 :: k) in *. destruct H as [H|o H DE|o s H DE T|o s t H DE T NE]; change (B "/" ++ k) with (47 :: k) in H; rewrite H.
    - exists PNone, d. split; [reflexivity|]. split; [now apply read_only_refl|reflexivity].
    - destruct (deref_get d o _ C DE) as (d1 & G & R). exists PNone, d1. auto.
    - destruct (deref_get d o _ C DE) as (d1 & G & R). exists (PBytes s), d1. split; [auto|]. split; [auto|]. rewrite T. reflexivity.
    - destruct (deref_get d o _ C DE) as (d1 & G & R). exists (PBytes s), d1. split; [auto|]. split; [auto|]. rewrite T. cbn [bind]. destruct t; [congruence|reflexivity]. }
  destruct X as (v & d1 & G & R & E). rewrite G. cbn [bind]. rewrite E. cbn [bind]. destruct (IH d1 i rs' (ro_coherent _ _ R)) as (d2 & E2 & R2).
  { eapply Facts_Pages.Forall2_impl; [|exact F']. cbn beta. intros a b Q. destruct Q; [now apply It_none|eapply It_null|eapply It_empty|eapply It_text]; eauto using deref_ro. }
  rewrite E2. cbn [bind]. exists d2. split; [auto|]. eapply read_only_trans; eauto.
Qed.
Theorem metadata_spec d i rs : coherent d -> info_at d i -> Forall2 (info_text d i) info_keys rs ->
  exists d1, metadata d = Ok (combine info_keys rs, d1) /\ same_values d d1.
Proof.
  intros C (t & VT & HI) F. unfold metadata, info, trailer. destruct (read_ok d 0 0 _ C ltac:(lia) VT) as (d1 & G & R). rewrite G. cbn [bind item_opt].
  change METADATA_ATTRS with (map (fun k => 47 :: k) info_keys). change (B "/Info") with K_Info in HI.
  assert (X : forall dd, read_only d dd -> exists d2, metadata_of dd i (map (fun k => 47 :: k) info_keys) = Ok (combine info_keys rs, d2) /\ same_values d d2).
  { intros dd RD. destruct (metadata_entries info_keys dd i rs (ro_coherent _ _ RD)) as (d2 & E & R2).
    - eapply Facts_Pages.Forall2_impl; [|exact F]. cbn beta. intros a b Q. destruct Q; [now apply It_none|eapply It_null|eapply It_empty|eapply It_text]; eauto using deref_ro.
    - exists d2. split; [auto|]. exact (ro_values _ _ (read_only_trans _ _ _ RD R2)). }
  destruct HI as [[HI ->]|(r & n & HI & P)]; rewrite HI; cbn [bind].
  - cbn [obj_truthy bind]. apply X. exact R.
  - pose proof P as (g & Er & N & V). assert (TR : obj_truthy r = true) by (eapply truthy_ref; eauto). rewrite TR.
    destruct (points_read d1 r n (PDict i) (ro_coherent _ _ R) (points_ro _ _ _ _ _ R P)) as (d2 & G2 & R2). rewrite G2. cbn [bind].
    destruct (obj_truthy (PDict i)) eqn:TI; cbn [bind]; [apply X; eapply read_only_trans; eauto|]. destruct i; [|discriminate]. apply X. eapply read_only_trans; eauto.
Qed.

(* ---------- the first pages ---------- *)
Lemma firstn_grow {A} (m : nat) (a b : list A) : (length a = 0 \/ m <= length a \/ length a + length b <= m)%nat -> (length a < m)%nat -> a ++ firstn m b = firstn m (a ++ b).
Proof.
  intros H L. rewrite firstn_app. rewrite (firstn_all2 a) by lia. destruct H as [H|[H|H]]; [|lia|].
  - destruct a; [|cbn in H; lia]. cbn [app length]. now rewrite Nat.sub_0_r.
  - rewrite !firstn_all2 by lia. reflexivity.
Qed.
Lemma kids_first m f nd all : (0 < m)%nat ->
  (forall pre k post, all = pre ++ k :: post -> let c := length (flat_map leaves pre) in c = O \/ (m <= c)%nat \/ (c + length (leaves k) <= m)%nat) ->
  forall kids, Forall (fun t => forall d inh, coherent d -> holds d t -> (depth t < f)%nat -> fits m t ->
      exists l inh' d1, page_tree f (Some (Z.of_nat m)) d (tref t) inh = Ok (Some l, inh', d1) /\ read_only d d1 /\ Forall2 (listed inh) l (firstn m (leaves t))) kids ->
  forall pre d inh accu, all = pre ++ kids -> coherent d -> Forall (holds d) kids -> Forall (fun t => (depth t < f)%nat) kids -> Forall (fits m) kids ->
    Forall2 (listed (dupdate inh (inheritable nd))) accu (flat_map leaves pre) -> (length (flat_map leaves pre) < m)%nat ->
    exists l inh' d1, kids_loop (page_tree f (Some (Z.of_nat m))) nd (Some (Z.of_nat m)) d inh accu (map tref kids) = Ok (l, inh', d1) /\ read_only d d1 /\
      Forall2 (listed (dupdate inh (inheritable nd))) l (firstn m (flat_map leaves all)).
Proof.
  intros M FIT. induction kids as [|t kids IH]; intros FA pre d inh accu EA C H D FT A LT; cbn [map kids_loop].
  - exists accu, inh, d. split; [auto|]. split; [now apply read_only_refl|]. rewrite app_nil_r in EA. subst all. rewrite firstn_all2 by lia. exact A.
  - inversion FA as [|? ? F1 F2]; subst. inversion H as [|? ? H1 H2]; subst. inversion D as [|? ? D1 D2]; subst. inversion FT as [|? ? T1 T2]; subst. set (inh' := dupdate inh (inheritable nd)) in *.
    destruct (F1 d inh' C H1 D1 T1) as (l & i2 & d1 & E & R & L). rewrite E. cbn [bind].
    assert (A2 : Forall2 (listed (dupdate inh' (inheritable nd))) (accu ++ l) (firstn m (flat_map leaves pre ++ leaves t))).
    { rewrite <- firstn_grow; [|exact (FIT pre t kids eq_refl)|exact LT]. apply Forall2_app.
      - eapply Facts_Pages.Forall2_impl; [|exact A]. intros x y. apply listed_ext. intro k. unfold inh'. now rewrite dupdate_twice.
      - eapply Facts_Pages.Forall2_impl; [|exact L]. intros x y. apply listed_ext. intro k. unfold inh'. now rewrite dupdate_twice. }
    assert (LA : length (accu ++ l) = length (firstn m (flat_map leaves pre ++ leaves t))) by (clear -A2; induction A2; cbn; congruence).
    assert (FM : flat_map leaves (pre ++ [t]) = flat_map leaves pre ++ leaves t) by (rewrite flat_map_app; cbn [flat_map]; now rewrite app_nil_r).
    assert (BACK : forall l0 m0, Forall2 (listed (dupdate inh' (inheritable nd))) l0 m0 -> Forall2 (listed inh') l0 m0).
    { intros l0 m0 Q. eapply Facts_Pages.Forall2_impl; [|exact Q]. intros x y. apply listed_ext. intro k. unfold inh'. now rewrite dupdate_twice. }
    rewrite firstn_length in LA. destruct (Z.of_nat (length (accu ++ l)) =? Z.of_nat m) eqn:Q.
    + exists (accu ++ l), inh', d1. split; [reflexivity|]. split; [exact R|]. apply BACK.
      replace (firstn m (flat_map leaves (pre ++ t :: kids))) with (firstn m (flat_map leaves pre ++ leaves t)); [exact A2|].
      rewrite flat_map_app. cbn [flat_map]. rewrite app_assoc. rewrite (firstn_app m (flat_map leaves pre ++ leaves t)). replace (m - length (flat_map leaves pre ++ leaves t))%nat with O by lia. cbn [firstn]. now rewrite app_nil_r.
    + destruct (IH F2 (pre ++ [t]) d1 inh' (accu ++ l)) as (l2 & i3 & d2 & E2 & R2 & L2).
      * rewrite <- app_assoc. reflexivity.
      * exact (ro_coherent _ _ R).
      * rewrite Forall_forall in *. intros k I. eapply holds_ro; eauto.
      * auto.
      * auto.
      * rewrite FM. rewrite firstn_all2 in A2 by lia. exact A2.
      * rewrite FM. lia.
      * exists l2, i3, d2. split; [exact E2|]. split; [eapply read_only_trans; eauto|]. apply BACK. exact L2.
Qed.
Lemma node_first m f d num o n nd kids inh dn : points_at dn o n (PDict nd) -> dget K_Type nd = Some (PStr K_Pages) -> dget K_Kids nd = Some (PList (map tref kids)) ->
  (if obj_truthy num then get_object d num else let* (c, _, dc) := catalog d in let* pr := item K_Pages c in get_object dc pr) = Ok (PDict nd, dn) ->
  page_tree (S f) m d num inh = let* (accu, inh', d2) := kids_loop (page_tree f m) nd m dn inh [] (map tref kids) in Ok (Some accu, inh', d2).
Proof. intros P T K G. cbn [page_tree]. rewrite G. cbn [bind item]. rewrite T. cbn [of_opt bind]. unfold str_is. rewrite beqb_refl. cbn [dict_of bind]. rewrite K. reflexivity. Qed.
Lemma tree_first m t : (0 < m)%nat -> forall f d inh, coherent d -> holds d t -> (depth t < f)%nat -> fits m t ->
  exists l inh' d1, page_tree f (Some (Z.of_nat m)) d (tref t) inh = Ok (Some l, inh', d1) /\ read_only d d1 /\ Forall2 (listed inh) l (firstn m (leaves t)).
Proof.
  intro M. revert t. apply (ptree_rect2 (fun t => forall f d inh, coherent d -> holds d t -> (depth t < f)%nat -> fits m t ->
  exists l inh' d1, page_tree f (Some (Z.of_nat m)) d (tref t) inh = Ok (Some l, inh', d1) /\ read_only d d1 /\ Forall2 (listed inh) l (firstn m (leaves t)))).
  - intros o p f d inh C H D _. inversion H as [o' n p' P T|]; subst. destruct f as [|f]; [lia|]. cbn [page_tree tref]. rewrite (truthy_ref _ _ _ _ P).
    destruct (points_read d o n _ C P) as (d1 & G & R). rewrite G. cbn [bind item]. rewrite T. cbn [of_opt bind]. unfold str_is.
    replace (beqb K_Page K_Pages) with false by reflexivity. rewrite beqb_refl. exists [(o, inh)], inh, d1. split; [reflexivity|]. split; [auto|].
    destruct m as [|m]; [lia|]. cbn [leaves firstn]. rewrite firstn_nil. constructor; [|constructor]. split; [reflexivity|]. intro k. cbn [snd]. unfold inh_of. cbn [near]. destruct (inh_keyb k); reflexivity.
  - intros o nd kids IH f d inh C H D FT. inversion H as [|o' n nd' kids' P T K FH]; subst. inversion FT as [|? ? ? FK FC]; subst. destruct f as [|f]; [lia|]. destruct (points_read d o n _ C P) as (dn & G & R).
    change (tref (Node o nd kids)) with o. rewrite (node_first _ f d o o n nd kids inh dn (points_ro _ _ _ _ _ R P) T K) by (rewrite (truthy_ref _ _ _ _ P); exact G).
    assert (DK : Forall (fun t => (depth t < f)%nat) kids). { apply Forall_forall. intros k I. pose proof (depth_kid o nd kids k I). lia. }
    destruct (kids_first m f nd kids M FC kids) with (pre := @nil ptree) (d := dn) (inh := inh) (accu := @nil (obj * dict)) as (l & inh' & d1 & E & R1 & L); auto.
    + eapply Forall_impl; [|exact IH]. cbn beta. intros t Ht d' i' C' H' D' F'. apply Ht; auto.
    + exact (ro_coherent _ _ R).
    + rewrite Forall_forall in *. intros k I. eapply holds_ro; eauto.
    + constructor.
    + rewrite E. cbn [bind]. exists l, inh', d1. split; [auto|]. split; [eapply read_only_trans; eauto|]. rewrite leaves_node, firstn_map. apply listed_down. exact L.
Qed.
Theorem pages_first m t f d base : (0 < m)%nat -> coherent d -> has_tree d t -> (depth t < f)%nat -> fits m t ->
  exists ps base' d1, pages f d base (Some (Z.of_nat m)) = Ok (ps, base', d1) /\ read_only d d1 /\ Forall2 (viewed base) ps (firstn m (leaves t)).
Proof.
  intros M C HT D FT. pose proof HT as (c & cat & CA & _ & _ & PG & H & (o & nd & kids & ->)). destruct f as [|f]; [lia|]. inversion H as [|o' n nd' kids' P T K FH]; subst. cbn [tref] in PG.
  inversion FT as [|? ? ? FK FC]; subst. destruct (catalog_read d c cat C CA) as (g & dc & EC & RC). destruct (points_read dc o n _ (ro_coherent _ _ RC) (points_ro _ _ _ _ _ RC P)) as (dn & G & R).
  pose proof (read_only_trans _ _ _ RC R) as RR. unfold pages, flat_page_tree.
  rewrite (node_first _ f d PNone o n nd kids base dn (points_ro _ _ _ _ _ RR P) T K).
  2:{ cbn [obj_truthy]. rewrite EC. cbn [bind item]. rewrite PG. cbn [of_opt bind]. exact G. }
  assert (DK : Forall (fun t => (depth t < f)%nat) kids). { apply Forall_forall. intros k I. pose proof (depth_kid o nd kids k I). lia. }
  destruct (kids_first m f nd kids M FC kids) with (pre := @nil ptree) (d := dn) (inh := base) (accu := @nil (obj * dict)) as (l & inh' & d1 & E & R1 & L); auto.
  - apply Forall_forall. intros t I d' i' C' H' D' F'. apply tree_first; auto.
  - exact (ro_coherent _ _ R).
  - rewrite Forall_forall in *. intros k I. eapply holds_ro; eauto.
  - constructor.
  - rewrite E. cbn [bind]. pose proof (read_only_trans _ _ _ RR R1) as R3.
    assert (L' : Forall2 (listed base) l (firstn m (leaves (Node o nd kids)))) by (rewrite leaves_node, firstn_map; apply listed_down; exact L).
    destruct (page_dicts_spec base (firstn m (leaves (Node o nd kids))) d1 l (ro_coherent _ _ R3)) as (ps & d2 & E2 & R4 & V); [|auto|].
    + destruct (has_tree_ro _ _ _ R3 HT) as (_ & _ & _ & _ & _ & _ & HH & _). pose proof (leaf_holds d1 _ HH) as LH. rewrite Forall_forall in *. intros z I. apply LH. rewrite <- (firstn_skipn m). apply in_or_app. now left.
    + rewrite E2. cbn [bind]. exists ps, inh', d2. split; [auto|]. split; [eapply read_only_trans; eauto|auto].
Qed.

(* ---------- blank ---------- *)
Lemma paper_spec name w h : paper_size name PAPER_SIZES = Some (w, h) <-> paper_of name w h.
Proof.
  split.
  - intro P. assert (G : forall l, paper_size name l = Some (w, h) -> In (name, (w, h)) l).
    { induction l as [|[k v] l IH]; cbn [paper_size]; [discriminate|]. destruct (beqb name k) eqn:Q; [|right; auto]. apply beqb_eq in Q. left. congruence. }
    apply G in P. clear G. unfold PAPER_SIZES in P. cbn [In] in P.
    repeat (destruct P as [P|P]; [injection P as <- <- <-; first [left; eexists _, _; split; [cbv; tauto|split; reflexivity]|right; eexists _, _; split; [cbv; tauto|split; unfold millimetres; lia]]|]). contradiction.
  - intros [(a & b & I & -> & ->)|(a & b & I & A & C)].
    + unfold in_quarters in I. cbn [In] in I. repeat (destruct I as [I|I]; [injection I as <- <- <-; reflexivity|]). contradiction.
    + unfold in_millimetres in I. cbn [In] in I. unfold millimetres in *.
      repeat (destruct I as [I|I]; [injection I as <- <- <-; match goal with |- paper_size ?n ?l = _ => let r := eval vm_compute in (paper_size n l) in change (paper_size n l) with r end; do 2 f_equal; lia|]). contradiction.
Qed.
Lemma paper_case name w h (P : Z -> Z -> Prop) : paper_size name PAPER_SIZES = Some (w, h) -> Forall (fun x => P (fst x) (snd x)) (map snd PAPER_SIZES) -> P w h.
Proof.
  intros H F. rewrite Forall_forall in F. apply (F (w, h)). clear F. revert H. generalize PAPER_SIZES. induction l as [|[k v] l IH]; cbn [paper_size map snd]; [discriminate|].
  destruct (beqb name k); [intro E; left; congruence|right; auto].
Qed.
Theorem blank_spec name :
  (forall w h, paper_of name w h -> exists d, blank name = Ok d /\ editable d /\ one_page d w h) /\
  ((forall w h, ~ paper_of name w h) -> blank name = Exc EKeyError).
Proof.
  unfold blank. split.
  - intros w h P. apply paper_spec in P. rewrite P. cbn [of_opt bind]. apply (paper_case name w h (fun w h => exists d, commit (blank_initial w h) = Ok d /\ editable d /\ one_page d w h) P).
    unfold PAPER_SIZES. cbn [map snd fst]. repeat apply Forall_cons; try apply Forall_nil;
      (eexists; split; [vm_compute; reflexivity|]; split; [apply editableb_ok; vm_compute; reflexivity|];
       eexists _, _, _, _; split; [apply (plant_ok 3); vm_compute; reflexivity|]; repeat split; vm_compute; reflexivity).
  - intro H. destruct (paper_size name PAPER_SIZES) as [[w h]|] eqn:P; [|reflexivity]. apply paper_spec in P. destruct (H w h P).
Qed.
End WithZlib.
