(* squash and in_use *)
From Coq Require Import String Sorted.
From Verif Require Import PyBase Model_Filters Model_Objects Model_Filestruct Model_Text Model_Docstruct Model_Api.
From Verif Require Import Spec_Objects Spec_Filestruct Spec_Docstruct Spec_Pages Spec_Squash.
From Verif Require Import Facts_Base Facts_Obj Facts_Refs Facts_Revision Facts_Doc Facts_Commit Facts_Write Facts_Edit.
From Coq Require Import ZifyBool ZifyNat.

Section WithZlib.
Context {ZL : Zlib}.

(* ---------- defragment_map ---------- *)
Definition old_of (e : ient) : ref := (n_gen e, n_num e).
Definition fresh (e : ient) : slot :=
  SDict (with_next None (with_pos None (with_old (Some (old_of e)) (with_dver (Some 0) (with_over (Some 0) (with_gen 0 e)))))).
Definition lives (es : list ient) : list ient := filter (fun e => negb (n_del e)) es.
Fixpoint mp (nb : Z) (ls : list ient) : list (ref * ref) :=
  match ls with
  | [] => []
  | e :: r => mp (nb + 1) r ++ if ref_eqb (old_of e) (0, nb + 1) then [] else [(old_of e, (0, nb + 1))]
  end.
Lemma defrag_spec es : forall nb, defrag nb (map SDict es) = Ok (map fresh (lives es), mp nb (lives es)).
Proof.
  induction es as [|e es IH]; intro nb; [reflexivity|]. cbn [map defrag deleted_in bind lives filter]. destruct (n_del e) eqn:D; cbn [negb]; [apply IH|].
  cbn [as_dict bind]. rewrite IH. cbn [bind map mp]. fold (old_of e). fold (lives es). destruct (ref_eqb (old_of e) (0, nb + 1)); [rewrite app_nil_r|]; reflexivity.
Qed.
Lemma mp_keys nb ls : forall r, In r (map fst (mp nb ls)) -> In r (map old_of ls).
Proof.
  revert nb. induction ls as [|e ls IH]; intros nb r; cbn [mp map]; [tauto|]. rewrite map_app, in_app_iff. intros [I|I]; [right; eauto|].
  destruct (ref_eqb _ _); cbn in I; [tauto|]. left. tauto.
Qed.
Lemma assoc_app r a b : assoc_ref r (a ++ b) = match assoc_ref r a with Some x => Some x | None => assoc_ref r b end.
Proof. induction a as [|[k v] a IH]; cbn; [reflexivity|]. destruct (ref_eqb r k); auto. Qed.
Lemma assoc_none r m : ~ In r (map fst m) -> assoc_ref r m = None.
Proof.
  induction m as [|[k v] m IH]; cbn; [reflexivity|]. intro N. destruct (ref_eqb r k) eqn:E; [|apply IH; tauto]. apply ref_eqb_eq in E. subst. tauto.
Qed.
Definition rename (m : list (ref * ref)) (r : ref) : ref := match assoc_ref r m with Some x => x | None => r end.
Lemma rename_mp ls : forall nb, NoDup (map old_of ls) ->
  (forall i e, nth_error ls i = Some e -> rename (mp nb ls) (old_of e) = (0, nb + 1 + Z.of_nat i)).
Proof.
  induction ls as [|a ls IH]; intros nb N i e E; [destruct i; discriminate|]. cbn [map] in N. inversion N as [|? ? N1 N2]; subst. unfold rename in *. cbn [mp]. rewrite assoc_app.
  destruct i as [|i].
  - injection E as <-. rewrite assoc_none; [|intro I; apply N1; eapply mp_keys; eauto]. destruct (ref_eqb (old_of a) (0, nb + 1)) eqn:R.
    + apply ref_eqb_eq in R. cbn [assoc_ref]. rewrite R. f_equal. lia.
    + cbn [assoc_ref]. rewrite (proj2 (ref_eqb_eq _ _) eq_refl). f_equal. lia.
  - cbn [nth_error] in E. specialize (IH (nb + 1) N2 i e E). destruct (assoc_ref (old_of e) (mp (nb + 1) ls)) as [x|].
    + rewrite IH. f_equal. lia.
    + rewrite assoc_none; [rewrite IH; f_equal; lia|]. destruct (ref_eqb (old_of a) (0, nb + 1)); cbn; [tauto|]. intros [X|[]]. apply N1. rewrite X. apply in_map. eapply nth_error_In; eauto.
Qed.
Lemma rename_other m r : ~ In r (map fst m) -> rename m r = r.
Proof. intro N. unfold rename. now rewrite assoc_none. Qed.
Lemma rename_In m r r' : NoDup (map fst m) -> In (r, r') m -> rename m r = r'.
Proof.
  induction m as [|[k v] m IH]; cbn; [tauto|]. intros N [E|I]; inversion N as [|? ? N1 N2]; subst.
  - injection E as -> ->. unfold rename. cbn. now rewrite (proj2 (ref_eqb_eq _ _) eq_refl).
  - unfold rename in *. cbn. destruct (ref_eqb r k) eqn:R; [|auto]. apply ref_eqb_eq in R. subst. destruct N1. apply (in_map fst) in I. exact I.
Qed.
Lemma retarget_rename m o : NoDup (map fst m) -> stream_free o -> renamed (rename m) o (deep_ref_retarget m o).
Proof. intros N S. apply retarget_renames; [intros r r' I; now apply rename_In|intros r I; now apply rename_other|auto]. Qed.
Lemma nodup_snoc {A} (l : list A) x : NoDup l -> ~ In x l -> NoDup (l ++ [x]).
Proof.
  induction l as [|y l IH]; intros N I; cbn [app]; [constructor; [auto|constructor]|]. inversion N as [|? ? N1 N2]; subst. constructor; [|apply IH; [auto|intro J; apply I; now right]].
  intro J. apply in_app_iff in J. destruct J as [J|[->|[]]]; [auto|]. apply I. now left.
Qed.
Lemma mp_nodup ls : forall nb, NoDup (map old_of ls) -> NoDup (map fst (mp nb ls)).
Proof.
  induction ls as [|a ls IH]; intros nb N; cbn [mp]; [constructor|]. cbn [map] in N. inversion N as [|? ? N1 N2]; subst. rewrite map_app.
  destruct (ref_eqb _ _); cbn [map]; [rewrite app_nil_r; auto|]. apply nodup_snoc; [auto|]. intro I. apply N1. eapply mp_keys; eauto.
Qed.

(* ---------- the cells of a row ---------- *)
Lemma all_dicts row x : Model_Filestruct.map_res cell_env row = Ok x -> exists es, row = map SDict es.
Proof.
  revert x. induction row as [|s row IH]; intros x; cbn [Model_Filestruct.map_res]; [exists []; reflexivity|]. destruct s as [|e|l]; cbn [cell_env bind]; try discriminate.
  destruct (Model_Filestruct.map_res cell_env row) as [y| |]; cbn [bind]; try discriminate. intros _. destruct (IH y eq_refl) as [es ->]. exists (e :: es). reflexivity.
Qed.
Lemma dicts_all es : exists x, Model_Filestruct.map_res cell_env (map SDict es) = Ok x.
Proof. induction es as [|e es [x IH]]; [exists []; reflexivity|]. cbn. rewrite IH. cbn. eauto. Qed.
Lemma cell_nth {A} (l : list A) n x : cell l n x <-> 0 <= n /\ nth_error l (Z.to_nat n) = Some x.
Proof. unfold cell. tauto. Qed.
Lemma cell_tail {A} (a : A) l n x : 0 < n -> cell (a :: l) n x <-> nth_error l (Z.to_nat (n - 1)) = Some x.
Proof.
  intro N. rewrite cell_nth. replace (Z.to_nat n) with (S (Z.to_nat (n - 1))) by lia. cbn [nth_error]. split; [tauto|]. intro H. split; [lia|auto].
Qed.
Lemma numbers_from es : forall s, (forall k e, nth_error es k = Some e -> n_num e = s + Z.of_nat k) ->
  StronglySorted Z.lt (map n_num (lives es)) /\ Forall (fun n => s <= n) (map n_num (lives es)) /\
  forall n, In n (map n_num (lives es)) <-> exists k e, nth_error es k = Some e /\ n_del e = false /\ n = s + Z.of_nat k.
Proof.
  induction es as [|a es IH]; intros s H.
  - cbn. split; [constructor|]. split; [constructor|]. intro n. split; [tauto|]. intros (k & e & E & _). destruct k; discriminate.
  - destruct (IH (s + 1)) as (I1 & I2 & I3). { intros k e E. rewrite (H (S k) e E). lia. }
    pose proof (H O a eq_refl) as Ha. rewrite Z.add_0_r in Ha.
    assert (I4 : forall n, In n (map n_num (lives (a :: es))) <-> exists k e, nth_error (a :: es) k = Some e /\ n_del e = false /\ n = s + Z.of_nat k).
    { intro n. cbn [lives filter]. fold (lives es). split.
      - intro I. destruct (n_del a) eqn:D; cbn [negb] in I.
        + apply I3 in I. destruct I as (k & e & E & X & ->). exists (S k), e. split; [auto|]. split; [auto|]. lia.
        + destruct I as [<-|I]; [exists O, a; split; [auto|]; split; [auto|]; lia|]. apply I3 in I. destruct I as (k & e & E & X & ->). exists (S k), e. split; [auto|]. split; [auto|]. lia.
      - intros ([|k] & e & E & D & ->).
        + injection E as <-. rewrite D. cbn [negb map]. left. lia.
        + assert (In (s + Z.of_nat (S k)) (map n_num (lives es))) by (apply I3; exists k, e; split; [auto|]; split; [auto|]; lia). destruct (negb (n_del a)); cbn [map]; [now right|auto]. }
    split; [|split; [|exact I4]].
    + cbn [lives filter]. fold (lives es). destruct (negb (n_del a)); [|auto]. cbn [map]. constructor; [auto|]. eapply Forall_impl; [|exact I2]. cbn. lia.
    + cbn [lives filter]. fold (lives es). destruct (negb (n_del a)); cbn [map]; [constructor; [lia|]|]; (eapply Forall_impl; [|exact I2]; cbn; lia).
Qed.
Lemma sorted_nodup l : StronglySorted Z.lt l -> NoDup l.
Proof. induction 1 as [|a l S IH F]; constructor; auto. intro I. rewrite Forall_forall in F. specialize (F a I). lia. Qed.
Lemma nodup_old ls : NoDup (map n_num ls) -> NoDup (map old_of ls).
Proof.
  intro N. apply (NoDup_map_inv snd). rewrite map_map. unfold old_of. cbn [snd]. exact N.
Qed.

(* ---------- the objects ---------- *)
Lemma squash_objs_spec m ls : forall d objs d2, coherent d -> Forall (fun e => 0 <= n_num e) ls -> squash_objs d m (map fresh ls) = Ok (objs, d2) ->
  read_only d d2 /\ Forall2 (fun e o => exists v, value d (n_num e) = Ok v /\ o = deep_ref_retarget m v) ls objs.
Proof.
  induction ls as [|e ls IH]; intros d objs d2 C N H.
  - cbn in H. injection H as <- <-. split; [apply read_only_refl; auto|constructor].
  - inversion N as [|? ? N1 N2]; subst. cbn [map squash_objs fresh as_dict bind n_old with_next with_pos with_old of_opt old_of fst snd] in H.
    destruct (get_object d (PRef (n_gen e) (n_num e))) as [[v d1]| |] eqn:G; cbn [bind] in H; try discriminate.
    destruct (squash_objs d1 m (map fresh ls)) as [[t d3]| |] eqn:S; cbn [bind] in H; try discriminate. injection H as <- <-.
    pose proof (get_ro _ _ _ _ _ C N1 G) as R1. destruct (IH d1 t d3 (ro_coherent _ _ R1) N2 S) as [R2 F]. split; [eapply read_only_trans; eauto|].
    constructor; [exists v; split; [eapply value_get; eauto|auto]|]. rewrite Forall_forall in N2. clear - F R1 N2. induction F as [|a b la lb (w & V & E) F IHF]; constructor.
    + exists w. split; [|auto]. rewrite <- (ro_values _ _ R1); [auto|]. apply N2. now left.
    + apply IHF. intros x I. apply N2. now right.
Qed.
Lemma squash_objs_total m ls : forall d, coherent d -> Forall (fun e => 0 <= n_num e /\ exists v, value d (n_num e) = Ok v) ls -> exists objs d2, squash_objs d m (map fresh ls) = Ok (objs, d2).
Proof.
  induction ls as [|e ls IH]; intros d C N; [cbn; eauto|]. inversion N as [|? ? [N1 [v V]] N2]; subst. cbn [map squash_objs fresh as_dict bind n_old with_next with_pos with_old of_opt old_of fst snd].
  destruct (read_ok d (n_gen e) (n_num e) v C N1 V) as (d1 & G & R1). rewrite G. cbn [bind]. destruct (IH d1 (ro_coherent _ _ R1)) as (objs & d2 & S).
  - eapply Forall_impl; [|exact N2]. intros a [A [w W]]. split; [auto|]. exists w. now rewrite (ro_values _ _ R1).
  - rewrite S. cbn [bind]. eauto.
Qed.

(* reading an object that is in the cache *)
Lemma value_cached d row e n v : open_row d row -> (exists p, provider d p) -> 0 <= n -> cell row n (SDict e) -> n_del e = false -> cell (d_cache d) n v -> v <> PNone -> value d n = Ok v.
Proof.
  intros O [p P] N C D V NN. unfold value, get_object. rewrite (open_last _ _ O), (provider_fdata _ _ P). cbn [bind]. unfold memoize.
  rewrite (proj2 (pyget_cell row n _ N) C). cbn [bind deleted_in]. rewrite D. cbn [bind]. rewrite (proj2 (pyget_cell (d_cache d) n _ N) V). cbn [bind].
  destruct (is_none v) eqn:I; [destruct v; discriminate||congruence|]. cbn [negb]. cbn [bind]. rewrite (proj2 (pyget_cell (d_cache d) n _ N) V). reflexivity.
Qed.

(* ---------- names ---------- *)
Lemma nth_left {A C} (R : A -> C -> Prop) l m : Forall2 R l m -> forall i x, nth_error l i = Some x -> exists y, nth_error m i = Some y /\ R x y.
Proof. induction 1 as [|a b l m P F IH]; intros [|i] x E; cbn in *; try discriminate; [injection E as <-; eauto|eauto]. Qed.
Lemma names_row d row r n : open_row d row -> names d r n <-> 0 < n /\ exists e, cell row n (SDict e) /\ n_del e = false /\ r = (n_gen e, n).
Proof.
  intro O. split.
  - intros (row' & e & O' & N & C & D & E). assert (row' = row) by (apply (open_fun d); auto). subst row'. eauto.
  - intros (N & e & C & D & E). exists row, e. auto.
Qed.

Lemma squash_inv d d' d1 c cat : editable d -> self_numbered d -> catalog_at d c cat -> all_storable d -> squash d = Ok (Some d', d1) ->
  read_only d d1 /\ exists l f, live_numbers d l /\ renumbering d 1 l f /\ squashed d l f d' /\ 
    (exists row x, d_index d' = [row] /\ first_xsn d = Ok x /\ first_xsn d' = Ok (if truthy x then x else None) /\
      exists ver e0, d_data d' = [mk_datum None None (Some (PvDummy (W_header ++ ver)))] /\ cell row 0 (SDict e0) /\ n_env e0 = None /\ n_xsn e0 = (if truthy x then x else None) /\ n_del e0 = false /\ n_xt e0 = None /\
      (forall n s, 0 < n -> cell row n s -> exists e o, s = SDict e /\ n_gen e = 0 /\ n_over e <> None /\ n_del e = false /\ cell (d_cache d') n o /\ o <> PNone) /\ exists dv, version d = Ok (ver, dv)).
Proof.
  intros ED SN CA KP H. pose proof (editable_coherent d ED) as C. unfold squash in H.
  destruct (last_row d) as [row| |] eqn:LR; cbn [bind] in H; try discriminate. pose proof (last_open _ _ LR) as O.
  destruct (Model_Filestruct.map_res cell_env row) as [env| |] eqn:ME; cbn [bind] in H; try discriminate. destruct (all_dicts _ _ ME) as [es0 ER].
  destruct (first_xsn d) as [x| |] eqn:FX; cbn [bind] in H; try discriminate.
  destruct CA as (t & root & VT & ER0 & (gc & -> & NC & VC)).
  destruct es0 as [|z es].
  { cbn in ER. subst row. pose proof (value_range d 0 _ ltac:(lia) VT _ O). cbn in *. lia. }
  assert (NUM : forall k e, nth_error es k = Some e -> n_num e = 1 + Z.of_nat k).
  { intros k e E. apply (SN row (1 + Z.of_nat k) e O); [lia|]. rewrite ER. cbn [map]. apply cell_tail; [lia|]. replace (Z.to_nat (1 + Z.of_nat k - 1)) with k by lia. rewrite nth_error_map, E. reflexivity. }
  destruct (numbers_from es 1 NUM) as (SS & GE & IN). pose proof (nodup_old _ (sorted_nodup _ SS)) as ND.
  unfold defragment_map in H. rewrite ER in H. cbn [map skipn] in H. rewrite defrag_spec in H. cbn [bind] in H. set (ls := lives es) in *. set (m := mp 0 ls) in *. set (e0 := with_dver (Some 0) (with_over (Some 0) (ient0 0 0))) in *.
  assert (X : exists e0', (if truthy x then upd_slot (SDict e0 :: map fresh ls) 0 (with_xsn x) else Ok (SDict e0 :: map fresh ls)) = Ok (SDict e0' :: map fresh ls) /\ n_env e0' = None /\ n_xsn e0' = (if truthy x then x else None) /\ n_del e0' = false /\ n_xt e0' = None).
  { destruct (truthy x); [exists (with_xsn x e0)|exists e0]; (split; [reflexivity|]; split; [reflexivity|]; split; [reflexivity|]; split; reflexivity). }
  destruct X as (e0' & EX & NE0 & XS & D0 & XT0). rewrite EX in H. cbn [bind] in H.
  unfold trailer in H. destruct (read_ok d 0 0 _ C ltac:(lia) VT) as (dt & GT & RT). rewrite GT in H. cbn [bind item] in H. rewrite ER0 in H. cbn [of_opt bind skipn] in H.
  destruct (squash_objs dt m (map fresh ls)) as [[objs d2]| |] eqn:SO; cbn [bind] in H; try discriminate.
  assert (NN : Forall (fun e => 0 <= n_num e) ls).
  { rewrite Forall_map in GE. eapply Forall_impl; [|exact GE]. cbn. lia. }
  destruct (squash_objs_spec m ls dt objs d2 (ro_coherent _ _ RT) NN SO) as [R2 F2].
  match type of H with context [changes ?nd] => destruct (changes nd) as [chg| |] eqn:CH; cbn [bind] in H; try discriminate end.
  destruct chg as [|ch chg]; [discriminate|]. destruct (version d2) as [[ver d3]| |] eqn:VE; cbn [bind] in H; try discriminate. injection H as <- <-.
  assert (R02 : read_only d d2) by (eapply read_only_trans; eauto).
  assert (VD : exists dv, version d = Ok (ver, dv)).
  { assert (CA1 : catalog_at d c cat) by (exists t, (PRef gc c); split; [auto|]; split; [auto|]; exists gc; auto). pose proof (catalog_ro _ _ c cat R02) as CR.
    assert (CA2 : catalog_at d2 c cat) by (eapply catalog_ro; [exact R02|]; auto).
    destruct (version_inv d2 c cat ver d3 (ro_coherent _ _ R02) CA2 VE) as (w0 & cv0 & EV0 & CV0 & _ & NX). destruct (NX d c cat cv0 C (eq_sym (ro_data _ _ R02)) CA1 CV0) as (d4 & V4). exists d4. rewrite EV0. exact V4. }
  assert (R13 : read_only d d3).
  { assert (CA2 : catalog_at d2 c cat) by (eapply catalog_ro; [exact R02|]; exists t, (PRef gc c); split; [auto|]; split; [auto|]; exists gc; auto).
    destruct (version_inv d2 c cat ver d3 (ro_coherent _ _ R02) CA2 VE) as (w0 & cv0 & _ & _ & R & _). eapply read_only_trans; eauto. }
  split; [auto|]. exists (map n_num ls), (rename m).
  set (c0 := deep_ref_retarget m (PDict [(K_Root, PRef gc c)])) in *.
  set (d' := mk_doc [SDict e0' :: map fresh ls] (c0 :: objs) [mk_datum None None (Some (PvDummy (W_header ++ ver)))]).
  assert (O' : open_row d' (SDict e0' :: map fresh ls)) by (exists []; reflexivity).
  assert (P' : exists p, provider d' p) by (eexists; exists [], (mk_datum None None (Some (PvDummy (W_header ++ ver)))); split; reflexivity).
  assert (NAM : forall r n, names d r n <-> exists k e, nth_error es k = Some e /\ n_del e = false /\ n = 1 + Z.of_nat k /\ r = old_of e).
  { intros r n. rewrite (names_row d row r n O). split.
    - intros (N & e & Ce & D & ->). rewrite ER in Ce. cbn [map] in Ce. apply cell_tail in Ce; [|auto]. rewrite nth_error_map in Ce. destruct (nth_error es (Z.to_nat (n - 1))) as [e'|] eqn:E; [|discriminate]. injection Ce as ->.
      exists (Z.to_nat (n - 1)), e. split; [auto|]. split; [auto|]. split; [lia|]. unfold old_of. rewrite (NUM _ _ E). f_equal. lia.
    - intros (k & e & E & D & -> & ->). split; [lia|]. exists e. split; [|split; [auto|unfold old_of; now rewrite (NUM _ _ E)]]. rewrite ER. cbn [map]. apply cell_tail; [lia|]. replace (Z.to_nat (1 + Z.of_nat k - 1)) with k by lia. now rewrite nth_error_map, E. }
  assert (LS : forall i e, nth_error ls i = Some e -> names d (old_of e) (n_num e) /\ n_del e = false).
  { intros i e E. apply nth_error_In in E. unfold ls, lives in E. apply filter_In in E. destruct E as [E D]. apply negb_true_iff in D. split; [|auto]. apply In_nth_error in E. destruct E as [k E]. apply NAM. exists k, e. split; [auto|]. split; [auto|]. split; [apply NUM; auto|auto]. }
  assert (LEN : length objs = length ls) by (clear - F2; induction F2; cbn; congruence).
  assert (CELL : forall n s, 0 < n -> cell (SDict e0' :: map fresh ls) n s -> exists e, nth_error ls (Z.to_nat (n - 1)) = Some e /\ s = fresh e).
  { intros n s N Ce. apply cell_tail in Ce; [|auto]. rewrite nth_error_map in Ce. destruct (nth_error ls (Z.to_nat (n - 1))) as [e|]; [|discriminate]. injection Ce as <-. eauto. }
  assert (ED' : editable d').
  { split; [|split; [exact P'|split; [eauto|]]].
    - intros r n e Or Ce. assert (r = SDict e0' :: map fresh ls) by (apply (open_fun d'); auto). subst r. destruct (Z.eq_dec n 0) as [->|N0].
      + unfold cell in Ce. destruct Ce as [_ Ce]. cbn in Ce. injection Ce as <-. exact NE0.
      + assert (0 < n) by (destruct Ce; lia). destruct (CELL n _ H Ce) as (e' & E & X). injection X as ->. destruct (LS _ _ E) as [NMS _]. destruct NMS as (row' & e2 & O2 & N2 & C2 & D2 & X2). cbn.
        apply nth_error_In in E. unfold ls, lives in E. apply filter_In in E. destruct E as [E _]. apply In_nth_error in E. destruct E as [k E]. apply (proj1 ED row (1 + Z.of_nat k) e' O). rewrite ER. cbn [map]. apply cell_tail; [lia|]. replace (Z.to_nat (1 + Z.of_nat k - 1)) with k by lia. now rewrite nth_error_map, E.
    - intros r Or. assert (r = SDict e0' :: map fresh ls) by (apply (open_fun d'); auto). subst r. split; [cbn; rewrite map_length; lia|]. intros n s N Ce. destruct (CELL n s N Ce) as (e' & E & ->). unfold fresh. eexists. split; [reflexivity|]. discriminate. }
  assert (NAM' : forall r n, names d' r n <-> exists e, nth_error ls (Z.to_nat (n - 1)) = Some e /\ 0 < n /\ r = (0, n)).
  { intros r n. rewrite (names_row d' _ r n O'). split.
    - intros (N & e & Ce & D & ->). destruct (CELL n _ N Ce) as (e' & E & X). injection X as ->. exists e'. auto.
    - intros (e & E & N & ->). split; [auto|]. eexists. split; [apply cell_tail; [auto|]; rewrite nth_error_map, E; reflexivity|]. cbn. destruct (LS _ _ E) as [_ D]. auto. }
  split; [|split; [|split]].
  - split; [exact SS|]. intro n. rewrite IN. split; [intros (k & e & E & D & ->)|intros (r & N)].
    + exists (old_of e). apply NAM. exists k, e. auto.
    + apply NAM in N. destruct N as (k & e & E & D & -> & _). exists k, e. auto.
  - split.
    + intros i n r E N. rewrite nth_error_map in E. destruct (nth_error ls i) as [e|] eqn:Ei; [|discriminate]. injection E as <-. destruct (LS _ _ Ei) as [N' _]. apply NAM in N. apply NAM in N'. destruct N as (k & e1 & E1 & _ & X1 & ->), N' as (k' & e2 & E2 & _ & X2 & X3).
      assert (k = k') by lia. subst k'. rewrite E1 in E2. injection E2 as <-. rewrite <- X3. unfold m. rewrite (rename_mp ls 0 ND i e Ei). f_equal.
    + intros r N. apply rename_other. intro I. apply mp_keys in I. apply in_map_iff in I. destruct I as (e & <- & I). apply In_nth_error in I. destruct I as [i I]. destruct (LS _ _ I) as [NMS _]. apply (N (n_num e)); [|auto]. apply in_map. eapply nth_error_In; eauto.
  - constructor.
    + exact ED'.
    + intro n. rewrite map_length. split; [intros (r & N); apply NAM' in N; destruct N as (e & E & N & _); pose proof (proj1 (nth_error_Some ls (Z.to_nat (n - 1))) ltac:(congruence)); lia|].
      intro N. destruct (nth_error ls (Z.to_nat (n - 1))) as [e|] eqn:E; [|apply nth_error_None in E; lia]. exists (0, n). apply NAM'. exists e. split; [auto|]. split; [lia|auto].
    + intros r n N. apply NAM' in N. destruct N as (e & _ & _ & ->). auto.
    + intros i n E. rewrite nth_error_map in E. destruct (nth_error ls i) as [e|] eqn:Ei; [|discriminate]. injection E as <-.
      assert (E2 : exists o, nth_error objs i = Some o /\ exists v, value dt (n_num e) = Ok v /\ o = deep_ref_retarget m v).
      { exact (nth_left _ _ _ F2 _ _ Ei). }
      destruct E2 as (o & Eo & v & V & ->). destruct (LS _ _ Ei) as [NMS DE]. assert (0 <= n_num e) by (destruct NMS as (? & ? & _ & NZ & _); clear - NZ; lia). rewrite (ro_values _ _ RT) in V; [|auto].
      exists v, (deep_ref_retarget m v). split; [auto|]. destruct (KP _ _ _ NMS V) as [NP SF]. split.
      * destruct SF as [SF|(sd & s & en & ->)]; [|apply Ca_stream]. apply Ca_other; [auto|]. apply retarget_rename; [|auto]. apply mp_nodup; auto.
      * apply (value_cached d' _ (with_next None (with_pos None (with_old (Some (old_of e)) (with_dver (Some 0) (with_over (Some 0) (with_gen 0 e)))))) _ _ O' P'); [lia| |exact DE| |].
        -- apply cell_tail; [lia|]. replace (Z.to_nat (Z.of_nat i + 1 - 1)) with i by lia. rewrite nth_error_map, Ei. reflexivity.
        -- cbn [d' d_cache]. apply cell_tail; [lia|]. replace (Z.to_nat (Z.of_nat i + 1 - 1)) with i by lia. exact Eo.
        -- intro X. destruct v; cbn in X; try discriminate; [congruence|]. destruct (assoc_ref _ _) as [[? ?]|]; discriminate.
    + exists t, (PRef gc c), (deep_ref_retarget m (PRef gc c)). split; [auto|]. split; [auto|]. split; [apply retarget_rename; [apply mp_nodup; auto|now apply sf_leaf]|].
      apply (value_cached d' _ e0' 0 _ O' P'); [lia|split; [lia|reflexivity]|exact D0|split; [lia|reflexivity]|discriminate].
  - exists (SDict e0' :: map fresh ls), x. split; [reflexivity|]. split; [auto|]. unfold first_xsn, d'. cbn [d_index]. rewrite (proj2 (pyget_cell _ 0 _ ltac:(lia)) (conj (Z.le_refl 0) eq_refl : cell [SDict e0' :: map fresh ls] 0 _)). cbn [bind]. rewrite (proj2 (pyget_cell _ 0 _ ltac:(lia)) (conj (Z.le_refl 0) eq_refl : cell (SDict e0' :: map fresh ls) 0 _)). cbn [bind]. rewrite XS. split; [auto|].
    exists ver, e0'. split; [reflexivity|]. split; [split; [lia|reflexivity]|]. split; [auto|]. split; [auto|]. split; [auto|]. split; [auto|]. split; [|exact VD]. intros n s N Ce. destruct (CELL n s N Ce) as (e & E & ->). destruct (LS _ _ E) as [NMS DE]. destruct (nth_left _ _ _ F2 _ _ E) as (o & Eo & v & V & ->).
    eexists. exists (deep_ref_retarget m v). split; [reflexivity|]. split; [reflexivity|]. split; [discriminate|]. split; [exact DE|]. split; [cbn [d' d_cache]; apply cell_tail; auto|].
    assert (0 <= n_num e) by (destruct NMS as (? & ? & _ & NZ & _); clear - NZ; lia). rewrite (ro_values _ _ RT) in V; [|auto]. destruct (KP _ _ _ NMS V) as [NP SF]. intro X. destruct v; cbn in X; try discriminate; [congruence|]. destruct (assoc_ref _ _) as [[? ?]|]; discriminate.
Qed.

(* ---------- in_use ---------- *)
Definition in_use_at (row : list slot) (i : Z) : res (list ref) :=
  let* r := get_iref row i in
  match r with
  | None => Ok []
  | Some ir => let* s := pyget row i in let* del := deleted_in s in Ok (if del : bool then [] else [ir])
  end.
Lemma in_use_from row n : forall s, Spec_Docstruct.tidy row -> 1 <= s -> s + Z.of_nat n = Z.of_nat (length row) -> exists l,
  Model_Filestruct.map_res (in_use_at row) (zseq s n) = Ok l /\ StronglySorted Z.lt (map snd (concat l)) /\
  forall g k, In (g, k) (concat l) <-> s <= k /\ exists e, cell row k (SDict e) /\ n_del e = false /\ g = n_gen e.
Proof.
  induction n as [|n IH]; intros s T S L.
  - exists []. split; [reflexivity|]. split; [constructor|]. intros g k. split; [intros []|]. intros (K & e & C & _). apply cell_range in C. lia.
  - destruct (IH (s + 1) T ltac:(lia) ltac:(lia)) as (l & E & SS & I). cbn [zseq Model_Filestruct.map_res].
    destruct (pyget_range row s ltac:(lia)) as [c C]. unfold in_use_at at 1. unfold get_iref. assert (G : pyget row s = Ok c) by (apply pyget_cell; auto; lia). rewrite G. cbn [bind].
    destruct c as [|e|ll]; [| |exfalso; eapply (T s _ ltac:(lia) C); reflexivity].
    + cbn [bind]. rewrite E. cbn [bind]. exists ([] :: l). split; [reflexivity|]. split; [exact SS|]. intros g k. cbn [concat app]. rewrite I. split; [intros (K & e & Ce & X); split; [lia|eauto]|].
      intros (K & e & Ce & X). split; [|eauto]. destruct (Z.eq_dec k s) as [->|]; [|lia]. assert (pyget row s = Ok (SDict e)) by (apply pyget_cell; auto; lia). congruence.
    + cbn [as_dict bind deleted_in]. rewrite E. cbn [bind].
      assert (F : forall (g : Z) k e', cell row k (SDict e') -> k = s -> e' = e).
      { intros g k e' Ce ->. assert (pyget row s = Ok (SDict e')) by (apply pyget_cell; auto; lia). congruence. }
      destruct (n_del e) eqn:D.
      * exists ([] :: l). split; [reflexivity|]. split; [exact SS|]. intros g k. cbn [concat app]. rewrite I. split; [intros (K & e' & Ce & X); split; [lia|eauto]|].
        intros (K & e' & Ce & X & Y). split; [|eauto]. destruct (Z.eq_dec k s) as [Ek|]; [|lia]. pose proof (F g k e' Ce Ek). congruence.
      * exists ([(n_gen e, s)] :: l). split; [reflexivity|]. cbn [concat app map]. split.
        -- constructor; [exact SS|]. apply Forall_forall. intros k Ik. apply in_map_iff in Ik. destruct Ik as ([g k'] & <- & Ik). apply I in Ik. cbn. lia.
        -- intros g k. cbn [In]. rewrite I. split.
           ++ intros [X|(K & X)]; [injection X as <- <-; split; [lia|eauto]|split; [lia|auto]].
           ++ intros (K & e' & Ce & X & Y). destruct (Z.eq_dec k s) as [Ek|]; [left|right; split; [lia|eauto]]. pose proof (F g k e' Ce Ek). congruence.
Qed.
Theorem in_use_spec row : Spec_Docstruct.tidy row -> row <> [] -> exists l, in_use_row row = Ok l /\ StronglySorted Z.lt (map snd l) /\
  forall g n, In (g, n) l <-> 0 < n /\ exists e, cell row n (SDict e) /\ n_del e = false /\ g = n_gen e.
Proof.
  intros T N. destruct row as [|s0 row]; [congruence|]. destruct (in_use_from (s0 :: row) (length row) 1 T ltac:(lia) ltac:(cbn [length]; lia)) as (l & E & SS & I).
  unfold in_use_row, nums. cbn [length]. replace (S (length row) - 1)%nat with (length row) by lia. fold (in_use_at (s0 :: row)). change (Model_Filestruct.map_res _ (zseq 1 (length row))) with (Model_Filestruct.map_res (in_use_at (s0 :: row)) (zseq 1 (length row))). rewrite E. cbn [bind]. exists (concat l). split; [reflexivity|]. split; [exact SS|].
  intros g n. rewrite I. split; intros (A & B); (split; [lia|auto]).
Qed.
Lemma editable_tidy d row : editable d -> open_row d row -> Spec_Docstruct.tidy row.
Proof. intros (_ & _ & _ & H) O n s N C l. destruct (H row O) as [_ H2]. destruct (H2 n s N C) as (e & -> & _). discriminate. Qed.
Lemma in_use_doc d : editable d -> (exists row, open_row d row /\ row <> []) -> exists l, in_use d (-1) = Ok l /\ StronglySorted Z.lt (map snd l) /\ forall g n, In (g, n) l <-> names d (g, n) n.
Proof.
  intros ED (row & O & NR). destruct (in_use_spec row (editable_tidy d row ED O) NR) as (l & E & SS & I). exists l. unfold in_use. destruct O as [ix Ei] eqn:EO. rewrite Ei, pyget_last. cbn [bind]. split; [exact E|]. split; [exact SS|].
  intros g n. rewrite I, (names_row d row _ _ (ex_intro _ ix Ei)). split; intros (A & e & B & D & X); (split; [auto|]; exists e; split; [auto|]; split; [auto|]; congruence).
Qed.

(* ---------- squash succeeds ---------- *)
Lemma squash_total d c cat : editable d -> self_numbered d -> catalog_at d c cat -> (forall r n, names d r n -> exists v, value d n = Ok v) ->
  (exists row e0, open_row d row /\ cell row 0 (SDict e0)) -> (exists x, first_xsn d = Ok x) -> (exists v d1, version d = Ok (v, d1)) ->
  (exists a b ra rb, a <> b /\ names d ra a /\ names d rb b) -> exists d' d1, squash d = Ok (Some d', d1).
Proof.
  intros ED SN CA VS (row & z & O & C0) (x & FX) (ver & dv & VE) TWO. pose proof (editable_coherent d ED) as C. unfold squash. rewrite (open_last _ _ O). cbn [bind].
  assert (ER : exists es, row = map SDict (z :: es)).
  { destruct row as [|s row]; [destruct C0 as [_ C0]; discriminate|]. destruct C0 as [_ C0]. cbn in C0. injection C0 as ->. 
    assert (X : forall l, (forall s, In s l -> exists e, s = SDict e) -> exists es, l = map SDict es).
    { clear. induction l as [|a l IH]; intro H; [exists []; reflexivity|]. destruct (H a (or_introl eq_refl)) as [e ->]. destruct IH as [es ->]; [intros; apply H; now right|]. exists (e :: es). reflexivity. }
    destruct (X row) as [es ->]; [|exists es; reflexivity]. intros s I. apply In_nth_error in I. destruct I as [k E]. destruct ED as (_ & _ & _ & H). destruct (H _ O) as [_ H2]. destruct (H2 (1 + Z.of_nat k) s ltac:(lia)) as (e & -> & _); [|eauto]. apply cell_tail; [lia|]. now replace (Z.to_nat (1 + Z.of_nat k - 1)) with k by lia. }
  destruct ER as [es ER]. destruct (dicts_all (z :: es)) as [env ME]. rewrite ER, ME. cbn [bind]. rewrite FX. cbn [bind].
  assert (NUM : forall k e, nth_error es k = Some e -> n_num e = 1 + Z.of_nat k).
  { intros k e E. apply (SN row (1 + Z.of_nat k) e O); [lia|]. rewrite ER. cbn [map]. apply cell_tail; [lia|]. replace (Z.to_nat (1 + Z.of_nat k - 1)) with k by lia. rewrite nth_error_map, E. reflexivity. }
  unfold defragment_map. cbn [map skipn]. rewrite defrag_spec. cbn [bind]. set (ls := lives es). set (m := mp 0 ls). set (e0 := with_dver (Some 0) (with_over (Some 0) (ient0 0 0))).
  assert (X : exists e0', (if truthy x then upd_slot (SDict e0 :: map fresh ls) 0 (with_xsn x) else Ok (SDict e0 :: map fresh ls)) = Ok (SDict e0' :: map fresh ls)).
  { destruct (truthy x); [exists (with_xsn x e0)|exists e0]; reflexivity. }
  destruct X as (e0' & EX). rewrite EX. cbn [bind].
  pose proof CA as (t & root & VT & ER0 & P). unfold trailer. destruct (read_ok d 0 0 _ C ltac:(lia) VT) as (dt & GT & RT). rewrite GT. cbn [bind item]. rewrite ER0. cbn [of_opt bind skipn].
  assert (NMS : forall k e, nth_error es k = Some e -> n_del e = false -> names d (n_gen e, 1 + Z.of_nat k) (1 + Z.of_nat k)).
  { intros k e E D. apply (names_row d row _ _ O). split; [lia|]. exists e. split; [|auto]. rewrite ER. cbn [map]. apply cell_tail; [lia|]. replace (Z.to_nat (1 + Z.of_nat k - 1)) with k by lia. now rewrite nth_error_map, E. }
  destruct (squash_objs_total m ls dt (ro_coherent _ _ RT)) as (objs & d2 & SO).
  { apply Forall_forall. intros e I. unfold ls, lives in I. apply filter_In in I. destruct I as [I D]. apply negb_true_iff in D. apply In_nth_error in I. destruct I as [k E]. rewrite (NUM k e E). split; [lia|]. destruct (VS _ _ (NMS k e E D)) as [v V]. exists v. rewrite (ro_values _ _ RT); [auto|lia]. }
  rewrite SO. cbn [bind].
  assert (NN : Forall (fun e => 0 <= n_num e) ls).
  { apply Forall_forall. intros e I. unfold ls, lives in I. apply filter_In in I. destruct I as [I _]. apply In_nth_error in I. destruct I as [k E]. rewrite (NUM k e E). lia. }
  destruct (squash_objs_spec m ls dt objs d2 (ro_coherent _ _ RT) NN SO) as [R2 F2]. assert (R02 : read_only d d2) by (eapply read_only_trans; eauto).
  match goal with |- context [changes ?q] => set (nd := q) end.
  assert (CELL : forall n s, 0 < n -> cell (SDict e0' :: map fresh ls) n s -> exists e, nth_error ls (Z.to_nat (n - 1)) = Some e /\ s = fresh e).
  { intros n s N Ce. apply cell_tail in Ce; [|auto]. rewrite nth_error_map in Ce. destruct (nth_error ls (Z.to_nat (n - 1))) as [e|]; [|discriminate]. injection Ce as <-. eauto. }
  destruct (changes_single nd (SDict e0' :: map fresh ls) eq_refl) as (chg & CH & _ & IN).
  { intros n s N Ce l. destruct (CELL n s N Ce) as (e & _ & ->). discriminate. }
  { exists (SDict e0'). split; [split; [lia|reflexivity]|discriminate]. }
  rewrite CH. cbn [bind].
  assert (NE : chg <> []).
  { destruct TWO as (a & b & ra & rb & AB & NA & NB). 
    assert (L2 : (2 <= length ls)%nat).
    { assert (IL : forall r n, names d r n -> In n (map n_num ls)).
      { intros r n Nr. apply (proj1 (names_row d row r n O)) in Nr. destruct Nr as (N & e & Ce & D & _). rewrite ER in Ce. cbn [map] in Ce. apply cell_tail in Ce; [|auto]. rewrite nth_error_map in Ce. destruct (nth_error es (Z.to_nat (n - 1))) as [e'|] eqn:E; [|discriminate]. injection Ce as ->.
        apply in_map_iff. exists e. split; [rewrite (NUM _ _ E); lia|]. unfold ls, lives. apply filter_In. split; [eapply nth_error_In; eauto|now rewrite D]. }
      pose proof (IL _ _ NA) as Ia. pose proof (IL _ _ NB) as Ib. rewrite <- (map_length n_num). destruct (map n_num ls) as [|u [|v w]]; cbn in *; [tauto| |lia]. destruct Ia as [->|[]], Ib as [->|[]]. congruence. }
    assert (XR : forall n, xref_object (SDict e0' :: map fresh ls) n -> n_xsn e0' = Some n).
    { intros n (e & [_ Ce] & X). cbn in Ce. injection Ce as ->. exact X. }
    assert (exists i e, 0 < i /\ at_num (SDict e0' :: map fresh ls) i = SDict e /\ ~ xref_object (SDict e0' :: map fresh ls) i) as (i & e & I1 & I2 & I3).
    { destruct ls as [|l1 [|l2 ls']]; [cbn in L2; lia|cbn in L2; lia|].
      destruct (n_xsn e0') as [q|] eqn:Q; [destruct (Z.eq_dec q 1) as [->|]|].
      - exists 2. eexists. split; [lia|]. split; [reflexivity|]. intro X. apply XR in X. congruence.
      - exists 1. eexists. split; [lia|]. split; [reflexivity|]. intro X. apply XR in X. congruence.
      - exists 1. eexists. split; [lia|]. split; [reflexivity|]. intro X. apply XR in X. congruence. }
    intros ->. assert (J : In ((n_gen e, i), Add) []); [|destruct J]. apply IN. split; [auto|]. split; [auto|]. exists e. auto. }
  destruct chg as [|ch chg]; [congruence|].
  destruct (version_inv d c cat ver dv C CA VE) as (w & cv & _ & Ecv & _ & VV). destruct (VV d2 c cat cv (ro_coherent _ _ R02) (ro_data _ _ R02) (catalog_ro _ _ _ _ R02 CA) Ecv) as [d3 E3]. rewrite E3. cbn [bind]. eauto.
Qed.
End WithZlib.
