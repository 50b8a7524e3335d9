(* compress: from any document without object streams to a file with an object stream *)
From Coq Require Import String Sorted ZifyBool ZifyNat.
From Verif Require Import PyBase Model_Filters Model_Objects Model_Filestruct Model_Text Model_Docstruct Model_Api.
From Verif Require Import Spec_Objects Spec_Filestruct Spec_Docstruct Spec_Pages Spec_Squash Spec_Calls Spec_Api Spec_Save Spec_Objstm Spec_Packed.
From Verif Require Import Facts_Squash Facts_Base Facts_Filters Facts_Obj Facts_Refs Facts_Top Facts_Xstm Facts_Revision Facts_Doc Facts_Commit Facts_Edit Facts_Calls Facts_Save Facts_Packed.

Section WithZlib.
Context {ZL : Zlib}.

(* ---------- documents held in memory ---------- *)
Record mem (d : doc) (row : list slot) (t : dict) (xs : option Z) (p : prov) : Prop := mk_mem {
  m_index : d_index d = [row];
  m_data : d_data d = [mk_datum None None (Some p)];
  m_len : length (d_cache d) = length row;
  m_zero : exists e0, cell row 0 (SDict e0) /\ n_env e0 = None /\ n_xsn e0 = xs /\ n_del e0 = false /\ n_xt e0 = None;
  m_trailer : cell (d_cache d) 0 (PDict t);
  m_cells : forall n s, 0 < n -> cell row n s -> exists e o, s = SDict e /\ n_gen e = 0 /\ n_over e <> None /\ n_del e = false /\ cell (d_cache d) n o /\ o <> PNone
}.
Definition no_env (row : list slot) : Prop := forall n e, cell row n (SDict e) -> n_env e = None.

Lemma mem_open d row t xs p : mem d row t xs p -> open_row d row.
Proof. intro M. exists []. apply M. Qed.
Lemma mem_provider d row t xs p : mem d row t xs p -> provider d p.
Proof. intro M. exists [], (mk_datum None None (Some p)). split; [apply M|reflexivity]. Qed.
Lemma mem_last d row t xs p : mem d row t xs p -> last_row d = Ok row.
Proof. intro M. eapply open_last, mem_open; eauto. Qed.
Lemma with_cache_self d : with_cache d (d_cache d) = d.
Proof. destruct d. reflexivity. Qed.
Lemma mem_get d row t xs p g n o : mem d row t xs p -> 0 <= n -> cell (d_cache d) n o -> get_object d (PRef g n) = Ok (o, d).
Proof.
  intros M N C. pose proof (cell_range _ _ _ C) as R. rewrite (m_len _ _ _ _ _ M) in R.
  assert (X : exists e, cell row n (SDict e) /\ n_del e = false /\ o <> PNone).
  { destruct (Z.eq_dec n 0) as [->|N0].
    - destruct (m_zero _ _ _ _ _ M) as (e0 & C0 & _ & _ & D & _). exists e0. split; [auto|]. split; [auto|]. pose proof (cell_fun _ _ _ _ C (m_trailer _ _ _ _ _ M)) as ->. discriminate.
    - destruct (nth_error row (Z.to_nat n)) as [s|] eqn:Q; [|apply nth_error_None in Q; lia]. assert (Cs : cell row n s) by (split; [lia|auto]).
      destruct (m_cells _ _ _ _ _ M n s ltac:(lia) Cs) as (e & o' & -> & _ & _ & D & C' & NN). exists e. split; [auto|]. split; [auto|]. rewrite (cell_fun _ _ _ _ C C'). auto. }
  destruct X as (e & Ce & D & NN). unfold get_object. rewrite (mem_last _ _ _ _ _ M). cbn [bind]. rewrite (provider_fdata _ _ (mem_provider _ _ _ _ _ M)). cbn [bind]. unfold memoize.
  rewrite (proj2 (pyget_cell row n _ N) Ce). cbn [bind deleted_in]. rewrite D. rewrite (proj2 (pyget_cell (d_cache d) n _ N) C). cbn [bind].
  destruct (is_none o) eqn:I; [destruct o; discriminate||congruence|]. cbn [negb bind]. rewrite (proj2 (pyget_cell (d_cache d) n _ N) C). cbn [bind]. now rewrite with_cache_self.
Qed.
Lemma mem_value d row t xs p n o : mem d row t xs p -> 0 <= n -> cell (d_cache d) n o -> value d n = Ok o.
Proof. intros M N C. unfold value. rewrite (mem_get _ _ _ _ _ 0 n o M N C). reflexivity. Qed.
Lemma mem_value_inv d row t xs p n o : mem d row t xs p -> 0 <= n -> value d n = Ok o -> cell (d_cache d) n o.
Proof.
  intros M N V. pose proof (value_range d n o N V row (mem_open _ _ _ _ _ M)) as R.
  destruct (nth_error (d_cache d) (Z.to_nat n)) as [o'|] eqn:Q; [|apply nth_error_None in Q; rewrite (m_len _ _ _ _ _ M) in Q; lia].
  assert (C : cell (d_cache d) n o') by (split; auto). rewrite (mem_value _ _ _ _ _ _ _ M N C) in V. congruence.
Qed.

Lemma set_row_one d row row' : d_index d = [row] -> set_last_row d row' = Ok (mk_doc [row'] (d_cache d) (d_data d)).
Proof. intro E. unfold set_last_row. rewrite E. reflexivity. Qed.

Lemma mem_update d row t xs p n o d' : mem d row t xs p -> 0 < n -> o <> PNone -> update_object d n o = Ok d' ->
  exists e', n_env e' = None /\ d_cache d' = lset (d_cache d) (Z.to_nat n) o /\ n < Z.of_nat (length row) /\ mem d' (lset row (Z.to_nat n) (SDict e')) t xs p.
Proof.
  intros M N NO U. unfold update_object in U. rewrite (mem_last _ _ _ _ _ M) in U. cbn [bind] in U.
  destruct (pyget row n) as [s| |] eqn:E; cbn [bind] in U; try discriminate. apply pyget_cell in E; [|lia]. pose proof (cell_range _ _ _ E) as R.
  destruct (m_cells _ _ _ _ _ M n s N E) as (e & o0 & -> & G & OV & D & C & NN). cbn [as_dict bind] in U. destruct (n_over e) as [ov|]; [|congruence]. cbn [of_opt bind] in U.
  rewrite pyset_ok in U by lia. cbn [bind] in U. rewrite (set_row_one _ _ _ (m_index _ _ _ _ _ M)) in U. cbn [bind d_cache] in U. pose proof (m_len _ _ _ _ _ M) as L. rewrite pyset_ok in U by lia. cbn [bind] in U. injection U as <-.
  eexists. split; [|split; [reflexivity|split; [lia|]]]; [|].
  2:{ constructor; cbn [with_cache d_index d_data d_cache].
    - reflexivity.
    - apply M.
    - rewrite !lset_length. auto.
    - destruct (m_zero _ _ _ _ _ M) as (e0 & C0 & Q). exists e0. split; [|exact Q]. apply cell_lset; [lia|]. right. split; [lia|auto].
    - apply cell_lset; [lia|]. right. split; [lia|apply M].
    - intros k s K Ck. rewrite cell_lset in Ck by lia. destruct Ck as [[-> ->]|[NK Ck]].
      + eexists _, o. split; [reflexivity|]. split; [exact G|]. split; [discriminate|]. split; [destruct o; cbn; congruence|]. split; [apply cell_lset; [lia|auto]|auto].
      + destruct (m_cells _ _ _ _ _ M k s K Ck) as (e1 & o1 & A1 & A2 & A3 & A4 & A5 & A6). exists e1, o1. repeat (split; [assumption|]). split; [apply cell_lset; [lia|auto]|auto]. }
  reflexivity.
Qed.

Lemma mem_add d row t xs p o d' r : mem d row t xs p -> o <> PNone -> add_object d o = Ok (d', r) ->
  exists e', n_env e' = None /\ r = (0, Z.of_nat (length row)) /\ d_cache d' = d_cache d ++ [o] /\ mem d' (row ++ [SDict e']) t xs p.
Proof.
  intros M NO A. unfold add_object in A. rewrite (mem_last _ _ _ _ _ M) in A. cbn [bind] in A. rewrite (set_row_one _ _ _ (m_index _ _ _ _ _ M)) in A. cbn [bind d_cache] in A.
  pose proof (m_len _ _ _ _ _ M) as L. rewrite pyset_ok in A by (rewrite app_length; cbn [length]; lia). cbn [bind] in A. injection A as <- <-.
  assert (Q : lset (d_cache d ++ [PNone]) (Z.to_nat (Z.of_nat (length row))) o = d_cache d ++ [o]).
  { rewrite Nat2Z.id, <- L. clear. induction (d_cache d) as [|a l IH]; [reflexivity|]. cbn [length app lset]. now rewrite IH. }
  rewrite Q. eexists. split; [|split; [reflexivity|split; [reflexivity|]]]; [|].
  2:{ constructor; cbn [with_cache d_index d_data d_cache].
    - reflexivity.
    - apply M.
    - rewrite !app_length. cbn [length]. lia.
    - destruct (m_zero _ _ _ _ _ M) as (e0 & C0 & Q0). exists e0. split; [|exact Q0]. apply cell_snoc. auto.
    - apply cell_snoc. left. apply M.
    - intros k s K Ck. apply cell_snoc in Ck as [Ck|[-> ->]].
      + destruct (m_cells _ _ _ _ _ M k s K Ck) as (e1 & o1 & A1 & A2 & A3 & A4 & A5 & A6). exists e1, o1. repeat (split; [assumption|]). split; [apply cell_snoc; auto|auto].
      + eexists _, o. split; [reflexivity|]. split; [reflexivity|]. split; [discriminate|]. split; [reflexivity|]. split; [apply cell_snoc; right; split; [lia|auto]|auto]. }
  reflexivity.
Qed.

(* ---------- force_xref_stream ---------- *)
Lemma mem_force d row t p d' : mem d row t None p -> force_xref_stream d false V_Flate = Ok d' ->
  exists e0 row', cell row 0 (SDict e0) /\ row' = lset row 0 (SDict (with_xsn (Some (-1)) e0)) /\
    d_cache d' = lset (d_cache d) 0 (PDict (dset K_Filter (PStr V_Flate) t)) /\ mem d' row' (dset K_Filter (PStr V_Flate) t) (Some (-1)) p.
Proof.
  intros M H. destruct (m_zero _ _ _ _ _ M) as (e0 & C0 & E1 & E2 & E3 & E4). unfold force_xref_stream in H. rewrite (mem_last _ _ _ _ _ M) in H. cbn [bind] in H.
  rewrite (proj2 (pyget_cell row 0 _ ltac:(lia)) C0) in H. cbn [bind] in H. rewrite E2 in H. cbn [bind] in H. pose proof (m_trailer _ _ _ _ _ M) as T.
  rewrite (proj2 (pyget_cell _ 0 _ ltac:(lia)) T) in H. cbn [bind dict_of] in H. unfold upd_slot in H. rewrite (proj2 (pyget_cell row 0 _ ltac:(lia)) C0) in H. cbn [bind as_dict] in H.
  pose proof (cell_range _ _ _ C0) as R. rewrite pyset_ok in H by lia. cbn [bind] in H. rewrite (set_row_one _ _ _ (m_index _ _ _ _ _ M)) in H. cbn [bind d_cache] in H. unfold V_Flate in H at 1. cbv iota beta in H.
  pose proof (m_len _ _ _ _ _ M) as L. rewrite pyset_ok in H by lia. cbn [bind] in H. injection H as <-. change (Z.to_nat 0) with 0%nat.
  exists e0, (lset row 0 (SDict (with_xsn (Some (-1)) e0))). split; [auto|]. split; [reflexivity|]. split; [reflexivity|].
  assert (Z0 : forall (A : Type) (l : list A) (v x : A) k, 0 < Z.of_nat (length l) -> cell (lset l 0 v) k x <-> (k = 0 /\ x = v) \/ (k <> 0 /\ cell l k x)).
  { intros A l v x k LL. change 0%nat with (Z.to_nat 0). apply cell_lset. lia. }
  constructor; cbn [with_cache d_index d_data d_cache].
  - reflexivity.
  - apply M.
  - rewrite !lset_length. auto.
  - exists (with_xsn (Some (-1)) e0). split; [apply Z0; [lia|auto]|]. auto.
  - apply Z0; [lia|auto].
  - intros k s K Ck. apply Z0 in Ck; [|lia]. destruct Ck as [[-> _]|[_ Ck]]; [lia|]. destruct (m_cells _ _ _ _ _ M k s K Ck) as (e1 & o1 & A1 & A2 & A3 & A4 & A5 & A6). exists e1, o1. repeat (split; [assumption|]). split; [apply Z0; [lia|right; split; [lia|auto]]|auto].
Qed.

(* ---------- group_obj_into_stream ---------- *)
Lemma no_envelopes d row t xs p : mem d row t xs p -> no_env row -> envelopes d = Ok [].
Proof.
  intros M NE. unfold envelopes. rewrite (mem_last _ _ _ _ _ M). cbn [bind].
  assert (X : forall l i, (forall s, In s l -> exists e, s = SDict e /\ n_env e = None) -> env_pairs i l = Ok []).
  { induction l as [|s l IH]; intros i H; [reflexivity|]. cbn [env_pairs]. destruct (H s (or_introl eq_refl)) as (e & -> & E). cbn [cell_env bind]. rewrite E, IH by (intros; apply H; now right). reflexivity. }
  rewrite X; [reflexivity|]. intros s I. apply In_nth_error in I as [k K]. assert (C : cell row (Z.of_nat k) s) by (split; [lia|rewrite Nat2Z.id; auto]).
  destruct (Z.eq_dec (Z.of_nat k) 0) as [Q|Q].
  - destruct (m_zero _ _ _ _ _ M) as (e0 & C0 & E & _). rewrite Q in C. rewrite (cell_fun _ _ _ _ C C0). eauto.
  - destruct (m_cells _ _ _ _ _ M (Z.of_nat k) s ltac:(lia) C) as (e & _ & -> & _). exists e. split; auto. eapply NE; eauto.
Qed.

(* what goes into an object stream *)
Definition inner (o : obj) : Prop := match o with PStream _ _ _ => False | PDict d => dget K_noslash_Length d = None | _ => True end.
Lemma mem_tag env l : forall d row t xs p d', mem d row t xs p -> Forall (fun n => 0 < n) l -> tag_env d env l = Ok d' ->
  exists row', mem d' row' t xs p /\ d_cache d' = d_cache d /\ length row' = length row /\
    forall n e', cell row' n (SDict e') -> exists e, cell row n (SDict e) /\
      (n_env e' = n_env e /\ (In n l -> forall o, cell (d_cache d) n o -> ~ inner o) \/
       In n l /\ n_env e' = Some env /\ exists o, cell (d_cache d) n o /\ inner o).
Proof.
  induction l as [|k l IH]; intros d row t xs p d' M F H.
  - cbn in H. injection H as <-. exists row. repeat (split; [assumption || reflexivity|]). intros n e' C. exists e'. split; [auto|]. left. split; [auto|intros []].
  - inversion F as [|? ? K0 F']; subst. cbn [tag_env] in H. rewrite (mem_last _ _ _ _ _ M) in H. cbn [bind] in H.
    destruct (pyget row k) as [s| |] eqn:E; cbn [bind] in H; try discriminate. apply pyget_cell in E; [|lia]. pose proof (cell_range _ _ _ E) as R.
    destruct (m_cells _ _ _ _ _ M k s K0 E) as (e & o & -> & G & OV & D & C & NN). cbn [as_dict bind] in H. rewrite (mem_get _ _ _ _ _ _ k o M ltac:(lia) C) in H. cbn [bind] in H. rewrite G in H. change (negb (0 =? 0)) with false in H. cbv iota in H.
    assert (STEP : (~ inner o /\ tag_env d env l = Ok d') \/ (inner o /\ exists d2, mem d2 (lset row (Z.to_nat k) (SDict (with_env (Some env) e))) t xs p /\ d_cache d2 = d_cache d /\ tag_env d2 env l = Ok d')).
    { rewrite pyset_ok in H by lia. cbn [bind] in H. rewrite (set_row_one _ _ _ (m_index _ _ _ _ _ M)) in H. cbn [bind] in H.
      assert (M2 : mem (mk_doc [lset row (Z.to_nat k) (SDict (with_env (Some env) e))] (d_cache d) (d_data d)) (lset row (Z.to_nat k) (SDict (with_env (Some env) e))) t xs p).
      { constructor; cbn [d_index d_data d_cache].
        - reflexivity.
        - apply M.
        - rewrite lset_length. apply M.
        - destruct (m_zero _ _ _ _ _ M) as (e0 & C0 & Q0). exists e0. split; [|exact Q0]. apply cell_lset; [lia|]. right. split; [lia|auto].
        - apply M.
        - intros n s N Cn. rewrite cell_lset in Cn by lia. destruct Cn as [[-> ->]|[_ Cn]]; [|eapply m_cells; eauto]. exists (with_env (Some env) e), o. auto 10. }
      unfold inner. destruct o; cbn [dhas] in *; try (right; split; [exact I|]; eexists; split; [exact M2|split; [reflexivity|exact H]]).
      - match goal with |- (~ (?x = None) /\ _) \/ _ => destruct x as [?|] eqn:DG; unfold dhas in H; rewrite DG in H; [left; split; [intro Q; discriminate Q|exact H]|] end. right. split; [auto|]. eexists; split; [exact M2|split; [reflexivity|exact H]].
      - left. split; [tauto|exact H]. }
    destruct STEP as [(NI & S)|(NI & d2 & M2 & CE & S)].
    + destruct (IH _ _ _ _ _ _ M F' S) as (row' & M' & CC & LL & X). exists row'. split; [auto|]. split; [auto|]. split; [auto|]. intros n e' Cn. destruct (X n e' Cn) as (e1 & C1 & [(A1 & A2)|(A1 & A2 & A3)]); exists e1; (split; [auto|]).
      * left. split; [auto|]. intros [<-|I] o' Co; [|auto]. rewrite (cell_fun _ _ _ _ Co C). auto.
      * right. split; [now right|auto].
    + destruct (IH _ _ _ _ _ _ M2 F' S) as (row' & M' & CC & LL & X). exists row'. split; [auto|]. split; [congruence|]. split; [rewrite lset_length in LL; auto|]. rewrite CE in X. intros n e' Cn. destruct (X n e' Cn) as (e1 & C1 & Y).
      rewrite cell_lset in C1 by lia. destruct C1 as [[-> Q]|[NK C1]].
      * injection Q as ->. exists e. split; [auto|]. right. split; [now left|]. split; [|eauto]. destruct Y as [(A1 & _)|(_ & A2 & _)]; auto.
      * exists e1. split; [auto|]. destruct Y as [(A1 & A2)|(A1 & A2 & A3)]; [left|right; split; [now right|auto]]. split; [auto|]. intros [Q|I] o' Co; [congruence|auto].
Qed.

Lemma mem_changes d row t xs p : mem d row t xs p -> (forall z, xs = Some z -> z <= 0) ->
  exists chg, changes d = Ok chg /\ forall n, In n (map chg_num chg) <-> 0 < n < Z.of_nat (length row).
Proof.
  intros M X. assert (TR : Spec_Docstruct.tidy row). { intros n s N C l ->. destruct (m_cells _ _ _ _ _ M n _ N C) as (e & o & Q & _). discriminate. }
  destruct (m_zero _ _ _ _ _ M) as (e0 & C0 & _ & XS & _).
  destruct (changes_single d row (m_index _ _ _ _ _ M) TR) as (chg & EC & _ & IC); [exists (SDict e0); split; [auto|discriminate]|]. exists chg. split; [auto|]. intro n. rewrite in_map_iff. split.
  - intros ([[g i] a] & <- & I). apply IC in I as (_ & N & e & AT & _). cbn. split; [auto|]. destruct (Z_lt_ge_dec i (Z.of_nat (length row))); auto. rewrite at_num_out in AT by lia. discriminate.
  - intros N. destruct (nth_error row (Z.to_nat n)) as [s|] eqn:Q; [|apply nth_error_None in Q; lia]. assert (C : cell row n s) by (split; [lia|auto]). destruct (m_cells _ _ _ _ _ M n s ltac:(lia) C) as (e & _ & -> & _).
    exists ((n_gen e, n), Add). split; [reflexivity|]. apply IC. split; [auto|]. split; [lia|]. exists e. split; [apply at_num_cell; auto; lia|]. split; [auto|].
    intros (e1 & C1 & Y). pose proof (cell_fun _ _ _ _ C1 C0) as Z1. injection Z1 as ->. specialize (X n ltac:(congruence)). lia.
Qed.

Definition new_envelope : obj := PStream [(K_Type, PStr V_ObjStm)] (Some []) (Some []).
Lemma mem_group d row t xs p d' : mem d row t xs p -> (forall z, xs = Some z -> z <= 0) -> no_env row -> group_obj_into_stream d None [] = Ok d' ->
  let env := Z.of_nat (length row) in exists row', mem d' row' t xs p /\ d_cache d' = d_cache d ++ [new_envelope] /\ length row' = S (length row) /\
    forall n e', 0 < n -> cell row' n (SDict e') -> exists o, cell (d_cache d') n o /\ (n_env e' = None /\ (n = env \/ ~ inner o) \/ n <> env /\ n_env e' = Some env /\ inner o).
Proof.
  intros M X NE H env. unfold group_obj_into_stream in H. cbn [truthy] in H. destruct (add_object d (PBytes [])) as [[d1 r]| |] eqn:A; cbn [bind] in H; try discriminate.
  assert (NB : PBytes [] <> PNone) by discriminate. destruct (mem_add _ _ _ _ _ _ _ _ M NB A) as (ea & EA & -> & CA & M1). cbn [snd] in H. fold env in H. pose proof (m_len _ _ _ _ _ M) as L.
  destruct (mem_changes _ _ _ _ _ M X) as (chg & EC & IC). rewrite EC in H. cbn [bind] in H. match type of H with context [tag_env ?a ?b ?l] => change (tag_env a b l) with (tag_env d1 env (map chg_num chg)) in H end.
  destruct (tag_env d1 env (map chg_num chg)) as [d2| |] eqn:T; cbn [bind] in H; try discriminate.
  destruct (mem_tag env _ _ _ _ _ _ _ M1 ltac:(apply Forall_forall; intros n I; apply IC in I; lia) T) as (row' & M2 & CC & LL & TG). rewrite app_length in LL. cbn [length] in LL.
  pose proof (m_len _ _ _ _ _ M2) as L2. rewrite pyset_ok in H by (unfold env; lia). cbn [bind] in H. injection H as <-.
  assert (CE : lset (d_cache d2) (Z.to_nat env) new_envelope = d_cache d ++ [new_envelope]).
  { rewrite CC, CA. unfold env. rewrite Nat2Z.id, <- L. clear. induction (d_cache d) as [|a l IH]; [reflexivity|]. cbn [length app lset]. now rewrite IH. }
  fold new_envelope. cbn [with_cache d_cache]. exists row'.
  assert (CK : forall k o, cell (lset (d_cache d2) (Z.to_nat env) new_envelope) k o <-> (k = env /\ o = new_envelope) \/ (k <> env /\ cell (d_cache d) k o)).
  { intros k o. rewrite CE, cell_snoc, L. fold env. split.
    - intros [C|[-> ->]]; [right; split; [pose proof (cell_range _ _ _ C); unfold env; lia|auto]|auto].
    - intros [[-> ->]|[_ C]]; auto. }
  split; [|split; [exact CE|split; [lia|]]].
  - destruct M2. constructor; cbn [with_cache d_index d_data d_cache]; auto.
    + rewrite lset_length. auto.
    + apply CK. right. split; [pose proof (cell_range _ _ _ (m_trailer _ _ _ _ _ M)); unfold env; lia|apply M].
    + intros n s N C. destruct (m_cells0 n s N C) as (e1 & o1 & A1 & A2 & A3 & A4 & A5 & A6). destruct (Z.eq_dec n env) as [->|NV].
      * exists e1, new_envelope. repeat (split; [assumption|]). split; [apply CK; auto|discriminate].
      * exists e1, o1. repeat (split; [assumption|]). split; [|auto]. apply cell_lset; [unfold env; lia|]. auto.
  - intros n e' N C. pose proof (cell_range _ _ _ C) as RN. destruct (TG n e' C) as (e1 & C1 & Y). apply cell_snoc in C1 as [C1|[-> Q]].
    + pose proof (cell_range _ _ _ C1) as RN1. destruct (m_cells _ _ _ _ _ M n _ N C1) as (e2 & o & Q & _ & _ & _ & Co & _). exists o. split; [apply CK; right; split; [unfold env; lia|auto]|].
      assert (In n (map chg_num chg)) by (apply IC; lia). assert (Co1 : cell (d_cache d1) n o) by (rewrite CA; apply cell_snoc; auto).
      destruct Y as [(A1 & A2)|(A1 & A2 & o1 & Co2 & IN)]; [left|right].
      * split; [rewrite A1; eapply NE; eauto|]. right. apply A2; auto.
      * split; [unfold env; lia|]. split; [auto|]. rewrite (cell_fun _ _ _ _ Co1 Co2). auto.
    + injection Q as ->. exists new_envelope. split; [apply CK; left; auto|]. left. destruct Y as [(A1 & _)|(A1 & _)]; [split; [congruence|left; reflexivity]|]. apply IC in A1. lia.
Qed.

(* ---------- the streams ---------- *)
Definition is_stream (o : obj) : Prop := exists x c e, o = PStream x c e.
Lemma mem_streams d row t xs p : mem d row t xs p -> forall l m d', Forall (fun r : ref => 0 <= snd r) l -> streams_of d l = Ok (m, d') ->
  d' = d /\ (NoDup (map snd l) -> NoDup m) /\ forall n, In n m <-> In n (map snd l) /\ exists o, cell (d_cache d) n o /\ is_stream o.
Proof.
  intro M. induction l as [|[g n] l IH]; intros m d' F H.
  - cbn in H. injection H as <- <-. split; [auto|]. split; [auto|]. intro n. cbn. tauto.
  - inversion F as [|? ? N F']; subst. cbn [snd] in N. cbn [streams_of fst snd] in H. destruct (get_object d (PRef g n)) as [[o d1]| |] eqn:G; cbn [bind] in H; try discriminate.
    assert (C : cell (d_cache d) n o). { apply (mem_value_inv _ _ _ _ _ _ _ M N). unfold value. unfold get_object in *. cbn [fst snd] in G. destruct (last_row d); cbn [bind] in *; try discriminate. destruct (fdata_at d (-1)); cbn [bind] in *; try discriminate. destruct (memoize _ _ _ _); cbn [bind] in *; try discriminate. destruct (pyget _ n); cbn [bind] in *; congruence. }
    rewrite (mem_get _ _ _ _ _ g n o M N C) in G. injection G as <-.
    destruct (streams_of d l) as [[m1 d2]| |] eqn:S; cbn [bind] in H; try discriminate. destruct (IH _ _ F' eq_refl) as (-> & ND & I). cbn [map snd].
    assert (ST : (is_stream o /\ m = n :: m1) \/ (~ is_stream o /\ m = m1)). { destruct o; injection H as <- _; [| | | | | | | | |left; split; [repeat eexists|reflexivity]]; (right; split; [intros (? & ? & ? & Q); discriminate|reflexivity]). }
    assert (d' = d) by (destruct o; injection H; auto). subst d'. split; [auto|]. destruct ST as [(ST & ->)|(ST & ->)].
    + split; [intro Q; inversion Q; subst; constructor; [rewrite I; tauto|auto]|]. intro k. cbn [In]. rewrite I. split; [intros [<-|[Q1 Q2]]; [split; [auto|eauto]|auto]|]. intros [[<-|Q] R]; auto.
    + split; [intro Q; inversion Q; subst; auto|]. intro k. cbn [In]. rewrite I. split; [intros [Q1 Q2]; auto|]. intros [[<-|Q] (o' & C' & R)]; [|split; eauto]. destruct ST. now rewrite (cell_fun _ _ _ _ C C').
Qed.
Lemma mem_list d row t xs p l d' : mem d row t xs p -> list_streams d = Ok (l, d') ->
  d' = d /\ NoDup l /\ forall n, In n l <-> 0 < n /\ exists o, cell (d_cache d) n o /\ is_stream o.
Proof.
  intros M H. unfold list_streams in H. assert (TR : Spec_Docstruct.tidy row). { intros n s N C k ->. destruct (m_cells _ _ _ _ _ M n _ N C) as (e & o & Q & _). discriminate. }
  assert (RN : row <> []) by (destruct (m_zero _ _ _ _ _ M) as (e0 & C0 & _); intros ->; apply cell_range in C0; cbn in C0; lia).
  destruct (in_use_tidy d row (mem_open _ _ _ _ _ M) TR RN) as (u & E & SS & I & P). rewrite E in H. cbn [bind] in H.
  destruct (mem_streams _ _ _ _ _ M u l d') as (-> & ND & J); [eapply Forall_impl; [|exact P]; cbn; lia|auto|]. split; [auto|]. split; [apply ND, sorted_nodup, SS|].
  intro n. rewrite J. split.
  - intros [Q R]. split; [|auto]. apply in_map_iff in Q as ([g k] & <- & Q). rewrite Forall_forall in P. exact (P _ Q).
  - intros [N (o & C & S)]. split; [|eauto]. pose proof (cell_range _ _ _ C) as R. rewrite (m_len _ _ _ _ _ M) in R. destruct (nth_error row (Z.to_nat n)) as [s|] eqn:Q; [|apply nth_error_None in Q; lia]. assert (Cs : cell row n s) by (split; [lia|auto]).
    destruct (m_cells _ _ _ _ _ M n s N Cs) as (e & o' & -> & _ & _ & D & _). apply in_map_iff. exists (n_gen e, n). split; [auto|]. apply I. exists row, e. split; [eapply mem_open; eauto|]. auto.
Qed.

(* ---------- apply_filter ---------- *)
Lemma wfv_flate x : wfv (PDict x) -> wfv (PDict (dset K_Filter (PStr V_Flate) x)).
Proof. intro W. apply wfv_dset; [auto|apply name_ok; reflexivity|]. apply wf_name. apply name_ok; reflexivity. Qed.

Lemma mem_filter_one d row t xs p n v x c e d' : zlib_ok -> mem d row t xs p -> 0 < n -> cell (d_cache d) n v ->
  v = PStream x (Some c) (Some e) -> wfv (PDict x) -> Forall isbyte c -> simply_filtered x ->
  filter_one d n V_Flate = Ok d' ->
  (d' = d /\ dget K_Filter x = Some (PStr V_Flate)) \/
  exists x' e' ee, mem d' (lset row (Z.to_nat n) (SDict ee)) t xs p /\ n_env ee = None /\ d_cache d' = lset (d_cache d) (Z.to_nat n) (PStream x' (Some c) (Some e')) /\ n < Z.of_nat (length row) /\
    wfv (PDict x') /\ dget K_Filter x' = Some (PStr V_Flate) /\ (forall k, k <> K_Filter -> k <> K_Length -> dget k x' = dget k x) /\ decode_stream (Some e') x' = Ok (Some c).
Proof.
  intros ZO M N C -> W BC [NP FI] H. unfold filter_one, obj_at in H. rewrite (mem_last _ _ _ _ _ M) in H. cbn [bind] in H.
  pose proof (cell_range _ _ _ C) as R. rewrite (m_len _ _ _ _ _ M) in R. destruct (nth_error row (Z.to_nat n)) as [s|] eqn:Q; [|apply nth_error_None in Q; lia]. assert (Cs : cell row n s) by (split; [lia|auto]).
  destruct (m_cells _ _ _ _ _ M n s N Cs) as (en & o' & -> & _). rewrite (proj2 (pyget_cell row n _ ltac:(lia)) Cs) in H. cbn [bind as_dict] in H.
  rewrite (mem_get _ _ _ _ _ _ n _ M ltac:(lia) C) in H. cbn [bind] in H.
  destruct (refilter_roundtrip V_Flate x c ZO BC NP ltac:(left; left; reflexivity)) as (x' & e' & (len & FS) & RF & RK & RD). cbv zeta in FS. fold K_Filter in *.
  assert (X1 : match dget K_Filter x with Some _ => match V_Flate with [] => ddel K_Filter x | _ => dset K_Filter (PStr V_Flate) x end | None => dset K_Filter (PStr V_Flate) x end = dset K_Filter (PStr V_Flate) x) by (destruct (dget K_Filter x); reflexivity).
  assert (WX : wfv (PDict x')).
  { rewrite X1 in FS. unfold forge_stream in FS. destruct (encode_stream c _) as [en1| |]; cbn [bind] in FS; try discriminate. injection FS as <- _ _. pose proof (wfv_flate _ W) as W2.
    destruct (dget K_Length (dset K_Filter (PStr V_Flate) x)) as [[]|]; auto. apply wfv_dset; [auto|apply name_ok; reflexivity|constructor]. }
  assert (UP : (let* (s, _) := forge_stream (dset K_Filter (PStr V_Flate) x) c in update_object d n s) = Ok d' -> exists x' e' ee, mem d' (lset row (Z.to_nat n) (SDict ee)) t xs p /\ n_env ee = None /\ d_cache d' = lset (d_cache d) (Z.to_nat n) (PStream x' (Some c) (Some e')) /\ n < Z.of_nat (length row) /\
    wfv (PDict x') /\ dget K_Filter x' = Some (PStr V_Flate) /\ (forall k, k <> K_Filter -> k <> K_Length -> dget k x' = dget k x) /\ decode_stream (Some e') x' = Ok (Some c)).
  { intro U. rewrite X1 in FS. rewrite FS in U. cbn [bind] in U. assert (NN : PStream x' (Some c) (Some e') <> PNone) by discriminate. destruct (mem_update _ _ _ _ _ _ _ _ M N NN U) as (ee & E1 & E2 & E3 & E4). exists x', e', ee. auto 10. }
  fold K_Filter in H, FI. destruct FI as [FI|[FI|[FI|FI]]]; rewrite FI in H; cbn [bind of_opt] in H.
  - right. apply UP. exact H.
  - left. change (beqb _ V_Flate) with true in H. cbv iota in H. injection H as <-. split; auto.
  - right. change (beqb _ V_Flate) with false in H. cbv iota in H. apply UP. exact H.
  - right. change (beqb _ V_Flate) with false in H. cbv iota in H. apply UP. exact H.
Qed.

Lemma mem_apply l : forall d row t xs p d', zlib_ok -> mem d row t xs p -> NoDup l -> (forall n, In n l -> 0 < n /\ exists v, cell (d_cache d) n v /\ sound_stream v) ->
  apply_filter d l V_Flate = Ok d' ->
  exists row', mem d' row' t xs p /\ length row' = length row /\
    (forall n e', cell row' n (SDict e') -> exists e, cell row n (SDict e) /\ (n_env e' = n_env e \/ In n l /\ n_env e' = None)) /\
    (forall n o, ~ In n l -> cell (d_cache d') n o <-> cell (d_cache d) n o) /\
    (forall n v, In n l -> cell (d_cache d) n v -> exists v', cell (d_cache d') n v' /\ sound_stream v' /\ refiltered V_Flate v v').
Proof.
  induction l as [|n l IH]; intros d row t xs p d' ZO M ND SO H.
  - cbn in H. injection H as <-. exists row. split; [auto|]. split; [auto|]. split; [eauto|]. split; [tauto|]. intros n v [].
  - inversion ND as [|? ? NI ND']; subst. cbn [apply_filter] in H. destruct (filter_one d n V_Flate) as [d1| |] eqn:F1; cbn [bind] in H; try discriminate.
    destruct (SO n (or_introl eq_refl)) as (N & v & C & SV). destruct SV as (x & c & e & EV & W & BC & SF & DE).
    assert (SIM : simple_stream v x c). { split; [exists (Some e); auto|]. split; [auto|]. destruct SF as [NP FI]. split; [auto|]. destruct FI as [FI|[FI|[FI|FI]]]; eauto. }
    assert (STEP : exists row1 v', mem d1 row1 t xs p /\ length row1 = length row /\ cell (d_cache d1) n v' /\ sound_stream v' /\ refiltered V_Flate v v' /\
       (forall k o, k <> n -> cell (d_cache d1) k o <-> cell (d_cache d) k o) /\ (forall k e', cell row1 k (SDict e') -> exists e, cell row k (SDict e) /\ (n_env e' = n_env e \/ k = n /\ n_env e' = None))).
    { destruct (mem_filter_one _ _ _ _ _ _ _ _ _ _ _ ZO M N C EV W BC SF F1) as [(-> & FF)|(x' & e' & ee & M1 & E1 & E2 & E3 & E4 & E5 & E6 & E7)].
      - exists row, v. split; [auto|]. split; [auto|]. split; [auto|]. split; [exists x, c, e; auto 10|]. split; [|split; [tauto|eauto]]. exists x, c. split; [auto|]. left. auto.
      - pose proof (m_len _ _ _ _ _ M) as L. exists (lset row (Z.to_nat n) (SDict ee)), (PStream x' (Some c) (Some e')). split; [auto|]. split; [apply lset_length|]. split; [rewrite E2; apply cell_lset; [lia|auto]|].
        split; [|split; [|split]].
        + exists x', c, e'. split; [auto|]. split; [auto|]. split; [auto|]. split; [|auto]. split; [rewrite E6 by discriminate; apply SF|]. right. left. exact E5.
        + exists x, c. split; [auto|]. right. exists x', e'. split; [auto|]. split; [exact E5|]. split; [exact E6|exact E7].
        + intros k o K. rewrite E2, cell_lset by lia. split; [intros [[Q _]|[_ Q]]; [congruence|auto]|auto].
        + intros k e1 Ck. rewrite cell_lset in Ck by lia. destruct Ck as [[-> Q]|[_ Ck]]; [|eauto]. injection Q as ->. destruct (nth_error row (Z.to_nat n)) as [s|] eqn:Q; [|apply nth_error_None in Q; lia]. assert (Cs : cell row n s) by (split; [lia|auto]).
          destruct (m_cells _ _ _ _ _ M n s N Cs) as (en & o' & -> & _). exists en. auto. }
    destruct STEP as (row1 & v' & M1 & L1 & C1 & S1 & R1 & CO & RO).
    destruct (IH d1 row1 t xs p d' ZO M1 ND') as (row' & M' & L' & RW & CW & VW); auto.
    { intros k I. destruct (SO k (or_intror I)) as (K & w & Ck & Sk). split; [auto|]. exists w. split; [|auto]. apply CO; [intros ->; auto|auto]. }
    exists row'. split; [auto|]. split; [congruence|]. split; [|split].
    + intros k e' Ck. destruct (RW k e' Ck) as (e1 & Ce1 & Y). destruct (RO k e1 Ce1) as (e2 & Ce2 & Y2). exists e2. split; [auto|]. destruct Y as [Y|(Y & Y')]; [|right; split; [right; auto|auto]]. destruct Y2 as [Y2|(-> & Y2)]; [left; congruence|right; split; [left; auto|congruence]].
    + intros k o K. rewrite CW by (intro I; apply K; right; auto). apply CO. intros ->. apply K. left. auto.
    + intros k w [<-|I] Ck.
      * rewrite (cell_fun _ _ _ _ Ck C). exists v'. split; [apply CW; auto|]. auto.
      * apply VW; [auto|]. apply CO; [intros ->; auto|auto].
Qed.

(* ---------- commit changes the trailer and the object stream, nothing else ---------- *)
Lemma embed_keep cur env l : forall cache cache' el, embed_changes cur cache l = Ok (cache', el) -> 0 <= env ->
  Forall (fun c => 0 <= num_of c) l -> (forall c e z, In c l -> cell cur (num_of c) (SDict e) -> n_env e = Some z -> z = env) ->
  forall k o, k <> env -> cell cache' k o <-> cell cache k o.
Proof.
  induction l as [|[[g num] a] l IH]; intros cache cache' el EC E0 NN EV k o K.
  - cbn in EC. injection EC as <- <-. tauto.
  - inversion NN as [|? ? N0 NN']; subst. cbn [num_of fst snd] in N0. cbn [embed_changes fst snd] in EC.
    destruct (pyget cur num) as [sl| |] eqn:E1; try discriminate. cbn [bind] in EC. destruct (as_dict sl) as [e| |] eqn:EA; try discriminate. cbn [bind] in EC.
    apply as_dict_inv in EA. subst sl. apply pyget_cell in E1; auto.
    assert (EV' : forall c e z, In c l -> cell cur (num_of c) (SDict e) -> n_env e = Some z -> z = env) by (intros; eapply EV; eauto; right; auto).
    destruct (negb (is_del a) && truthy (n_env e)) eqn:Q; [|eapply IH; eauto].
    apply andb_true_iff in Q as [_ Q]. destruct (n_env e) as [z|] eqn:EE; [|discriminate]. pose proof (EV (((g, num) : ref), a) e z (or_introl eq_refl) E1 EE). subst z. cbn [of_opt bind] in EC.
    destruct (pyget cache num) as [v| |]; try discriminate. cbn [bind] in EC. destruct (pyget cache env) as [x| |] eqn:GX; try discriminate. cbn [bind] in EC. apply pyget_cell in GX; auto.
    destruct (append_to_stream_fragment num v x) as [x1| |]; try discriminate. cbn [bind] in EC. pose proof (cell_range _ _ _ GX) as R. rewrite pyset_ok in EC by lia. cbn [bind] in EC.
    destruct (get_pos_in_stream x1) as [pos| |]; try discriminate. cbn [bind] in EC. destruct (embed_changes cur (lset cache (Z.to_nat env) x1) l) as [[c2 el2]| |] eqn:E4; try discriminate. cbn [bind] in EC. injection EC as <- <-.
    rewrite (IH _ _ _ E4 E0 NN' EV' k o K). rewrite cell_lset by lia. split; [intros [[Z _]|[_ Z]]; [congruence|auto]|auto].
Qed.
Lemma build_keep chg cur cache sp xsn R ni cache' env : build_revision_byte_stream chg cur cache sp xsn = Ok (R, ni, cache') -> 0 < env ->
  Forall (fun c => 1 <= num_of c) chg -> (forall n e z, cell cur n (SDict e) -> n_env e = Some z -> z = env) ->
  forall k o, 0 < k -> k <> env -> cell cache' k o <-> cell cache k o.
Proof.
  intros BR E0 NN EV k o K0 K. unfold build_revision_byte_stream in BR.
  destruct (embed_changes cur cache _) as [[c1 el1]| |] eqn:EE; cbn [bind] in BR; try discriminate.
  assert (KK : cell c1 k o <-> cell cache k o). { eapply embed_keep; [exact EE| | |intros; eapply EV; eauto|auto]; [lia|]. constructor; [cbn; lia|]. eapply Forall_impl; [|exact NN]. cbn. lia. }
  rewrite <- KK. clear KK. destruct (write_changes cur c1 cur _ None _) as [[[[[fr el2] ni'] cnt] la]| |]; cbn [bind] in BR; try discriminate.
  destruct (pyget c1 0) as [c0| |] eqn:G0; cbn [bind] in BR; try discriminate. apply pyget_cell in G0; [|lia]. pose proof (cell_range _ _ _ G0) as R0.
  destruct (negb (truthy xsn)).
  - destruct (format_xref_table _ c0 _) as [built| |]; cbn [bind] in BR; try discriminate.
    destruct (upd_slot ni' 0 _); cbn [bind] in BR; try discriminate. injection BR as _ _ <-. tauto.
  - destruct (of_opt _ xsn) as [z| |]; cbn [bind] in BR; try discriminate.
    destruct (match c0 with PDict _ => _ | _ => _ end) as [d0| |]; cbn [bind] in BR; try discriminate.
    destruct (format_xref_stream _ d0 _ _) as [[built d1]| |]; cbn [bind] in BR; try discriminate.
    destruct (of_opt _ la) as [blk| |]; cbn [bind] in BR; try discriminate.
    destruct (upd_slot ni' _ _) as [n1| |]; cbn [bind] in BR; try discriminate.
    destruct (upd_slot n1 0 _) as [n2| |]; cbn [bind] in BR; try discriminate.
    rewrite pyset_ok in BR by lia. cbn [bind] in BR. injection BR as _ _ <-. change (Z.to_nat 0) with 0%nat. change 0%nat with (Z.to_nat 0). rewrite cell_lset by lia. split; [intros [[Z _]|[_ Z]]; [lia|auto]|right; split; [lia|auto]].
Qed.
Lemma mem_commit d row t p env d1 : mem d row t (Some (-1)) p -> 0 < env -> (forall n e z, cell row n (SDict e) -> n_env e = Some z -> z = env) -> (1 < length row)%nat ->
  commit d = Ok d1 -> forall k o, 0 < k -> k <> env -> cell (d_cache d1) k o <-> cell (d_cache d) k o.
Proof.
  intros M E0 EV TWO CM k o K0 K. destruct (mem_changes _ _ _ _ _ M ltac:(intros z Q; injection Q as <-; lia)) as (chg & EC & IC).
  assert (NC : chg <> []) by (intros ->; destruct (proj2 (IC 1) ltac:(lia))).
  assert (NNC : Forall (fun c => 1 <= num_of c) chg). { apply Forall_forall. intros c I. assert (In (chg_num c) (map chg_num chg)) by (apply in_map; auto). apply IC in H. unfold chg_num in H. unfold num_of. lia. }
  destruct (commit_inv d chg d1 EC NC CM) as (lx & row0 & t0 & x0 & row1 & x & dx & dl & dl' & row' & cache' & pe & t3 & fd & R2 & T0 & X2 & RX & D2 & CL & PE & T3c & FD' & ->).
  pose proof (m_index _ _ _ _ _ M) as DI. pose proof (m_data _ _ _ _ _ M) as DD. destruct (m_zero _ _ _ _ _ M) as (e0 & C0 & EE0 & XS0 & D0 & XT0).
  assert (lx = [] /\ row0 = row) as [-> ->]. { rewrite DI in R2. apply (app_inj_tail [] lx) in R2 as [<- <-]. auto. }
  assert (x0 = Some (-1)). { unfold first_xsn in X2. rewrite DI in X2. change (pyget [row] 0) with (@Ok (list slot) row) in X2. cbn [bind] in X2. rewrite (proj2 (pyget_cell row 0 _ ltac:(lia)) C0) in X2. cbn [bind] in X2. congruence. }
  subst x0. assert (LR : (1 <= length row)%nat) by lia.
  destruct (commit_row_cells row _ _ row1 x LR ltac:(intros _; exists (-1); auto) RX) as [(_ & _ & Q)|(_ & -> & L1 & e & e1 & A1 & A2 & A3 & A4)]; [congruence|].
  assert (EE1 : n_env e1 = None).
  { cbn [truthy] in RX. change (negb (-1 =? 0)) with true in RX. cbn [commit_row] in RX. change (-1 =? -1) with true in RX. cbv iota beta in RX.
    destruct (upd_slot _ 0 _) as [rr| |] eqn:U in RX; cbn [bind] in RX; try discriminate. injection RX as ->. apply upd_slot_inv in U as (u & U1 & U2 & U3); [|lia].
    assert (u = e0). { apply cell_snoc in U1 as [U1|[Q _]]; [|lia]. pose proof (cell_fun _ _ _ _ U1 C0). congruence. }
    subst u. pose proof (cell_range _ _ _ U1). rewrite U2 in A2. rewrite cell_lset in A2 by lia. destruct A2 as [[_ Q]|[Q _]]; [|congruence]. injection Q as ->. auto. }
  assert (EV1 : forall n e z, cell row1 n (SDict e) -> n_env e = Some z -> z = env).
  { intros n e2 z C Q. destruct (Z.eq_dec n 0) as [->|N]; [pose proof (cell_fun _ _ _ _ C A2) as Y; injection Y as ->; congruence|]. apply A4 in C; [|auto]. destruct C as [C|[_ Y]]; [eauto|]. injection Y as ->. discriminate. }
  assert (dx = [] /\ dl = mk_datum None None (Some p)) as [-> ->]. { rewrite DD in D2. apply (app_inj_tail [] dx) in D2 as [<- <-]. auto. }
  inversion CL as [c Q|v b ni' c' Ecut L1' EB|idx b ni' c' q Ecut L1' EI EB Eq NB]; subst dl' row' cache'; [discriminate| |rewrite DI in L1'; cbn in L1'; congruence].
  pose proof (cell_range _ _ _ T3c). pose proof (cell_range _ _ _ T0). cbn [d_cache]. change 0%nat with (Z.to_nat 0). rewrite cell_lset by lia.
  pose proof (build_keep _ _ _ _ _ _ _ _ env EB E0 NNC EV1 k o K0 K) as BK. change 0%nat with (Z.to_nat 0) in BK. rewrite cell_lset in BK by lia.
  split; [intros [[Q _]|[_ Q]]; [lia|]; apply BK in Q; destruct Q as [[Q _]|[_ Q]]; [lia|auto]|]. intro Q. right. split; [lia|]. apply BK. right. split; [lia|auto].
Qed.

(* ---------- values renamed by squash ---------- *)
Lemma wf_renamed f : (forall n, fst (f (0, n)) = 0) -> forall v v', renamed f v v' -> wfv v -> wfv v'.
Proof.
  intros F v. induction v as [| | | | | |g n|l IH|x IH|] using obj_ind'; intros v' R W; inversion R; subst; auto; try contradiction.
  - inversion W; subst. constructor. apply F.
  - inversion W as [| | | | | | | |? FA|]; subst. constructor. clear R W. match goal with H : Forall2 _ l ?l' |- _ => induction H as [|a b l l' P Q IHl] end; constructor; inversion IH; inversion FA; subst; auto; fold wfv in *; eauto.
  - inversion W as [| | | | | | | | |? ND FA]; subst. clear R W. match goal with H : Forall2 _ x ?x' |- _ => rename H into FF end. constructor.
    + replace (map fst d') with (map fst x); auto. clear - FF. induction FF as [|a b l l' [P _] Q IHl]; cbn [map]; congruence.
    + clear ND. induction FF as [|a b l l' [P P'] Q IHl]; constructor; inversion IH; inversion FA as [|? ? [N1 N2] FA']; subst; auto. split; [congruence|fold wfv in *; eauto].
  - inversion W.
Qed.
Lemma wf_top_renamed f v v' : (forall n, fst (f (0, n)) = 0) -> renamed f v v' -> wf_top v -> wf_top v'.
Proof.
  intros F R W. inversion W as [o W' N|s L]; subst.
  - apply wt_val; [eapply wf_renamed; eauto|]. intros g n ->. inversion R; subst; [eapply N; reflexivity|eapply N; reflexivity].
  - inversion R; subst. apply wt_lit. auto.
Qed.
Lemma wf_free v : wfv v -> stream_free v.
Proof.
  induction v as [| | | | | |g n|l IH|x IH|] using obj_ind'; intro W; try (apply sf_leaf; exact I).
  - inversion W as [| | | | | | | |? FA|]; subst. apply sf_list. clear W. induction l; constructor; inversion IH; inversion FA; subst; auto.
  - inversion W as [| | | | | | | | |? ND FA]; subst. apply sf_dict. clear W ND. induction x; constructor; inversion IH; inversion FA as [|? ? [? ?] ?]; subst; auto.
  - inversion W.
Qed.
Lemma wf_top_free v : wf_top v -> stream_free v /\ v <> PNone /\ inner v.
Proof.
  intro W. inversion W as [o W' N|s L]; subst; [|split; [apply sf_leaf; exact I|split; [discriminate|exact I]]]. split; [apply wf_free; auto|]. split; [intros ->; inversion W'|].
  destruct v; cbn [inner]; auto; [|inversion W']. destruct (dget K_noslash_Length d) as [o|] eqn:G; auto. exfalso. inversion W' as [| | | | | | | | |? ND FA]; subst.
  assert (I : exists k, In (k, o) d /\ k = K_noslash_Length). { clear - G. induction d as [|[k v] d IH]; [discriminate|]. cbn [dget] in G. destruct (beqb K_noslash_Length k) eqn:Q; [apply beqb_eq in Q; injection G as ->; exists k; cbn; auto|]. destruct (IH G) as (k' & I & E). exists k'. cbn. auto. }
  destruct I as (k & I & ->). rewrite Forall_forall in FA. destruct (FA _ I) as [(r & Q & _) _]. discriminate.
Qed.
Lemma renamed_get f k a b : Forall2 (fun kv kv' => fst kv = fst kv' /\ renamed f (snd kv) (snd kv')) a b ->
  match dget k a, dget k b with Some x, Some y => renamed f x y | None, None => True | _, _ => False end.
Proof. induction 1 as [|[k1 v1] [k2 v2] a b [E R] F IH]; cbn [dget]; auto. cbn [fst snd] in *. subst k2. destruct (beqb k k1); auto. Qed.
Lemma cat_version_renamed f c c' v : renamed f (PDict c) (PDict c') -> cat_version (PDict c) = Ok v -> cat_version (PDict c') = Ok v.
Proof.
  intros R H. inversion R as [| |? ? FF| |? N]; subst; [|contradiction]. pose proof (renamed_get f K_Version _ _ FF) as G. cbn [cat_version] in *. destruct (dget K_Version c) as [x|]; destruct (dget K_Version c') as [y|]; try contradiction; auto.
  destruct x; try discriminate. inversion G; subst. auto.
Qed.

(* ---------- the version ---------- *)
Lemma mem_get_inv d row t xs p g n o d' : mem d row t xs p -> 0 <= n -> get_object d (PRef g n) = Ok (o, d') -> d' = d /\ cell (d_cache d) n o.
Proof.
  intros M N G. assert (C : cell (d_cache d) n o).
  { apply (mem_value_inv _ _ _ _ _ _ _ M N). unfold value. unfold get_object in *. cbn [fst snd] in G. destruct (last_row d); cbn [bind] in *; try discriminate. destruct (fdata_at d (-1)); cbn [bind] in *; try discriminate. destruct (memoize _ _ _ _); cbn [bind] in *; try discriminate. destruct (pyget _ n); cbn [bind] in *; congruence. }
  rewrite (mem_get _ _ _ _ _ g n o M N C) in G. injection G as <-. auto.
Qed.
Lemma mem_catalog d row t xs p g c cat r d' : mem d row t xs p -> dget K_Root t = Some (PRef g c) -> 0 <= c -> catalog d = Ok (cat, r, d') -> d' = d /\ r = PRef g c /\ cell (d_cache d) c cat.
Proof.
  intros M RT N H. unfold catalog, trailer in H. rewrite (mem_get _ _ _ _ _ 0 0 _ M ltac:(lia) (m_trailer _ _ _ _ _ M)) in H. cbn [bind item] in H. rewrite RT in H. cbn [of_opt bind] in H.
  destruct (get_object d (PRef g c)) as [[v d2]| |] eqn:G; cbn [bind] in H; try discriminate. destruct (mem_get_inv _ _ _ _ _ _ _ _ _ M N G) as [-> C]. injection H as <- <- <-. auto.
Qed.
Lemma sub_header v : sub (W_header ++ v) (Z.to_nat 5) (Z.to_nat 5 + 3) = firstn 3 v.
Proof. reflexivity. Qed.
Lemma mem_version d row t xs ver g c v d' : mem d row t xs (PvDummy (W_header ++ ver)) -> dget K_Root t = Some (PRef g c) -> 0 <= c -> version d = Ok (v, d') ->
  d' = d /\ exists cat cv, cell (d_cache d) c cat /\ cat_version cat = Ok cv /\ v = match cv with Some x => smax (firstn 3 ver) x | None => firstn 3 ver end.
Proof.
  intros M RT N H. unfold version, fdata_at in H. rewrite (m_data _ _ _ _ _ M) in H. change (pyget [mk_datum None None (Some (PvDummy (W_header ++ ver)))] 0) with (Ok (mk_datum None None (Some (PvDummy (W_header ++ ver))))) in H. cbn [bind of_opt dt_fdata] in H.
  unfold read_at in H. cbn [run_prov bind] in H. change ((5 =? -1) && (3 =? 0)) with false in H. change (3 =? -1) with false in H. change (5 =? -1) with false in H. cbv iota zeta in H. cbn [bind] in H. change (5 <? 0) with false in H. cbv iota in H. cbn [bind] in H. rewrite sub_header in H.
  destruct (catalog d) as [[[cat r] d1]| |] eqn:EC; cbn [bind] in H; try discriminate. destruct (mem_catalog _ _ _ _ _ _ _ _ _ _ M RT N EC) as (-> & -> & CC).
  destruct (cat_version cat) as [cv| |] eqn:CV; cbn [bind] in H; try discriminate. unfold ascii in H. destruct cv as [x|]; destruct (is_ascii (firstn 3 ver)); cbn [bind] in H; try discriminate; injection H as <- <-; (split; [auto|]; exists cat; eexists; split; [eauto|]; split; [eauto|]; reflexivity).
Qed.
Lemma version_short d v d1 c cat : coherent d -> catalog_at d c cat -> version d = Ok (v, d1) -> exists w cv, (length w <= 3)%nat /\ cat_version (PDict cat) = Ok cv /\ v = match cv with Some x => smax w x | None => w end.
Proof.
  intros C CA H. unfold version in H. destruct (fdata_at d 0) as [p| |]; cbn [bind] in H; try discriminate. destruct (read_at p 5 3) as [[[t a0] z]| |]; cbn [bind] in H; try discriminate.
  destruct (catalog_read d c cat C CA) as (g & dc & EC & RC). rewrite EC in H. cbn [bind] in H. destruct (cat_version (PDict cat)) as [cv| |]; cbn [bind] in H; try discriminate.
  exists (sub t a0 (a0 + 3)), cv. split; [unfold sub; rewrite firstn_length; lia|]. split; [auto|]. unfold ascii in H. destruct cv as [x|]; destruct (is_ascii _); cbn [bind] in H; try discriminate; injection H as <- _; reflexivity.
Qed.
Lemma smax_prefix n x : smax (firstn n x) x = x.
Proof.
  unfold smax. destruct (str_ltb (firstn n x) x) eqn:E; auto. revert x E. induction n as [|n IH]; intros [|a x] E; cbn [firstn] in *; auto; [discriminate|]. cbn [str_ltb] in E. rewrite Z.ltb_irrefl, Z.eqb_refl in E. f_equal. auto.
Qed.
Lemma version_again w cv : (length w <= 3)%nat ->
  let v := match cv with Some x => smax w x | None => w end in match cv with Some x => smax (firstn 3 v) x | None => firstn 3 v end = v.
Proof.
  intros L v. unfold v. destruct cv as [x|]; [|apply firstn_all2; auto]. unfold smax at 2 3. destruct (str_ltb w x) eqn:E; [apply smax_prefix|]. rewrite firstn_all2 by auto. unfold smax. now rewrite E.
Qed.
Lemma smax_sooner h x m : str_ltb (smax h x) m = true -> str_ltb x m = true.
Proof.
  unfold smax. destruct (str_ltb h x) eqn:E; auto. intro L. destruct (str_ltb x m) eqn:X; auto. destruct (str_ltb m x) eqn:Y; [pose proof (ltb_trans _ _ _ L Y); congruence|]. pose proof (ltb_total _ _ X Y). congruence.
Qed.
Lemma mem_raise d row t ver g c d' v : mem d row t None (PvDummy (W_header ++ ver)) -> no_env row -> dget K_Root t = Some (PRef g c) -> 0 < c ->
  version d = Ok (v, d) -> (if str_ltb v V_15 then update_version d V_15 else Ok d) = Ok d' ->
  exists row' cat, mem d' row' t None (PvDummy (W_header ++ ver)) /\ no_env row' /\ length row' = length row /\ cell (d_cache d) c (PDict cat) /\
    (forall k o, k <> c -> cell (d_cache d') k o <-> cell (d_cache d) k o) /\
    (sooner v V_15 /\ cell (d_cache d') c (PDict (dset K_Version (PStr (47 :: V_15)) cat)) \/ ~ sooner v V_15 /\ cell (d_cache d') c (PDict cat)).
Proof.
  intros M NE RT N VE H. destruct (mem_version _ _ _ _ _ _ _ _ _ M RT ltac:(lia) VE) as (_ & co & cv & CC & CV & EV).
  assert (exists cat, co = PDict cat) as [cat ->] by (destruct co; try discriminate; eauto).
  destruct (str_ltb v V_15) eqn:L.
  - unfold update_version in H. destruct (catalog d) as [[[cat' r] d1]| |] eqn:EC; cbn [bind] in H; try discriminate. destruct (mem_catalog _ _ _ _ _ _ _ _ _ _ M RT ltac:(lia) EC) as (-> & -> & CC').
    rewrite <- (cell_fun _ _ _ _ CC CC') in *. rewrite CV in H. cbn [bind dict_of ref_of snd] in H.
    assert (U : update_object d c (PDict (dset K_Version (PStr (47 :: V_15)) cat)) = Ok d').
    { destruct cv as [x|]; auto. rewrite EV in L. apply smax_sooner in L. rewrite L in H. auto. }
    assert (NN : PDict (dset K_Version (PStr (47 :: V_15)) cat) <> PNone) by discriminate. destruct (mem_update _ _ _ _ _ _ _ _ M N NN U) as (e' & E1 & E2 & E3 & M').
    pose proof (m_len _ _ _ _ _ M) as LL. exists (lset row (Z.to_nat c) (SDict e')), cat. split; [auto|]. split; [|split; [apply lset_length|split; [auto|split]]].
    + intros k e C. rewrite cell_lset in C by lia. destruct C as [[_ Q]|[_ C]]; [injection Q as ->; auto|eauto].
    + intros k o K. rewrite E2, cell_lset by lia. split; [intros [[Q _]|[_ Q]]; [congruence|auto]|auto].
    + left. split; [apply ltb_sooner; auto|]. rewrite E2, cell_lset by lia. auto.
  - injection H as <-. exists row, cat. split; [auto|]. split; [auto|]. split; [auto|]. split; [auto|]. split; [tauto|]. right. split; [rewrite <- ltb_sooner; congruence|auto].
Qed.

Lemma squash_zero d s d1 : squash d = Ok (Some s, d1) -> exists z, cell (d_cache s) 0 (PDict z).
Proof.
  intro H. unfold squash in H. destruct (last_row d) as [row| |]; cbn [bind] in H; try discriminate. destruct (Model_Filestruct.map_res cell_env row); cbn [bind] in H; try discriminate.
  destruct (first_xsn d); cbn [bind] in H; try discriminate. destruct (defragment_map row) as [[ni m]| |]; cbn [bind] in H; try discriminate. destruct (if truthy _ then _ else _); cbn [bind] in H; try discriminate.
  destruct (trailer d) as [[t dt]| |]; cbn [bind] in H; try discriminate. destruct (item K_Root t); cbn [bind] in H; try discriminate. destruct (squash_objs _ _ _) as [[objs d2]| |]; cbn [bind] in H; try discriminate.
  destruct (changes _) as [[|ch chg]| |]; cbn [bind] in H; try discriminate. destruct (version d2) as [[v d3]| |]; cbn [bind] in H; try discriminate. injection H as <- <-.
  eexists. split; [lia|]. reflexivity.
Qed.

(* ---------- squash makes a document held in memory ---------- *)
Lemma squash_mem d c cat s d1 : compressible d c cat -> squash d = Ok (Some s, d1) ->
  exists l f row ver dv i, live_numbers d l /\ renumbering d 1 l f /\ (forall n, fst (f (0, n)) = 0) /\ version d = Ok (ver, dv) /\ nth_error l i = Some c /\
    mem s row [(K_Root, PRef 0 (Z.of_nat i + 1))] None (PvDummy (W_header ++ ver)) /\ no_env row /\ length row = S (length l) /\
    (forall k n, nth_error l k = Some n -> exists v w, value d n = Ok v /\ carried f v w /\ cell (d_cache s) (Z.of_nat k + 1) w /\ (wf_top w \/ sound_stream w /\ is_objstm w = false)) /\
    (exists w cv, (length w <= 3)%nat /\ cat_version (PDict cat) = Ok cv /\ ver = match cv with Some x => smax w x | None => w end).
Proof.
  intros CP H. destruct CP as [ED SN CA EX TB VS].
  assert (KP : all_storable d). { intros r n v NM V. destruct (VS r n v NM V) as [W|[(x & b & e & -> & _) _]]; [destruct (wf_top_free _ W) as (A & B & _); split; auto|]. split; [discriminate|right; eauto]. }
  destruct (squash_inv d s d1 c cat ED SN CA KP H) as (RO & l & f & LN & RN & SQ & row & x & DI & FX & FX' & ver & e0 & DD & C0 & E1 & E2 & E3 & E4 & CE & dv & VD).
  rewrite TB in FX. injection FX as <-. cbn [truthy] in E2.
  pose proof (sq_editable _ _ _ _ SQ) as ED'. assert (O : open_row s row) by (exists []; auto).
  assert (LC : length (d_cache s) = length row) by (destruct ED' as (_ & _ & _ & Q); destruct (Q row O); auto).
  assert (G0 : forall n, fst (f (0, n)) = 0).
  { intro n. destruct (Z.eq_dec (fst (f (0, n))) 0) as [Q|Q]; auto. exfalso. apply Q. rewrite (proj2 RN); [reflexivity|]. intros m I NM. apply In_nth_error in I as [k K]. apply Q. now rewrite (proj1 RN k m (0, n) K NM). }
  pose proof CA as (t & r & V0 & GR & (g & -> & NC & VC)). pose proof (EX t g c V0 GR) as NMC.
  assert (IC : In c l) by (apply (proj2 LN); eauto). apply In_nth_error in IC as [i IC].
  destruct (sq_root _ _ _ _ SQ) as (t' & root & root' & V0' & GR' & RR & VR). rewrite V0 in V0'. injection V0' as <-. rewrite GR in GR'. injection GR' as <-.
  assert (ER : root' = PRef 0 (Z.of_nat i + 1)). { inversion RR as [? ?| | | |? N]; subst; [|contradiction]. rewrite (proj1 RN i c (g, c) IC NMC). cbn [fst snd]. f_equal. lia. }
  subst root'.
  assert (TC : cell (d_cache s) 0 (PDict [(K_Root, PRef 0 (Z.of_nat i + 1))])).
  { destruct (nth_error (d_cache s) 0) as [o|] eqn:Q; [|apply nth_error_None in Q; apply cell_range in C0; lia]. assert (C : cell (d_cache s) 0 o) by (split; [lia|auto]).
    destruct (squash_zero _ _ _ H) as (z & CZ). pose proof (cell_fun _ _ _ _ C CZ). subst o.
    assert (P : exists p, provider s p) by (eexists; exists [], (mk_datum None None (Some (PvDummy (W_header ++ ver)))); split; [exact DD|reflexivity]).
    rewrite (value_cached s row e0 0 (PDict z) O P ltac:(lia) C0 E3 C ltac:(discriminate)) in VR. injection VR as ->. auto. }
  assert (M : mem s row [(K_Root, PRef 0 (Z.of_nat i + 1))] None (PvDummy (W_header ++ ver))) by (constructor; auto; exists e0; auto).
  exists l, f, row, ver, dv, i. split; [auto|]. split; [auto|]. split; [auto|]. split; [auto|]. split; [auto|]. split; [auto|]. split; [|split; [|split]].
  - intros n e C. apply (proj1 ED' row n e O C).
  - pose proof (cell_range _ _ _ C0) as R0. assert (LV : forall n, 1 <= n < Z.of_nat (length row) <-> 1 <= n <= Z.of_nat (length l)).
    { intro n. rewrite <- (sq_live _ _ _ _ SQ n). split.
      - intros N. destruct (nth_error row (Z.to_nat n)) as [sl|] eqn:Q; [|apply nth_error_None in Q; lia]. assert (C : cell row n sl) by (split; [lia|auto]). destruct (CE n sl ltac:(lia) C) as (e & o & -> & _ & _ & D & _). exists (n_gen e, n). exists row, e. split; [auto|]. split; [lia|]. auto.
      - intros (r & NM). apply (names_row s row r n O) in NM as (N & e & C & _). apply cell_range in C. lia. }
    pose proof (LV (Z.of_nat (length l))). pose proof (LV (Z.of_nat (length l) + 1)). pose proof (LV 1). assert (i < length l)%nat by (apply nth_error_Some; congruence). lia.
  - intros k n K. destruct (sq_values _ _ _ _ SQ k n K) as (v & w & V & CW & VW). exists v, w. split; [auto|]. split; [auto|]. split; [apply (mem_value_inv _ _ _ _ _ _ _ M); [lia|auto]|].
    assert (NM : exists r, names d r n) by (apply (proj2 LN); eapply nth_error_In; eauto). destruct NM as [r NM]. destruct (VS r n v NM V) as [W|[S B]].
    + left. inversion CW; subst; [inversion W as [? W' ?|]; inversion W'|]. eapply wf_top_renamed; eauto.
    + right. destruct S as (x & b & e & -> & S). inversion CW as [|? ? SF]; subst; [split; [exists x, b, e; auto|auto]|]. inversion SF; contradiction.
  - eapply version_short; [|exact CA|exact VD]. apply editable_coherent; auto.
Qed.

(* ---------- compress ---------- *)
Lemma wf_raised cat : wf_top (PDict cat) -> wf_top (PDict (dset K_Version (PStr (47 :: V_15)) cat)).
Proof.
  intro W. inversion W as [o W' N|]; subst. apply wt_val; [|discriminate]. apply wfv_dset; [auto|apply name_ok; reflexivity|]. apply wf_name. apply name_ok; reflexivity.
Qed.
Theorem compress_packed d c cat d1 : zlib_ok -> compressible d c cat -> compress d = Ok d1 ->
  exists l f ver dv i, live_numbers d l /\ renumbering d 1 l f /\ version d = Ok (ver, dv) /\ nth_error l i = Some c /\
  (stored_clean d1 (Z.of_nat (length l)) ->
   exists s, packable s (Z.of_nat (length l) + 1) /\ commit s = Ok d1 /\
     cell (d_cache s) 0 (PDict [(K_Root, PRef 0 (Z.of_nat i + 1)); (K_Filter, PStr V_Flate)]) /\
     forall k n, nth_error l k = Some n -> exists v w u, value d n = Ok v /\ carried f v w /\ compressed_as ver (k = i) w u /\ value s (Z.of_nat k + 1) = Ok u).
Proof.
  intros ZO CP H. unfold compress in H. destruct (squash d) as [[so dq]| |] eqn:SQ; cbn [bind] in H; try discriminate. destruct so as [s|]; cbn [of_opt bind] in H; try discriminate.
  destruct (squash_mem _ _ _ _ _ CP SQ) as (l & f & row & ver & dv & i & LN & RN & G0 & VD & IC & M & NE & LR & VS & (w0 & cv & LW & CVD & EVER)).
  exists l, f, ver, dv, i. split; [auto|]. split; [auto|]. split; [auto|]. split; [auto|]. intro SC.
  set (ci := Z.of_nat i + 1) in *. assert (RT : dget K_Root [(K_Root, PRef 0 ci)] = Some (PRef 0 ci)) by reflexivity.
  destruct (version s) as [[vs s0]| |] eqn:EV; cbn [bind] in H; try discriminate.
  assert (CI : 0 <= ci) by lia. destruct (mem_version _ _ _ _ _ _ _ _ _ M RT CI EV) as (-> & co & cv' & CC & CV' & EVS).
  destruct (VS i c IC) as (vc & wc & VC & CW & CWC & _). pose proof (cp_catalog _ _ _ CP) as (t0 & r0 & _ & _ & (g0 & _ & _ & VC')). rewrite VC' in VC. injection VC as <-.
  fold ci in CWC. pose proof (cell_fun _ _ _ _ CWC CC). subst co.
  assert (EQV : vs = ver).
  { inversion CW as [|? ? _ RC]; subst. inversion RC as [| |? ct FF| |? N]; subst; [|contradiction]. pose proof (cat_version_renamed _ _ _ _ RC CVD) as Q. rewrite CV' in Q. injection Q as ->. apply (version_again w0 cv LW). }
  clear EVS. subst vs.
  destruct (if str_ltb ver V_15 then update_version s V_15 else Ok s) as [s1| |] eqn:UP; cbn [bind] in H; try discriminate.
  destruct (mem_raise _ _ _ _ _ _ _ _ M NE RT ltac:(lia) EV UP) as (row1 & ct & M1 & NE1 & L1 & CCT & K1 & CK1). pose proof (cell_fun _ _ _ _ CWC CCT). subst wc.
  destruct (force_xref_stream s1 false V_Flate) as [s2| |] eqn:FO; cbn [bind] in H; try discriminate.
  destruct (mem_force _ _ _ _ _ M1 FO) as (e0 & row2 & C0 & -> & K2 & M2). pose proof (m_len _ _ _ _ _ M1) as LC1.
  set (row2 := lset row1 0 (SDict (with_xsn (Some (-1)) e0))) in *. set (t2 := dset K_Filter (PStr V_Flate) [(K_Root, PRef 0 ci)]) in *.
  assert (LR1 : length row1 = S (length l)) by congruence.
  assert (NE2 : no_env row2). { intros n e C. unfold row2 in C. change 0%nat with (Z.to_nat 0) in C. rewrite cell_lset in C by lia. destruct C as [[_ Q]|[_ C]]; [injection Q as ->; cbn; eapply NE1; eauto|eauto]. }
  assert (L2 : length row2 = S (length l)) by (unfold row2; rewrite lset_length; auto).
  rewrite (no_envelopes _ _ _ _ _ M2 NE2) in H. cbn [bind] in H.
  destruct (group_obj_into_stream s2 None []) as [s3| |] eqn:GR; cbn [bind] in H; try discriminate.
  assert (XZ : forall z, Some (-1) = Some z -> z <= 0) by (intros z Q; injection Q as <-; lia).
  pose proof (mem_group _ _ _ _ _ _ M2 XZ NE2 GR) as GG. cbv zeta in GG. destruct GG as (row3 & M3 & K3 & L3 & T3). set (env := Z.of_nat (length row2)) in *.
  assert (EE : env = Z.of_nat (length l) + 1) by (unfold env; lia).
  destruct (list_streams s3) as [[ls s4]| |] eqn:LS; cbn [bind] in H; try discriminate. destruct (mem_list _ _ _ _ _ _ _ M3 LS) as (-> & ND & INL).
  destruct (apply_filter s3 ls V_Flate) as [s5| |] eqn:AF; cbn [bind] in H; try discriminate.
  pose proof (m_len _ _ _ _ _ M2) as LC2.
  assert (ES : sound_stream new_envelope).
  { exists [(K_Type, PStr V_ObjStm)], [], []. split; [reflexivity|]. split; [constructor; [constructor; [intros []|constructor]|constructor; [split; [apply name_ok; reflexivity|apply wf_name; apply name_ok; reflexivity]|constructor]]|]. split; [constructor|]. split; [split; [reflexivity|left; reflexivity]|reflexivity]. }
  (* the objects of the squashed document, the catalog apart *)
  assert (OB : forall n o, 0 < n -> cell (d_cache s3) n o -> (n = env /\ o = new_envelope) \/ (0 < n < env /\ cell (d_cache s1) n o /\ (wf_top o \/ sound_stream o /\ is_objstm o = false))).
  { intros n o N C. rewrite K3 in C. apply cell_snoc in C as [C|[-> ->]]; [|left; split; [unfold env; lia|auto]]. right. pose proof (cell_range _ _ _ C) as R. split; [unfold env; lia|].
    rewrite K2 in C. change 0%nat with (Z.to_nat 0) in C. rewrite cell_lset in C by lia. destruct C as [[Q _]|[_ C]]; [lia|]. split; [auto|].
    destruct (Z.eq_dec n ci) as [->|NCI].
    - destruct (VS i c IC) as (v & w & _ & _ & CW' & WW). fold ci in CW'. rewrite (cell_fun _ _ _ _ CW' CCT) in WW. assert (WT : wf_top (PDict ct)) by (destruct WW as [WW|[(x & b & e & Q & _) _]]; [auto|discriminate]).
      left. destruct CK1 as [[_ CK1]|[_ CK1]]; rewrite (cell_fun _ _ _ _ C CK1); [apply wf_raised; auto|auto].
    - apply K1 in C; [|auto]. pose proof (nth_error_Some l (Z.to_nat (n - 1))) as NS. destruct (nth_error l (Z.to_nat (n - 1))) as [m|] eqn:Q; [|exfalso; apply nth_error_None in Q; unfold env in *; lia].
      destruct (VS _ _ Q) as (v & w & _ & _ & CW' & WW). replace (Z.of_nat (Z.to_nat (n - 1)) + 1) with n in CW' by lia. rewrite (cell_fun _ _ _ _ C CW'). auto. }
  assert (SO : forall n, In n ls -> 0 < n /\ exists v, cell (d_cache s3) n v /\ sound_stream v).
  { intros n I. apply INL in I as (N & o & C & (x & b & e & ->)). split; [auto|]. exists (PStream x b e). split; [auto|]. destruct (OB n _ N C) as [(_ & ->)|(_ & _ & [W|[S _]])]; auto. inversion W as [? W' ?|]; inversion W'. }
  destruct (mem_apply ls s3 row3 t2 (Some (-1)) _ s5 ZO M3 ND SO AF) as (row5 & M5 & L5 & RW & CW5 & VW).
  assert (CENV : cell (d_cache s3) env new_envelope) by (rewrite K3; apply cell_snoc; right; split; [unfold env; lia|auto]).
  assert (IENV : In env ls). { apply INL. split; [lia|]. exists new_envelope. split; [auto|]. repeat eexists. }
  assert (E5 : forall n e', 0 < n -> cell row5 n (SDict e') -> exists o, cell (d_cache s3) n o /\ (n_env e' = None /\ (n = env \/ is_stream o) \/ n <> env /\ ~ In n ls /\ n_env e' = Some env /\ wf_top o)).
  { intros n e' N C. destruct (RW n e' C) as (e & C3 & Y). destruct (T3 n e N C3) as (o & CO & Z). exists o. split; [auto|]. destruct Z as [(Z1 & Z2)|(Z1 & Z2 & Z3)].
    - left. split; [destruct Y as [Y|[_ Y]]; congruence|]. destruct Z2 as [Z2|Z2]; [auto|]. destruct (OB n o N CO) as [(Q & _)|(_ & _ & [W|[(x & b & en & -> & _) _]])]; [auto| |right; repeat eexists]. destruct Z2. apply wf_top_free. auto.
    - assert (NI : ~ In n ls). { intro I. apply INL in I as (_ & o' & C' & (x & b & en & Q)). rewrite (cell_fun _ _ _ _ CO C'), Q in Z3. exact Z3. }
      right. split; [auto|]. split; [auto|]. split; [destruct Y as [Y|[I _]]; [congruence|contradiction]|]. destruct (OB n o N CO) as [(Q & _)|(_ & _ & [W|[(x & b & en & -> & _) _]])]; [congruence|auto|destruct Z3]. }
  assert (EV5 : forall n e z, cell row5 n (SDict e) -> n_env e = Some z -> z = env).
  { intros n e z C Q. destruct (Z.eq_dec n 0) as [->|N]; [destruct (m_zero _ _ _ _ _ M5) as (ez & CZ & EZ & _); pose proof (cell_fun _ _ _ _ C CZ) as Y; injection Y as ->; congruence|].
    assert (0 < n) by (apply cell_range in C; lia). destruct (E5 n e H0 C) as (o & _ & [(Y & _)|(_ & _ & Y & _)]); congruence. }
  assert (L5' : length row5 = S (S (length l))) by congruence.
  assert (TWO : (1 < length row5)%nat) by lia. assert (ENV0 : 0 < env) by lia.
  pose proof (mem_commit _ _ _ _ env _ M5 ENV0 EV5 TWO H) as KC.
  (* the values in s5 *)
  assert (V5 : forall n o, 0 < n -> n <> env -> cell (d_cache s3) n o -> exists u, cell (d_cache s5) n u /\
     (is_stream o /\ sound_stream u /\ is_objstm u = false /\ refiltered V_Flate o u \/ wf_top o /\ u = o)).
  { intros n o N NV C. destruct (OB n o N C) as [(Q & _)|(_ & _ & [W|[SS NB]])]; [congruence| |].
    - exists o. split; [|auto]. apply CW5; [|auto]. intro I. apply INL in I as (_ & o' & C' & (x & b & en & Q)). rewrite (cell_fun _ _ _ _ C C'), Q in W. inversion W as [? W' ?|]; inversion W'.
    - assert (I : In n ls) by (apply INL; split; [auto|]; exists o; split; [auto|]; destruct SS as (x & b & e & -> & _); repeat eexists).
      destruct (VW n o I C) as (u & CU & SU & RU). exists u. split; [auto|]. left. split; [destruct SS as (x & b & e & -> & _); repeat eexists|]. split; [auto|]. split; [|auto].
      destruct RU as (x & b & ((e & EO) & _) & [(-> & _)|(x' & e' & -> & _ & KE & _)]); [auto|]. subst o. cbn [is_objstm] in *. rewrite (KE (B "/Type")) by discriminate. exact NB. }
  exists s5. split; [|split; [auto|split]].
  - rewrite <- EE. constructor.
    + exists row5, (PvDummy (W_header ++ ver)). split; [apply M5|]. split; [apply M5|]. split; [apply M5|]. split; [destruct (m_zero _ _ _ _ _ M5) as (ez & Q1 & Q2 & Q3 & Q4 & Q5); exists ez; auto|]. split.
      * assert (LI : (i < length l)%nat) by (apply nth_error_Some; congruence). destruct (nth_error row5 (Z.to_nat ci)) as [sl|] eqn:Q; [|apply nth_error_None in Q; lia]. assert (C : cell row5 ci sl) by (split; [lia|auto]).
        destruct (m_cells _ _ _ _ _ M5 ci sl ltac:(lia) C) as (e & _ & -> & _). exists ci, e. split; [auto|]. destruct (E5 ci e ltac:(lia) C) as (o & CO & [(_ & [Y|Y])|(_ & _ & Y & _)]); [lia| |auto].
        destruct (OB ci o ltac:(lia) CO) as [(Y' & _)|(_ & C1 & _)]; [lia|]. destruct Y as (x & b & en & ->). destruct CK1 as [[_ CK1]|[_ CK1]]; pose proof (cell_fun _ _ _ _ C1 CK1); discriminate.
      * intros n sl N C. destruct (m_cells _ _ _ _ _ M5 n sl N C) as (e & u & -> & Q1 & _ & Q2 & CU & _). exists e, u. split; [auto|]. split; [auto|]. split; [auto|]. split; [auto|].
        destruct (E5 n e N C) as (o & CO & [(Y1 & Y2)|(Y1 & Y2 & Y3 & Y4)]).
        -- left. split; [auto|]. destruct (Z.eq_dec n env) as [Y|Y]; [auto|]. right. destruct Y2 as [Y2|Y2]; [congruence|]. destruct (V5 n o N Y CO) as (u' & CU' & Z). rewrite (cell_fun _ _ _ _ CU CU') in *. destruct Z as [(_ & S & B & _)|(W & ->)]; [|destruct Y2 as (x & b & en & ->); inversion W as [? W' ?|]; inversion W'].
           destruct S as (x & b & en & -> & W & BC & SF & DE). split; [|auto]. assert (CL : clean en).
           { apply (SC n x (Some b)); [|apply KC; auto]. apply cell_range in CO. rewrite K3, app_length in CO. cbn [length] in CO. lia. }
           destruct CL as (A1 & A2 & A3). apply st_stream; auto. intros y Q. destruct SF as (_ & [F1|[F1|[F1|F1]]]); rewrite F1 in Q; discriminate.
        -- right. split; [auto|]. split; [auto|]. apply CW5 in CO; [|auto]. now rewrite (cell_fun _ _ _ _ CU CO).
    + destruct (VW env _ IENV CENV) as (u & CU & SU & RU). destruct SU as (x & b & en & -> & W & BC & SF & DE).
      destruct RU as (x1 & b1 & ((e1 & EO) & _) & [(Q & FF)|(x' & e' & Q & FF & KE & _)]); [injection EO as <- <- <-; discriminate FF|]. injection EO as <- <- <-. injection Q as -> -> ->.
      exists x', (Some e'). split; [auto|]. split; [auto|]. split; [auto|]. split; [rewrite KE by discriminate; reflexivity|]. split; [rewrite KE by discriminate; reflexivity|]. split; [rewrite KE by discriminate; reflexivity|]. split; [rewrite KE by discriminate; reflexivity|auto].
    + exists t2. split; [apply M5|]. unfold t2. split; [|split; [reflexivity|split; [reflexivity|split; [reflexivity|right; left; reflexivity]]]].
      apply wfv_flate. constructor; [constructor; [intros []|constructor]|]. constructor; [split; [apply name_ok; reflexivity|constructor; reflexivity]|constructor].
  - exact (m_trailer _ _ _ _ _ M5).
  - intros k n K. destruct (VS k n K) as (v & w & V & CV & CWK & WW). exists v, w.
    assert (LI : (k < length l)%nat) by (apply nth_error_Some; congruence). set (nk := Z.of_nat k + 1) in *.
    assert (UP3 : forall o, cell (d_cache s1) nk o -> cell (d_cache s3) nk o).
    { intros o C. rewrite K3. apply cell_snoc. left. rewrite K2. change 0%nat with (Z.to_nat 0). apply cell_lset; [lia|]. right. split; [lia|auto]. }
    destruct (Nat.eq_dec k i) as [->|KI].
    + fold ci in nk. assert (w = PDict ct) by (eapply cell_fun; eauto). subst w. destruct CK1 as [(SN & CK1)|(SN & CK1)].
      * destruct (V5 ci _ ltac:(lia) ltac:(lia) (UP3 _ CK1)) as (u & CU & [((x & b & en & Q) & _)|(_ & ->)]); [discriminate|]. eexists. split; [auto|]. split; [auto|]. split; [|eapply mem_value; eauto; lia]. apply Co_raised; auto.
      * destruct (V5 ci _ ltac:(lia) ltac:(lia) (UP3 _ CK1)) as (u & CU & [((x & b & en & Q) & _)|(_ & ->)]); [discriminate|]. eexists. split; [auto|]. split; [auto|]. split; [|eapply mem_value; eauto; lia]. apply Co_same; auto. discriminate.
    + assert (NKI : nk <> ci) by lia. assert (C1 : cell (d_cache s1) nk w) by (apply K1; auto).
      destruct (V5 nk _ ltac:(lia) ltac:(lia) (UP3 _ C1)) as (u & CU & [(IS & _ & _ & RU)|(W & ->)]).
      * exists u. split; [auto|]. split; [auto|]. split; [apply Co_stream; auto|eapply mem_value; eauto; lia].
      * exists w. split; [auto|]. split; [auto|]. split; [|eapply mem_value; eauto; lia]. apply Co_same; [|intro; congruence]. intros x b e ->. inversion W as [? W' ?|]; inversion W'.
Qed.

Theorem compress_saves d c cat d1 fuel : zlib_ok -> compressible d c cat -> compress d = Ok d1 ->
  exists l f ver dv i, live_numbers d l /\ renumbering d 1 l f /\ version d = Ok (ver, dv) /\ nth_error l i = Some c /\
  (stored_clean d1 (Z.of_nat (length l)) -> exists F, writefile d1 = Ok (F, d1) /\
   ((100 <= length F)%nat -> blen F < 10 ^ 10 -> (forall o, cell (d_cache d1) (Z.of_nat (length l) + 1) o -> completes_clean o) -> xref_clean d1 F ->
    exists d2, loads fuel F = Ok d2 /\ coherent d2 /\
      (forall k n, nth_error l k = Some n -> exists v w u v', value d n = Ok v /\ carried f v w /\ compressed_as ver (n = c) w u /\ value d2 (Z.of_nat k + 1) = Ok v' /\ peq u v') /\
      exists t2, cell (d_cache d2) 0 (PDict t2) /\ dget K_Root t2 = Some (PRef 0 (Z.of_nat i + 1)))).
Proof.
  intros ZO CP H. destruct (compress_packed d c cat d1 ZO CP H) as (l & f & ver & dv & i & LN & RN & VD & IC & REST). exists l, f, ver, dv, i. split; [auto|]. split; [auto|]. split; [auto|]. split; [auto|].
  intro SC. destruct (REST SC) as (s & PK & CM & CT & VS). destruct (packed_commit s _ d1 PK CM) as (F & _ & W2 & LOAD). exists F. split; [auto|]. intros L1 L2 CC XC.
  destruct (LOAD fuel ZO L1 L2 CC XC) as (d2 & LD & CO & VV & (t & t1 & t2 & T & T1 & T2 & TK & TS)). exists d2. split; [auto|]. split; [auto|]. split.
  - intros k n K. destruct (VS k n K) as (v & w & u & V & CW & CA & VU). assert (LI : (k < length l)%nat) by (apply nth_error_Some; congruence).
    destruct (VV (Z.of_nat k + 1) u ltac:(lia) ltac:(lia) VU) as (v' & V' & P). exists v, w, u, v'. split; [auto|]. split; [auto|]. split; [|auto].
    assert (SAME : n = c <-> k = i). { split; [|intros ->; congruence]. intros ->. apply (proj1 (NoDup_nth_error l) (sorted_nodup _ (proj1 LN)) k i); [auto|congruence]. }
    inversion CA as [? ? R|ct IS SN|? NS NC]; subst; [apply Co_stream; auto|apply Co_raised; [apply SAME; auto|auto]|apply Co_same; [auto|intro Q; apply NC, SAME; auto]].
  - exists t2. split; [auto|]. pose proof (cell_fun _ _ _ _ T CT) as Q. injection Q as ->. assert (R1 : dget K_Root t1 = Some (PRef 0 (Z.of_nat i + 1))). { rewrite TK; [reflexivity|]. unfold xref_entry. intros [Q|[Q|[Q|[Q|[Q|Q]]]]]; discriminate Q. }
    destruct (TS [] K_Root ltac:(discriminate)) as [N P]. destruct (dget K_Root t2) as [b|] eqn:R2; [|destruct (proj2 N eq_refl) as []; congruence]. pose proof (P _ _ R1 eq_refl) as Q. inversion Q; subst. reflexivity.
Qed.
End WithZlib.
