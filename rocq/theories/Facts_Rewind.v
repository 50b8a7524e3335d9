(* Going back to the last committed revision. *)
From Verif Require Import PyBase Model_Filters Model_Objects Model_Filestruct Model_Text Model_Docstruct Model_Api.
From Verif Require Import Spec_Objects Spec_Filestruct Spec_Docstruct Spec_Api Spec_Save.
From Verif Require Import Facts_Base Facts_Obj Facts_Revision Facts_Doc Facts_Commit Facts_Index Facts_Write Facts_Chain Facts_Save.
From Coq Require Import ZifyBool ZifyNat.

Section WithZlib.
Context {ZL : Zlib}.

(* a document whose objects are those found at the positions of its index *)
Record reread (d : doc) (lx : list (list slot)) (row : list slot) (p : prov) : Prop := mk_reread {
  rr_index : d_index d = lx ++ [row];
  rr_prov : fdata_at d (-1) = Ok p;
  rr_len : length (d_cache d) = length row;
  rr_cells : forall n x, 0 < n -> cell row n x -> exists e w, x = SDict e /\ n_del e = false /\ n_gen e = 0 /\ n_env e = None /\ parse_at p e = Ok w /\ w <> PNone /\
    (cell (d_cache d) n PNone \/ cell (d_cache d) n w)
}.

Lemma reread_get d lx row p g n : reread d lx row p -> 0 < n < Z.of_nat (length row) -> exists e w d', cell row n (SDict e) /\ parse_at p e = Ok w /\
  get_object d (PRef g n) = Ok (w, d') /\ reread d' lx row p.
Proof.
  intros [R1 R2 R3 R4] N. destruct (pyget_range row n ltac:(lia)) as [x C]. destruct (R4 n x ltac:(lia) C) as (e & w & -> & A1 & A2 & A3 & A4 & A5 & A6).
  exists e, w. unfold get_object, last_row. rewrite R1, pyget_last, R2. cbn [bind]. unfold memoize. rewrite (proj2 (pyget_cell row n _ ltac:(lia)) C). cbn [bind deleted_in]. rewrite A1. cbn [bind].
  destruct A6 as [A6|A6].
  - rewrite (proj2 (pyget_cell _ n _ ltac:(lia)) A6). cbn [bind is_none negb]. replace (n =? 0) with false by lia. rewrite A3, A4. cbn [bind]. rewrite pyset_ok by lia. cbn [bind].
    assert (CV : cell (lset (d_cache d) (Z.to_nat n) w) n w) by (apply cell_lset; [lia|left; auto]). rewrite (proj2 (pyget_cell _ n _ ltac:(lia)) CV). cbn [bind].
    eexists. split; [auto|]. split; [auto|]. split; [reflexivity|]. constructor; cbn [with_cache d_index d_cache]; auto; [rewrite lset_length; auto|].
    intros k y K CK. destruct (R4 k y K CK) as (e' & w' & -> & B1 & B2 & B3 & B4 & B5 & B6). exists e', w'. repeat (split; [auto|]). destruct (Z.eq_dec k n) as [->|NK].
    + pose proof (cell_fun _ _ _ _ C CK) as Q. injection Q as ->. assert (w' = w) by congruence. subst w'. right. exact CV.
    + rewrite !cell_lset by lia. destruct B6; [left|right]; right; auto.
  - rewrite (proj2 (pyget_cell _ n _ ltac:(lia)) A6). cbn [bind]. destruct (is_none w) eqn:Q; [destruct w; try discriminate; congruence|]. cbn [negb bind]. rewrite (proj2 (pyget_cell _ n _ ltac:(lia)) A6). cbn [bind].
    eexists. split; [auto|]. split; [auto|]. split; [reflexivity|]. constructor; auto.
Qed.

Lemma reread_all l : forall d lx row p d', reread d lx row p -> (forall g n, In (g, n) l -> 0 < n < Z.of_nat (length row)) -> read_all d l = Ok d' -> reread d' lx row p.
Proof.
  induction l as [|[g n] l IH]; intros d lx row p d' R IN H; cbn [read_all] in H.
  - injection H as <-. auto.
  - destruct (reread_get d lx row p g n R (IN g n (or_introl eq_refl))) as (e & w & d1 & _ & _ & G & R1). cbn [fst snd] in H. rewrite G in H. cbn [bind] in H.
    apply (IH d1 lx row p d' R1); auto. intros; eapply IN; right; eauto.
Qed.

Lemma reread_total l : forall d lx row p, reread d lx row p -> (forall g n, In (g, n) l -> 0 < n < Z.of_nat (length row)) -> exists d', read_all d l = Ok d'.
Proof.
  induction l as [|[g n] l IH]; intros d lx row p R IN; cbn [read_all]; [eauto|].
  destruct (reread_get d lx row p g n R (IN g n (or_introl eq_refl))) as (e & w & d1 & _ & _ & G & R1). cbn [fst snd]. rewrite G. cbn [bind].
  apply (IH d1 lx row p R1). intros; eapply IN; right; eauto.
Qed.

Lemma row_in_use row : (forall n x, 0 < n -> cell row n x -> exists e, x = SDict e /\ n_del e = false /\ n_gen e = 0) -> in_use_row row = Ok (map (fun i => (0, i)) (nums row)).
Proof.
  intros I. unfold in_use_row.
  assert (H : forall l, (forall i, In i l -> 1 <= i < Z.of_nat (length row)) -> map_res (fun i => let* r := get_iref row i in
      match r with None => Ok [] | Some ir => let* s := pyget row i in let* del := deleted_in s in Ok (if del : bool then [] else [ir]) end) l = Ok (map (fun i => [(0, i)]) l)).
  { induction l as [|i l IH]; intros H; [reflexivity|]. cbn [map_res]. pose proof (H i (or_introl eq_refl)) as R. destruct (pyget_range row i ltac:(lia)) as [x C].
    destruct (I i x ltac:(lia) C) as (e & -> & D & G). unfold get_iref at 1. rewrite (proj2 (pyget_cell row i _ ltac:(lia)) C). cbn [bind as_dict]. cbn [deleted_in bind]. rewrite D, G.
    rewrite IH by (intros; apply H; right; auto). reflexivity. }
  rewrite H. 2:{ intros i Q. apply in_nums in Q. lia. }
  cbn [bind]. f_equal. generalize (nums row). induction l as [|i l IH]; cbn; [auto|now rewrite IH].
Qed.

Lemma edited_inv d1 d2 F secs row t p : edited d1 d2 -> inv d1 F secs row t p -> exists row2, inv d2 F secs row2 t p.
Proof.
  intros E I. induction E as [|d g n v d2 E (r & IH) N G|d n o d2 E (r & IH) N S U|d o d2 q E (r & IH) S U].
  - eauto.
  - destruct (inv_read _ _ _ _ _ _ _ _ _ _ IH N G) as [I1 _]. eauto.
  - eapply inv_update; eauto.
  - eapply inv_add; eauto.
Qed.

(* what memoize does to the trailer only *)
Lemma memoize_zero row p c c' : memoize row p 0 c = Ok c' -> (0 < length c)%nat -> length c' = length c /\ forall n x, 0 < n -> cell c' n x <-> cell c n x.
Proof.
  unfold memoize. intros H L. destruct (pyget row 0) as [s| |]; cbn [bind] in H; try discriminate. destruct (deleted_in s) as [b| |]; cbn [bind] in H; try discriminate.
  destruct b; [injection H as <-; split; [auto|tauto]|]. destruct (pyget c 0) as [o| |]; cbn [bind] in H; try discriminate.
  destruct (negb (is_none o)); [injection H as <-; split; [auto|tauto]|]. change (0 =? 0) with true in H. cbn iota in H.
  match type of H with bind ?x _ = _ => destruct x as [t| |]; cbn [bind] in H; try discriminate end. rewrite pyset_ok in H by lia. injection H as <-.
  rewrite lset_length. split; auto. intros n x N. change 0%nat with (Z.to_nat 0). rewrite cell_lset by lia. split; [intros [[Q _]|[_ Q]]; [lia|auto]|intro; right; split; [lia|auto]].
Qed.

Theorem rewind_objects d d1 d2 d3 : authored d -> commit d = Ok d1 -> edited d1 d2 -> rewind d2 = Ok d3 ->
  length (d_index d3) = (length (d_index d2) - 1)%nat /\ length (d_data d3) = length (d_index d3) /\
  exists live, in_use d (-1) = Ok live /\ in_use d3 (-1) = Ok live /\
    forall g n, In (g, n) live -> exists v w, value d n = Ok v /\ value d3 n = Ok w /\ peq v w.
Proof.
  intros A CM ED RW. destruct (authored_inv d A) as (F0 & secs0 & row0 & t0 & p0 & I0).
  destruct (inv_commit _ _ _ _ _ _ _ I0 CM) as (F & secs & row1 & t & p & I1 & NE & SV & LL & KV).
  destruct (edited_inv _ _ _ _ _ _ _ ED I1) as (row2 & I2).
  pose proof (iv_prev _ _ _ _ _ _ I1) as PV1. pose proof (iv_prev _ _ _ _ _ _ I2) as PV2. destruct secs as [|s older] eqn:ES; [congruence|].
  destruct PV1 as (lx1 & prow1 & P1 & P2 & P3 & P4 & P5). destruct PV2 as (lx & prow & Q1 & Q2 & Q3 & Q4 & Q5).
  destruct (iv_len _ _ _ _ _ _ I1) as [LC1 LR1].
  assert (LP : length prow = length row0).
  { assert (E : length prow1 = length row1).
    { set (n := Z.of_nat (length row1) - 1). assert (N0 : 0 < n) by lia. destruct (pyget_range row1 n ltac:(lia)) as [x C]. destruct (iv_cells _ _ _ _ _ _ I1 n _ N0 C) as (e & o & -> & _).
      pose proof (P5 n e N0 C (SV n e N0 C)) as CP. apply cell_range in CP. lia. }
    rewrite Q3 in P3. injection P3 as P3. lia. }
  destruct (iv_fdata _ _ _ _ _ _ I2 NE) as (dx & x & op & D1 & D2).
  destruct (iv_data _ _ _ _ _ _ I2) as (cuts & frags & op' & E1 & _ & _ & _ & E2 & E3 & _).
  assert (op' = op) by (rewrite D1 in E1; change (dx ++ [x; op]) with (dx ++ [x] ++ [op]) in E1; rewrite !app_assoc in E1; apply app_inj_tail in E1; symmetry; apply E1). subst op'.
  destruct (iv_row _ _ _ _ _ _ I2) as (lx' & R1 & R2).
  assert (LX : length (lx ++ [prow]) = length (s :: older)).
  { rewrite Q1 in R1. change (lx ++ [prow; row2]) with (lx ++ [prow] ++ [row2]) in R1. rewrite app_assoc in R1. apply app_inj_tail in R1 as [<- _]. exact R2. }
  assert (LD : length (dx ++ [x]) = length (s :: older)).
  { rewrite <- E3. rewrite D1 in E1. change (dx ++ [x; op]) with (dx ++ [x] ++ [op]) in E1. rewrite !app_assoc in E1. apply app_inj_tail in E1 as [-> _]. reflexivity. }
  assert (RI : removelast (d_index d2) = lx ++ [prow]).
  { rewrite Q1. change (lx ++ [prow; row2]) with (lx ++ [prow] ++ [row2]). rewrite app_assoc. apply removelast_last. }
  assert (RD : removelast (d_data d2) = dx ++ [x]).
  { rewrite D1. change (dx ++ [x; op]) with (dx ++ [x] ++ [op]). rewrite app_assoc. apply removelast_last. }
  unfold rewind in RW. replace (Nat.eqb (length (d_index d2)) 1) with false in RW by (symmetry; apply Nat.eqb_neq; rewrite Q1, app_length; cbn [length]; lia).
  rewrite RI, RD in RW. rewrite pyget_last in RW. cbn [bind] in RW. rewrite pyset_last in RW. cbn [bind] in RW.
  unfold in_use in RW. cbn [d_index] in RW. rewrite pyget_last in RW. cbn [bind] in RW.
  assert (IU : in_use_row prow = Ok (map (fun i => (0, i)) (nums prow))).
  { apply row_in_use. intros n y N C. destruct (Q4 n y N C) as (e & -> & _ & B1 & B2 & _). eauto. }
  rewrite IU in RW. cbn [bind] in RW.
  assert (FD : fdata_at d2 (-1) = Ok p).
  { unfold fdata_at. rewrite D1. change (dx ++ [x; op]) with (dx ++ [x] ++ [op]). rewrite app_assoc, pyget_last. cbn [bind]. now rewrite E2. }
  rewrite FD in RW. cbn [bind] in RW. destruct (build_cache p (lx ++ [prow])) as [cache| |] eqn:BC; cbn [bind] in RW; try discriminate.
  unfold build_cache in BC. rewrite pyget_last in BC. cbn [bind] in BC. apply memoize_zero in BC as [BL BC]; [|rewrite repeat_length; lia]. rewrite repeat_length in BL.
  assert (RR : reread (mk_doc (lx ++ [prow]) cache (dx ++ [without_cut x])) lx prow p).
  { constructor; cbn [d_index d_cache]; auto.
    - unfold fdata_at. cbn [d_data]. rewrite pyget_last. cbn [bind without_cut dt_fdata]. now rewrite D2.
    - intros n y N C. destruct (Q4 n y N C) as (e & -> & _ & B1 & B2 & B3 & z & w & B4 & B5 & B6 & B7). exists e, w. split; auto. split; auto. split; auto. split; auto. split; auto. split; [apply B6|].
      left. apply BC; auto. pose proof (cell_range _ _ _ C) as RG. split; [lia|]. apply nth_error_repeat. lia. }
  assert (LV : forall g n, In (g, n) (map (fun i : Z => (0, i)) (nums prow)) -> 0 < n < Z.of_nat (length prow)).
  { intros g n IN. apply in_map_iff in IN as (i & Q & IN). injection Q as <- <-. apply in_nums in IN. lia. }
  assert (DD : d_data d3 = dx ++ [without_cut x]).
  { clear -RW. remember (mk_doc (lx ++ [prow]) cache (dx ++ [without_cut x])) as dd. assert (E : d_data dd = dx ++ [without_cut x]) by (subst; auto). clear Heqdd. revert dd RW E.
    induction (map (fun i => (0, i)) (nums prow)) as [|r l IH]; intros dd RW E; cbn [read_all] in RW; [injection RW as <-; auto|].
    destruct (get_object dd (PRef (fst r) (snd r))) as [[v dd']| |] eqn:G; cbn [bind] in RW; try discriminate. apply (IH dd' RW).
    unfold get_object in G. destruct (last_row dd); cbn [bind] in G; try discriminate. destruct (fdata_at dd (-1)); cbn [bind] in G; try discriminate.
    destruct (memoize _ _ _ _); cbn [bind] in G; try discriminate. destruct (pyget _ _); cbn [bind] in G; try discriminate. injection G as <- <-. exact E. }
  pose proof (reread_all _ _ _ _ _ _ RR LV RW) as R3.
  split; [rewrite (rr_index _ _ _ _ R3), Q1, !app_length; cbn [length]; lia|].
  split; [rewrite DD, (rr_index _ _ _ _ R3), LX, <- LD, !app_length; cbn [length]; lia|].
  exists (map (fun i => (0, i)) (nums prow)). split; [rewrite (inv_in_use _ _ _ _ _ _ I0); unfold nums; rewrite LP; reflexivity|].
  split; [unfold in_use; rewrite (rr_index _ _ _ _ R3), pyget_last; cbn [bind]; auto|].
  intros g n IN. apply LV in IN. destruct (reread_get _ _ _ _ 0 n R3 IN) as (e3 & w & d3' & C3 & PA & G3 & _).
  destruct (Q4 n _ ltac:(lia) C3) as (e3' & Q & _ & _ & _ & _ & z & w' & B4 & B5 & B6 & B7). injection Q as <-. assert (w' = w) by congruence. subst w'.
  destruct (pyget_range row1 n ltac:(lia)) as [x1 C1]. destruct (iv_cells _ _ _ _ _ _ I1 n _ ltac:(lia) C1) as (e1 & o1 & -> & _).
  destruct (inv_value _ _ _ _ _ _ n e1 I1 ltac:(lia) C1 (SV n e1 ltac:(lia) C1)) as (v1 & z1 & w1 & V1 & LT1 & G1 & PQ).
  assert (z1 = z) by congruence. subst z1. assert (w1 = w) by (eapply good_fun; eauto). subst w1.
  assert (V0 : value d n = value d1 n).
  { destruct (pyget_range row0 n ltac:(lia)) as [y0 C0]. destruct (iv_cells _ _ _ _ _ _ I0 n _ ltac:(lia) C0) as (e0 & o0 & -> & CO & _). destruct (KV n e0 o0 ltac:(lia) C0 CO) as [CO1 PN].
    rewrite (inv_value_is _ _ _ _ _ _ n e0 o0 I0 ltac:(lia) C0 CO), (inv_value_is _ _ _ _ _ _ n e1 o0 I1 ltac:(lia) C1 CO1). destruct (is_none o0) eqn:NO; [|auto].
    destruct (PN ltac:(destruct o0; discriminate||reflexivity)) as (e' & C' & <-). pose proof (cell_fun _ _ _ _ C' C1) as Q. injection Q as ->. auto. }
  exists v1, w. split; [congruence|]. split; [unfold value; rewrite G3; reflexivity|auto].
Qed.

Lemma read_all_data l : forall d d1, read_all d l = Ok d1 -> d_data d1 = d_data d.
Proof.
  induction l as [|r l IH]; intros d d1 H; cbn [read_all] in H; [injection H as <-; auto|].
  destruct (get_object d (PRef (fst r) (snd r))) as [[v d']| |] eqn:G; cbn [bind] in H; try discriminate. rewrite (IH d' d1 H).
  unfold get_object in G. destruct (last_row d); cbn [bind] in G; try discriminate. destruct (fdata_at d (-1)); cbn [bind] in G; try discriminate.
  destruct (memoize _ _ _ _); cbn [bind] in G; try discriminate. destruct (pyget _ _); cbn [bind] in G; try discriminate. injection G as <- <-. reflexivity.
Qed.
Theorem rewind_open d d1 : rewind d = Ok d1 -> length (d_index d) <> 1%nat ->
  exists dx x, d_data d1 = dx ++ [x] /\ dt_cut x = None /\ length (d_data d1) = (length (d_data d) - 1)%nat.
Proof.
  unfold rewind. intros H N. replace (Nat.eqb (length (d_index d)) 1) with false in H by (symmetry; apply Nat.eqb_neq; auto). set (data := removelast (d_data d)) in *.
  destruct (pyget data (-1)) as [dl| |] eqn:P; cbn [bind] in H; try discriminate. apply pyget_last_inv in P as [dx E]. rewrite E in H. rewrite pyset_last in H. cbn [bind] in H.
  repeat match type of H with bind ?x _ = _ => destruct x; cbn [bind] in H; try discriminate end. apply read_all_data in H. cbn [d_data] in H.
  exists dx, (without_cut dl). split; [auto|]. split; [reflexivity|]. rewrite H, app_length. cbn [length].
  assert (L : length data = length (dx ++ [dl])) by now rewrite E. rewrite app_length in L. cbn [length] in L. unfold data in L.
  destruct (d_data d) as [|y l _] using rev_ind; [cbn in L; lia|]. rewrite removelast_last in L. rewrite app_length. cbn [length]. lia.
Qed.

End WithZlib.
