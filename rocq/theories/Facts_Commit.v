(* Facts about commit *)
From Coq Require Import String Sorted Permutation.
From Verif Require Import PyBase Model_Filters Model_Objects Model_Filestruct Model_Docstruct.
From Verif Require Import Spec_Objects Spec_Filestruct Spec_Docstruct.
From Verif Require Import Facts_Base Facts_Revision Facts_Doc.
From Coq Require Import ZifyBool ZifyNat.

Lemma cell_ext {A} (a b : list A) : length a = length b -> (forall k x, cell a k x -> cell b k x) -> forall k x, cell a k x <-> cell b k x.
Proof.
  intros L H k x. split; [auto|]. intro C. pose proof (cell_range _ _ _ C). destruct (pyget_range a k) as [y Cy]; [lia|].
  rewrite (cell_fun _ _ _ _ C (H _ _ Cy)). exact Cy.
Qed.

(* ---------- the numbers of the changes ---------- *)
Lemma change_of_shape current previous i l : change_of current previous i = Ok l ->
  l = [] \/ exists g a, l = [((g, i), a)].
Proof.
  unfold change_of, get_iref. intro H. destruct (pyget current i) as [s| |]; cbn [bind] in H; try discriminate.
  assert (G : forall r, (let* e := as_dict s in Ok (Some (n_gen e, i))) = Ok r -> exists g, r = Some (g, i)).
  { intros r X. destruct (as_dict s); cbn [bind] in X; try discriminate. injection X as <-. eauto. }
  assert (K : forall r : option ref, (r = None \/ exists g, r = Some (g, i)) ->
    match r with
    | None => Ok []
    | Some ir =>
        let* c0 := pyget current 0 in
        let* xs := match c0 with
                   | SNone => Exc ETypeError
                   | SDict e => Ok (match n_xsn e with Some x => x =? i | None => false end)
                   | SList _ => Ok false
                   end in
        if xs : bool then Ok []
        else if Z.of_nat (length previous) - 1 <? i then Ok [(ir, Add)]
        else
          let* p := pyget previous i in
          if slot_eqb p s then Ok []
          else if is_snone p then Ok [(ir, Add)]
          else
            let* dp := deleted_in p in
            let* dc := deleted_in s in
            Ok [(ir, if negb dp && dc then Del else Upd)]
    end = Ok l -> l = [] \/ exists g a, l = [((g, i), a)]).
  { intros r R X. destruct R as [->|[g ->]]; [injection X as <-; auto|].
    destruct (pyget current 0) as [c0| |]; cbn [bind] in X; try discriminate.
    destruct (match c0 with SNone => _ | _ => _ end) as [xs| |]; cbn [bind] in X; try discriminate.
    destruct xs; [injection X as <-; auto|]. destruct (_ <? i); [injection X as <-; eauto|].
    destruct (pyget previous i) as [pp| |]; cbn [bind] in X; try discriminate. destruct (slot_eqb pp s); [injection X as <-; auto|].
    destruct (is_snone pp); [injection X as <-; eauto|].
    destruct (deleted_in pp) as [dp| |]; cbn [bind] in X; try discriminate.
    destruct (deleted_in s) as [dc| |]; cbn [bind] in X; try discriminate. injection X as <-. eauto. }
  destruct s as [|e|[|y ys]]; cbn [bind as_dict] in H; try (injection H as <-; auto; fail); try discriminate.
  apply (K (Some (n_gen e, i))); eauto.
Qed.
Lemma map_change_nums current previous n : forall s l, map_res (change_of current previous) (zseq s n) = Ok l ->
  StronglySorted Z.lt (map chg_num (concat l)) /\ Forall (fun k => s <= k < s + Z.of_nat n) (map chg_num (concat l)).
Proof.
  induction n as [|n IH]; intros s l M; cbn [zseq map_res] in M.
  - injection M as <-. cbn. split; constructor.
  - destruct (change_of current previous s) as [y| |] eqn:E; cbn [bind] in M; try discriminate.
    destruct (map_res _ (zseq (s + 1) n)) as [t| |] eqn:Et; cbn [bind] in M; try discriminate. injection M as <-.
    destruct (IH _ _ Et) as [S1 F1]. cbn [concat]. rewrite map_app.
    assert (F1' : Forall (fun k => s <= k < s + Z.of_nat (S n)) (map chg_num (concat t))).
    { eapply Forall_impl; [|exact F1]. cbn. intros. lia. }
    destruct (change_of_shape _ _ _ _ E) as [->|(g & a & ->)]; [auto|]. cbn [map app].
    change (chg_num (g, s, a)) with s. split.
    + constructor; [auto|]. eapply Forall_impl; [|exact F1]. cbn. intros. lia.
    + constructor; [lia|auto].
Qed.
Lemma changes_at_nums d rev chg : changes_at d rev = Ok chg ->
  exists current, pyget (d_index d) rev = Ok current /\ StronglySorted Z.lt (map chg_num chg) /\
    Forall (fun k => 1 <= k < Z.of_nat (length current)) (map chg_num chg).
Proof.
  unfold changes_at. destruct (pyget (d_index d) rev) as [cur| |]; cbn [bind]; try discriminate.
  destruct (if Nat.eqb _ 1 then _ else _) as [prev| |]; cbn [bind]; try discriminate.
  destruct (map_res _ (nums cur)) as [l| |] eqn:E; cbn [bind]; try discriminate. intro H. injection H as <-.
  exists cur. split; [auto|]. unfold nums in E. destruct (map_change_nums _ _ _ _ _ E) as [S F]. split; [auto|].
  eapply Forall_impl; [|exact F]. intros k Hk. cbv beta in *. lia.
Qed.
Lemma sorted_nodup l : StronglySorted Z.lt l -> NoDup l.
Proof.
  induction 1 as [|a l S IH F]; constructor; auto. intro I. rewrite Forall_forall in F. specialize (F _ I). lia.
Qed.

Section WithZlib.
Context {ZL : Zlib}.

(* ---------- what writing does to the index and to the cache ---------- *)
Definition positioned (e e' : ient) : Prop := exists a b, e' = with_next a (with_pos b e).
Lemma positioned_fields e e' : positioned e e' -> n_del e' = n_del e /\ n_env e' = n_env e /\ n_gen e' = n_gen e /\ n_num e' = n_num e /\ n_over e' = n_over e.
Proof. intros (a & b & ->). auto. Qed.
Lemma positioned_trans e e' e'' : positioned e e' -> positioned e' e'' -> positioned e e''.
Proof. intros (a & b & ->) (a' & b' & ->). exists a', b'. reflexivity. Qed.

Definition moved (l : list change) (k : Z) (s s' : slot) : Prop :=
  s' = s \/ exists c e e', In c l /\ num_of c = k /\ snd c <> Del /\ s = SDict e /\ s' = SDict e' /\ positioned e e'.

Lemma write_cells cur cache l : forall newi cnt last fr el ni cnt' last', Forall (fun c => 0 <= num_of c) l ->
  write_changes cur cache newi cnt last l = Ok (fr, el, ni, cnt', last') ->
  length ni = length newi /\ forall k s', cell ni k s' -> exists s, cell newi k s /\ moved l k s s'.
Proof.
  assert (MO : forall c l k s s', moved l k s s' -> moved (c :: l) k s s').
  { intros c l0 k s s' [->|(c' & e & e' & I & R)]; [now left|right]. exists c', e, e'. split; [now right|exact R]. }
  induction l as [|[[g num] a] l IH]; intros newi cnt last fr el ni cnt' last' NN W; cbn [write_changes] in W.
  - injection W as <- <- <- <- <-. split; [auto|]. intros k s' C. exists s'. split; [auto|now left].
  - inversion NN as [|? ? N0 NN']; subst. cbn [num_of fst snd] in *. destruct (is_del a) eqn:Ea.
    + destruct (if num =? 0 then _ else _) as [gen| |]; cbn [bind] in W; try discriminate.
      destruct (write_changes cur cache newi cnt last l) as [[[[[f1 e1] n1] c1] l1]| |] eqn:E; cbn [bind] in W; try discriminate.
      injection W as <- <- <- <- <-. destruct (IH _ _ _ _ _ _ _ _ NN' E) as [L1 C1]. split; [auto|].
      intros k s' C. destruct (C1 k s' C) as (s & Cs & M). exists s. auto.
    + destruct (pyget cur num) as [sl| |]; cbn [bind] in W; try discriminate.
      destruct (as_dict sl) as [e| |] eqn:Es; cbn [bind] in W; try discriminate. destruct (truthy (n_env e)).
      * destruct (IH _ _ _ _ _ _ _ _ NN' W) as [L1 C1]. split; [auto|]. intros k s' C. destruct (C1 k s' C) as (s & Cs & M). exists s. auto.
      * destruct (pyget cache num) as [o| |]; cbn [bind] in W; try discriminate.
        destruct (match o with PStream _ _ _ => _ | _ => _ end) as [o'| |]; cbn [bind] in W; try discriminate.
        destruct (serialize_fragment num (n_gen e) o') as [blk| |]; cbn [bind] in W; try discriminate.
        destruct (pyget newi num) as [nsl| |] eqn:En; cbn [bind] in W; try discriminate.
        destruct (as_dict nsl) as [ne| |] eqn:Ed; cbn [bind] in W; try discriminate. apply as_dict_inv in Ed. subst nsl.
        destruct (pyset newi num _) as [n2| |] eqn:Ep; cbn [bind] in W; try discriminate.
        destruct (write_changes cur cache n2 _ (Some blk) l) as [[[[[f1 e1] n1] c1] l1]| |] eqn:E; cbn [bind] in W; try discriminate.
        injection W as <- <- <- <- <-. destruct (IH _ _ _ _ _ _ _ _ NN' E) as [L1 C1].
        apply pyset_inv in Ep; [|auto]. destruct Ep as [-> Lp]. rewrite lset_length in L1. split; [auto|].
        intros k s' C. destruct (C1 k s' C) as (s & Cs & M). rewrite cell_lset in Cs by lia. destruct Cs as [[-> ->]|[NK Cs]].
        -- apply pyget_cell in En; [|auto]. exists (SDict ne). split; [auto|]. right. exists ((g, num), a), ne.
           destruct M as [->|(c & e3 & e4 & I & Nc & Dc & X & -> & PO)].
           ++ eexists. split; [now left|]. split; [auto|]. split; [cbn; intros ->; discriminate|]. split; [auto|]. split; [reflexivity|]. eexists _, _. reflexivity.
           ++ injection X as <-. exists e4. split; [now left|]. split; [auto|]. split; [cbn; intros ->; discriminate|]. split; [auto|]. split; [reflexivity|].
              eapply positioned_trans; [|exact PO]. eexists _, _. reflexivity.
        -- exists s. auto.
Qed.

(* no pending change is placed in an object stream *)
Definition direct (cur : list slot) (l : list change) : Prop :=
  forall c e, In c l -> snd c <> Del -> cell cur (num_of c) (SDict e) -> truthy (n_env e) = false.
Lemma embed_none cur l : forall cache cache' el, Forall (fun c => 0 <= num_of c) l -> direct cur l ->
  embed_changes cur cache l = Ok (cache', el) -> cache' = cache /\ el = [].
Proof.
  induction l as [|[[g num] a] l IH]; intros cache cache' el NN D H; cbn [embed_changes] in H.
  - injection H as <- <-. auto.
  - inversion NN as [|? ? N0 NN']; subst. cbn [num_of fst snd] in *.
    destruct (pyget cur num) as [sl| |] eqn:Es; cbn [bind] in H; try discriminate.
    destruct (as_dict sl) as [e| |] eqn:Ed; cbn [bind] in H; try discriminate. apply as_dict_inv in Ed. subst sl.
    apply pyget_cell in Es; [|auto].
    replace (negb (is_del a) && truthy (n_env e)) with false in H.
    2:{ destruct a; try reflexivity; cbn [is_del negb andb]; symmetry; apply (D ((g, num), _) e (or_introl eq_refl)); auto; discriminate. }
    apply (IH cache cache' el NN'); auto. intros c e' I. apply D. now right.
Qed.

Lemma upd_slot_inv l z f l' : 0 <= z -> upd_slot l z f = Ok l' -> exists e, cell l z (SDict e) /\ l' = lset l (Z.to_nat z) (SDict (f e)) /\ length l' = length l.
Proof.
  intros Z0 H. unfold upd_slot in H. destruct (pyget l z) as [s| |] eqn:E; cbn [bind] in H; try discriminate.
  destruct (as_dict s) as [e| |] eqn:Ed; cbn [bind] in H; try discriminate. apply as_dict_inv in Ed. subst s.
  apply pyget_cell in E; [|auto]. exists e. split; [auto|]. apply pyset_inv in H; [|auto]. destruct H as [-> _]. split; [auto|apply lset_length].
Qed.

Lemma build_cells chg cur cache sp x R newi cache' : Forall (fun c => 1 <= num_of c) chg -> direct cur chg ->
  (truthy x = true -> exists z, x = Some z /\ 0 < z) ->
  build_revision_byte_stream chg cur cache sp x = Ok (R, newi, cache') ->
  length newi = length cur /\ length cache' = length cache /\ R <> [] /\
  (exists e0 e0', cell cur 0 (SDict e0) /\ cell newi 0 (SDict e0') /\ n_xsn e0' = n_xsn e0) /\
  (forall k s', k <> 0 -> cell newi k s' -> exists s, cell cur k s /\
      (moved chg k s s' \/ (truthy x = true /\ x = Some k /\ exists e e', s = SDict e /\ s' = SDict e' /\ positioned e e'))) /\
  (forall k v, k <> 0 -> cell cache' k v <-> cell cache k v) /\
  (truthy x = false -> cache' = cache).
Proof.
  intros NN D PX H. unfold build_revision_byte_stream in H. set (l := ((0, 0), Del) :: chg) in *.
  assert (NL : Forall (fun c => 0 <= num_of c) l).
  { constructor; [cbn; lia|]. eapply Forall_impl; [|exact NN]. cbn. lia. }
  destruct (embed_changes cur cache l) as [[c1 el1]| |] eqn:EE; cbn [bind] in H; try discriminate.
  destruct (embed_none cur l cache c1 el1 NL) as [-> ->]; auto.
  { intros c e [<-|I]; [cbn; congruence|now apply D]. }
  destruct (write_changes cur cache cur (sp + 1) None l) as [[[[[fr el2] ni] cnt] la]| |] eqn:EW; cbn [bind] in H; try discriminate.
  destruct (write_cells _ _ _ _ _ _ _ _ _ _ _ NL EW) as [LN CN].
  assert (CN' : forall k s', k <> 0 -> cell ni k s' -> exists s, cell cur k s /\ moved chg k s s').
  { intros k s' K C. destruct (CN k s' C) as (s & Cs & M). exists s. split; [auto|]. destruct M as [->|(c & e & e' & [<-|I] & Nc & R')]; [now left| |].
    - cbn in Nc. lia.
    - right. exists c, e, e'. auto. }
  destruct (pyget cache 0) as [c0| |]; cbn [bind] in H; try discriminate.
  destruct (truthy x) eqn:EX; cbn [negb] in H.
  - destruct (PX eq_refl) as (z & -> & Z0). cbn [of_opt bind] in H.
    destruct c0 as [| | | | | | | |d0|]; cbn [bind] in H; try discriminate.
    destruct (format_xref_stream _ d0 _ z) as [[built d1]| |]; cbn [bind] in H; try discriminate.
    destruct la as [blk|]; cbn [of_opt bind] in H; try discriminate.
    destruct (upd_slot ni z _) as [n1| |] eqn:E1; cbn [bind] in H; try discriminate.
    destruct (upd_slot n1 0 _) as [n2| |] eqn:E2; cbn [bind] in H; try discriminate.
    destruct (pyset cache 0 (PDict d1)) as [c2| |] eqn:E3; cbn [bind] in H; try discriminate. injection H as <- <- <-.
    apply upd_slot_inv in E1; [|lia]. destruct E1 as (ez & Cz & -> & L1). apply upd_slot_inv in E2; [|lia]. destruct E2 as (e0 & Ce0 & -> & L2).
    apply pyset_inv in E3; [|lia]. destruct E3 as [-> L3]. rewrite !lset_length in *. split; [auto|]. split; [auto|]. split; [discriminate|].
    pose proof (cell_range _ _ _ Cz) as RZ. pose proof (cell_range _ _ _ Ce0) as R0. rewrite lset_length in R0.
    split; [|split; [|split]].
    + rewrite cell_lset in Ce0 by lia. destruct Ce0 as [[X _]|[_ Ce0]]; [lia|]. destruct (CN 0 _ Ce0) as (s & Cs & M).
      destruct M as [<-|(c & e & e' & _ & _ & _ & -> & X & (pa & pb & Epo))].
      * do 2 eexists. split; [exact Cs|]. split; [apply cell_lset; [rewrite lset_length; lia|left; split; reflexivity]|reflexivity].
      * do 2 eexists. split; [exact Cs|]. split; [apply cell_lset; [rewrite lset_length; lia|left; split; reflexivity]|]. injection X as ->. rewrite Epo. reflexivity.
    + intros k s' K C. rewrite cell_lset in C by (rewrite lset_length; lia). destruct C as [[X _]|[_ C]]; [lia|].
      rewrite cell_lset in C by lia. destruct C as [[-> ->]|[NK C]].
      * destruct (CN' z (SDict ez) K Cz) as (s & Cs & M). exists s. split; [auto|]. right. split; [auto|]. split; [auto|].
        destruct M as [<-|(c & e & e' & _ & _ & _ & -> & X & PO)].
        -- do 2 eexists. split; [reflexivity|]. split; [reflexivity|]. eexists _, _. reflexivity.
        -- injection X as ->. do 2 eexists. split; [reflexivity|]. split; [reflexivity|]. eapply positioned_trans; [exact PO|]. eexists _, _. reflexivity.
      * destruct (CN' k s' K C) as (s & Cs & M). exists s. auto.
    + intros k v K. rewrite cell_lset by lia. split; [intros [[X _]|[_ C]]; [lia|auto]|auto].
    + discriminate.
  - destruct (format_xref_table _ c0 _) as [built| |]; cbn [bind] in H; try discriminate.
    destruct (upd_slot ni 0 _) as [n2| |] eqn:E2; cbn [bind] in H; try discriminate. injection H as <- <- <-.
    apply upd_slot_inv in E2; [|lia]. destruct E2 as (e0 & Ce0 & -> & L2). rewrite lset_length in *. split; [auto|]. split; [auto|]. split; [discriminate|].
    pose proof (cell_range _ _ _ Ce0) as R0. split; [|split; [|split]].
    + destruct (CN 0 _ Ce0) as (s & Cs & M). destruct M as [<-|(c & e & e' & _ & _ & _ & -> & X & (pa & pb & Epo))].
      * do 2 eexists. split; [exact Cs|]. split; [apply cell_lset; [lia|left; split; reflexivity]|reflexivity].
      * do 2 eexists. split; [exact Cs|]. split; [apply cell_lset; [lia|left; split; reflexivity]|]. injection X as ->. rewrite Epo. reflexivity.
    + intros k s' K C. rewrite cell_lset in C by lia. destruct C as [[X _]|[_ C]]; [lia|].
      destruct (CN' k s' K C) as (s & Cs & M). exists s. auto.
    + tauto.
    + auto.
Qed.

(* ---------- commit ---------- *)
(* what happens to the open revision's data *)
Inductive closing (d : doc) (chg : list change) (row : list slot) (cache : list obj) (x : option Z) (dl : datum)
  : datum -> list slot -> list obj -> Prop :=
| Cl_file c : dt_cut dl = Some c -> closing d chg row cache x dl dl row cache
| Cl_first v b ni c' : dt_cut dl = None -> length (d_index d) = 1%nat ->
    build_revision_byte_stream chg row cache (blen (W_header ++ v)) x = Ok (b, ni, c') ->
    closing d chg row cache x dl (mk_datum None (Some ((W_header ++ v) ++ b)) (Some (PvDummy ((W_header ++ v) ++ b)))) ni c'
| Cl_next idx b ni c' p : dt_cut dl = None -> length (d_index d) <> 1%nat -> revision_index d = Ok idx ->
    build_revision_byte_stream chg row cache idx x = Ok (b, ni, c') -> dt_fdata dl = Some p -> b <> [] ->
    closing d chg row cache x dl (mk_datum None (Some b) (Some (PvMerge p idx b))) ni c'.

Lemma build_nonempty chg cur cache sp x R newi cache' :
  build_revision_byte_stream chg cur cache sp x = Ok (R, newi, cache') -> R <> [].
Proof.
  unfold build_revision_byte_stream. intro H.
  destruct (embed_changes cur cache _) as [[c1 el1]| |]; cbn [bind] in H; try discriminate.
  destruct (write_changes cur c1 cur _ None _) as [[[[[fr el2] ni] cnt] la]| |]; cbn [bind] in H; try discriminate.
  destruct (pyget c1 0) as [c0| |]; cbn [bind] in H; try discriminate.
  destruct (negb (truthy x)).
  - destruct (format_xref_table _ c0 _) as [built| |]; cbn [bind] in H; try discriminate.
    destruct (upd_slot ni 0 _); cbn [bind] in H; try discriminate. injection H as <- _ _. discriminate.
  - destruct (of_opt _ x) as [z| |]; cbn [bind] in H; try discriminate.
    destruct (match c0 with PDict _ => _ | _ => _ end) as [d0| |]; cbn [bind] in H; try discriminate.
    destruct (format_xref_stream _ d0 _ _) as [[built d1]| |]; cbn [bind] in H; try discriminate.
    destruct (of_opt _ la) as [blk| |]; cbn [bind] in H; try discriminate.
    destruct (upd_slot ni _ _) as [n1| |]; cbn [bind] in H; try discriminate.
    destruct (upd_slot n1 0 _) as [n2| |]; cbn [bind] in H; try discriminate.
    destruct (pyset c1 0 _) as [c2| |]; cbn [bind] in H; try discriminate. injection H as <- _ _. discriminate.
Qed.

Definition revision_entry (d : doc) (x0 : option Z) : ient :=
  with_xsn (if truthy x0 then Some (-1) else None)
    (with_dver (Some (Z.of_nat (length (d_index d)))) (with_over (Some (Z.of_nat (length (d_index d)))) (ient0 0 0))).
Definition closing_trailer (x0 : option Z) (n : Z) (t0 : dict) : dict :=
  dset K_Size (PInt n) (if truthy x0 && match dget K_DecodeParms' t0 with Some v => obj_truthy v | None => false end
                        then ddel K_DecodeParms' t0 else t0).
Definition opening_trailer (pe : ient) (t : dict) : dict :=
  let t4 := dset K_Prev (prev_pos pe) t in if dhas K_XRefStm t4 then ddel K_XRefStm t4 else t4.

Lemma commit_inv d chg d' : changes d = Ok chg -> chg <> [] -> commit d = Ok d' ->
  exists lx row0 t0 x0 row x dx dl dl' row' cache' pe t3 fd,
    d_index d = lx ++ [row0] /\ cell (d_cache d) 0 (PDict t0) /\ first_xsn d = Ok x0 /\
    (if truthy x0 then commit_row row0 (Z.of_nat (length (d_index d))) x0 else Ok (row0, x0)) = Ok (row, x) /\
    d_data d = dx ++ [dl] /\
    closing d chg row (lset (d_cache d) 0 (PDict (closing_trailer x0 (Z.of_nat (length row)) t0))) x dl dl' row' cache' /\
    (cell row' 0 (SDict pe) \/ exists l, cell row' 0 (SList l) /\ cell row' 1 (SDict pe)) /\
    cell cache' 0 (PDict t3) /\ dt_fdata dl' = Some fd /\
    d' = mk_doc (lx ++ [row'; SDict (revision_entry d x0) :: skipn 1 row'])
                (lset cache' 0 (PDict (opening_trailer pe t3))) (dx ++ [dl'; mk_datum None None (Some fd)]).
Proof.
  intros Ec NE H. unfold commit in H. rewrite Ec in H. cbn [bind] in H. destruct chg as [|ch0 chl] eqn:EC; [congruence|]. rewrite <- EC in *.
  destruct (last_row d) as [row0| |] eqn:Er; cbn [bind] in H; try discriminate. apply last_open in Er. destruct Er as [lx Er].
  destruct (pyget (d_cache d) 0) as [c0| |] eqn:E0; cbn [bind] in H; try discriminate.
  destruct c0 as [| | | | | | | |t0|]; cbn [bind] in H; try discriminate. apply pyget_cell in E0; [|lia].
  destruct (first_xsn d) as [x0| |] eqn:Ex; cbn [bind] in H; try discriminate.
  destruct (if truthy x0 then _ else _) as [[row x]| |] eqn:Erx; cbn [bind] in H; try discriminate.
  fold (closing_trailer x0 (Z.of_nat (length row)) t0) in H.
  pose proof (cell_range _ _ _ E0) as R0. rewrite pyset_ok in H by lia. change (Z.to_nat 0) with 0%nat in H. cbn [bind] in H.
  destruct (pyget (d_data d) (-1)) as [dl| |] eqn:Ed; cbn [bind] in H; try discriminate. apply pyget_last_inv in Ed. destruct Ed as [dx Ed].
  set (cache := lset (d_cache d) 0 _) in *.
  match type of H with bind ?X _ = _ => destruct X as [[[dl' row'] cache']| |] eqn:EX; cbn [bind] in H; try discriminate end.
  assert (CL : closing d chg row cache x dl dl' row' cache').
  { destruct (dt_cut dl) as [c|] eqn:Ecut; [injection EX as <- <- <-; econstructor; eauto|].
    destruct (Z.of_nat (length (d_index d)) =? 1) eqn:E1.
    - destruct (version d) as [[v dv]| |]; cbn [bind] in EX; try discriminate.
      destruct (build_revision_byte_stream _ _ _ _ _) as [[[b ni] c']| |] eqn:EB; cbn [bind] in EX; try discriminate.
      injection EX as <- <- <-. eapply Cl_first; eauto. lia.
    - destruct (revision_index d) as [idx| |] eqn:EI; cbn [bind] in EX; try discriminate.
      destruct (build_revision_byte_stream _ _ _ _ _) as [[[b ni] c']| |] eqn:EB; cbn [bind] in EX; try discriminate.
      pose proof (build_nonempty _ _ _ _ _ _ _ _ EB) as NB.
      destruct (dt_fdata dl) as [p|] eqn:Ep; cbn [of_opt bind] in EX; try discriminate.
      destruct b as [|b0 b]; [congruence|]. injection EX as <- <- <-. eapply Cl_next; eauto; lia. }
  destruct (dt_fdata dl') as [fd|] eqn:Ef; cbn [of_opt bind] in H; try discriminate.
  rewrite Ed, pyset_last in H. cbn [bind] in H. rewrite Er, pyset_last in H. cbn [bind] in H.
  destruct (pyget row' 0) as [z| |] eqn:Ez; cbn [bind] in H; try discriminate. apply pyget_cell in Ez; [|lia].
  match type of H with bind ?X _ = _ => destruct X as [pe| |] eqn:EP; cbn [bind] in H; try discriminate end.
  destruct (pyget cache' 0) as [ct| |] eqn:Ect; cbn [bind] in H; try discriminate. apply pyget_cell in Ect; [|lia].
  destruct ct as [| | | | | | | |t3|]; cbn [dict_of bind] in H; try discriminate.
  fold (opening_trailer pe t3) in H. pose proof (cell_range _ _ _ Ect) as Rc. rewrite pyset_ok in H by lia. change (Z.to_nat 0) with 0%nat in H.
  cbn [bind] in H. injection H as <-.
  exists lx, row0, t0, x0, row, x, dx, dl, dl', row', cache', pe, t3, fd. split; [exact Er|]. split; [exact E0|]. split; [reflexivity|].
  split; [exact Erx|]. split; [exact Ed|]. split; [exact CL|]. split; [|split; [exact Ect|split; [exact Ef|]]].
  - destruct z as [|e|l]; [discriminate|injection EP as <-; now left|right].
    destruct (pyget row' 1) as [s1| |] eqn:E1; cbn [bind] in EP; try discriminate. apply pyget_cell in E1; [|lia].
    destruct s1 as [|e|]; try discriminate. injection EP as <-. eauto.
  - f_equal; rewrite <- app_assoc; unfold revision_entry; rewrite ?Er; reflexivity.
Qed.

Lemma map_res_in {A C} (f : A -> res (list C)) l : forall r, map_res f l = Ok r -> forall x, In x l ->
  exists y, f x = Ok y /\ forall z, In z y -> In z (concat r).
Proof.
  induction l as [|a l IH]; intros r H x I; [destruct I|]. cbn [map_res] in H.
  destruct (f a) as [y| |] eqn:E; cbn [bind] in H; try discriminate.
  destruct (map_res f l) as [t| |] eqn:Et; cbn [bind] in H; try discriminate. injection H as <-. cbn [concat].
  destruct I as [<-|I].
  - exists y. split; [auto|]. intros z Z0. apply in_or_app. auto.
  - destruct (IH t eq_refl x I) as (y' & E' & H'). exists y'. split; [auto|]. intros z Z0. apply in_or_app. auto.
Qed.
(* changes succeeded: no list among the cells *)
Lemma changes_cells d chg lx row : changes d = Ok chg -> d_index d = lx ++ [row] ->
  forall k s, 0 < k -> cell row k s -> forall a l, s <> SList (a :: l).
Proof.
  unfold changes, changes_at. intros H E k s K C a l ->. rewrite E, pyget_last in H. cbn [bind] in H.
  destruct (if Nat.eqb _ 1 then _ else _) as [prev| |]; cbn [bind] in H; try discriminate.
  destruct (map_res _ (nums row)) as [r| |] eqn:M; cbn [bind] in H; try discriminate.
  pose proof (cell_range _ _ _ C). assert (I : In k (nums row)) by (apply in_nums; lia).
  destruct (map_res_in _ _ _ M k I) as (y & F & _). unfold change_of, get_iref in F. apply pyget_cell in C; [|lia]. rewrite C in F. discriminate F.
Qed.
Lemma changes_first_all d chg row n e : changes d = Ok chg -> d_index d = [row] -> 0 < n -> cell row n (SDict e) ->
  first_xsn d <> Ok (Some n) -> In n (map chg_num chg).
Proof.
  unfold changes, changes_at, first_xsn. intros H E N C X. rewrite E in *. change (pyget [row] (-1)) with (@Ok (list slot) row) in H.
  change (pyget [row] 0) with (@Ok (list slot) row) in X. cbn [bind length Nat.eqb] in *.
  destruct (map_res _ (nums row)) as [r| |] eqn:M; cbn [bind] in H; try discriminate. injection H as <-.
  pose proof (cell_range _ _ _ C) as R. assert (I : In n (nums row)) by (apply in_nums; lia).
  destruct (map_res_in _ _ _ M n I) as (y & F & IN). unfold change_of, get_iref in F.
  assert (Cp := C). apply pyget_cell in Cp; [|lia]. rewrite Cp in F. cbn [bind as_dict] in F.
  destruct (pyget row 0) as [c0| |] eqn:E0; cbn [bind] in F, X; try discriminate.
  assert (PR : pyget (repeat SNone (length row)) n = Ok SNone).
  { apply pyget_cell; [lia|]. split; [lia|]. apply nth_error_repeat. lia. }
  assert (XS : exists xs, (match c0 with SNone => Exc ETypeError | SDict e => Ok (match n_xsn e with Some x => x =? n | None => false end) | SList _ => Ok false end) = Ok xs /\ xs = false).
  { destruct c0 as [|e0|l0]; cbn [bind] in F; try discriminate; [|eauto]. eexists. split; [reflexivity|].
    destruct (n_xsn e0) as [z|]; [|auto]. destruct (Z.eqb_spec z n) as [->|]; [congruence|auto]. }
  destruct XS as (xs & EX & ->). rewrite EX in F. cbn [bind] in F. rewrite repeat_length in F.
  replace (Z.of_nat (length row) - 1 <? n) with false in F by lia. rewrite PR in F. cbn [bind slot_eqb is_snone] in F. injection F as <-.
  apply in_map_iff. exists ((n_gen e, n), Add). split; [reflexivity|]. apply IN. now left.
Qed.
Lemma changes_none d lx row' e0 : d_index d = lx ++ [row'; SDict e0 :: skipn 1 row'] ->
  (1 <= length row')%nat -> (forall k s, 0 < k -> cell row' k s -> forall a l, s <> SList (a :: l)) -> changes d = Ok [].
Proof.
  intros E L T. unfold changes, changes_at. replace (lx ++ [row'; SDict e0 :: skipn 1 row']) with ((lx ++ [row']) ++ [SDict e0 :: skipn 1 row']) in E by now rewrite <- app_assoc.
  rewrite E, pyget_last. cbn [bind]. rewrite app_length, app_length. cbn [length].
  replace (Nat.eqb (length lx + 1 + 1) 1) with false by (symmetry; apply Nat.eqb_neq; lia).
  assert (PR : pyget ((lx ++ [row']) ++ [SDict e0 :: skipn 1 row']) (-1 - 1) = Ok row').
  { unfold pyget, pyidx. rewrite !app_length. cbn [length].
    replace ((0 <=? -1 - 1) && (-1 - 1 <? Z.of_nat (length lx + 1 + 1))) with false by lia.
    replace ((- Z.of_nat (length lx + 1 + 1) <=? -1 - 1) && (-1 - 1 <? 0)) with true by lia.
    replace (Z.to_nat (-1 - 1 + Z.of_nat (length lx + 1 + 1))) with (length lx) by lia.
    rewrite nth_error_app1 by (rewrite app_length; cbn; lia). rewrite nth_error_app2 by lia. now rewrite Nat.sub_diag. }
  rewrite PR. cbn [bind]. set (cur := SDict e0 :: skipn 1 row').
  assert (LC : length cur = length row') by (unfold cur; cbn [length]; rewrite skipn_length; lia).
  assert (SAME : forall k s, 0 < k -> cell cur k s <-> cell row' k s).
  { intros k s K. unfold cell, cur. replace (Z.to_nat k) with (S (Z.to_nat (k - 1))) by lia. cbn [nth_error].
    destruct row' as [|r0 rr]; [cbn in L; lia|]. cbn [skipn nth_error]. tauto. }
  assert (ALL : forall k, In k (nums cur) -> change_of cur row' k = Ok []).
  { intros k I. apply in_nums in I. unfold change_of, get_iref. destruct (pyget_range cur k) as [s C]; [lia|].
    assert (C' := C). apply SAME in C'; [|lia]. pose proof (T k s ltac:(lia) C') as TS.
    pose proof C as Cp. apply pyget_cell in Cp; [|lia]. rewrite Cp. cbn [bind]. pose proof C' as Cp'. apply pyget_cell in Cp'; [|lia].
    destruct s as [|e|[|a l]]; cbn [bind as_dict]; auto; [|destruct (TS a l); reflexivity].
    change (pyget cur 0) with (pyget (SDict e0 :: skipn 1 row') 0). rewrite (proj2 (pyget_cell (SDict e0 :: skipn 1 row') 0 (SDict e0) ltac:(lia))) by (split; [lia|reflexivity]).
    cbn [bind]. destruct (match n_xsn e0 with Some x => _ | None => _ end); auto.
    replace (Z.of_nat (length row') - 1 <? k) with false by lia. rewrite Cp'. cbn [bind slot_eqb].
    now rewrite (proj2 (ient_eqb_eq e e) eq_refl). }
  assert (M : forall l, (forall k, In k l -> change_of cur row' k = Ok []) -> exists r, map_res (change_of cur row') l = Ok r /\ concat r = []).
  { induction l as [|k l IH]; intro H; cbn [map_res]; [exists []; auto|]. rewrite (H k) by now left. cbn [bind].
    destruct IH as (r & Er & Cr); [intros; apply H; now right|]. rewrite Er. cbn [bind]. exists ([] :: r). auto. }
  destruct (M _ ALL) as (r & Er & Cr). rewrite Er. cbn [bind]. now rewrite Cr.
Qed.

Lemma read_merge p idx b s len : s <= idx -> read_at (PvMerge p idx b) s len = read_at p s len.
Proof. intro H. unfold read_at. cbn [run_prov]. now replace (idx <? s) with false by lia. Qed.
Lemma parse_merge p idx b e z : n_pos e = Some (AInt z) -> z <= idx -> parse_at (PvMerge p idx b) e = parse_at p e.
Proof.
  intros P L. unfold parse_at, entry_bytes, pos_int. rewrite P. cbn [bind]. destruct (of_opt _ (n_next e)) as [nx| |]; cbn [bind]; auto.
  now rewrite read_merge.
Qed.
Lemma revision_end l : forall x acc idx, revision_sum l acc = Ok idx -> committed_end (l ++ [x]) acc = match dt_cut x with Some c => c | None => idx end.
Proof.
  induction l as [|y l IH]; intros x acc idx H; cbn [revision_sum] in H.
  - injection H as <-. reflexivity.
  - assert (EQ : committed_end ((y :: l) ++ [x]) acc = committed_end (l ++ [x]) (match dt_cut y with Some c => c | None => acc + match dt_bdata y with Some b => blen b | None => 0 end end)).
    { cbn [app committed_end]. destruct l; reflexivity. }
    rewrite EQ. destruct (dt_cut y) as [c|]; [now apply IH|]. destruct (dt_bdata y) as [b|]; cbn [of_opt bind] in H; try discriminate. now apply IH.
Qed.
Lemma revision_index_end d dx dl idx : d_data d = dx ++ [dl] -> revision_index d = Ok idx -> dt_cut dl = None -> committed_end (d_data d) 0 = idx.
Proof.
  intros E H C. unfold revision_index in H. rewrite E in *. rewrite app_length in H. cbn [length] in H.
  replace (length dx + 1 - 1)%nat with (length dx) in H by lia. rewrite firstn_app, Nat.sub_diag, firstn_all in H. cbn [firstn] in H. rewrite app_nil_r in H.
  rewrite (revision_end dx dl 0 idx H). now rewrite C.
Qed.
Lemma committed_grows dx : forall acc dl dl' op, dt_cut dl' = dt_cut dl ->
  (dt_cut op = None) -> committed_end (dx ++ [dl]) acc <= committed_end (dx ++ [dl'; op]) acc.
Proof.
  induction dx as [|y dx IH]; intros acc dl dl' op E O.
  - cbn [app committed_end]. rewrite E, O. destruct (dt_cut dl); [lia|]. destruct (dt_bdata dl') as [b|]; [|lia]. unfold blen. lia.
  - cbn [app committed_end]. destruct dx as [|y2 dx]; cbn [app].
    + specialize (IH (match dt_cut y with Some c => c | None => acc + match dt_bdata y with Some b => blen b | None => 0 end end) dl dl' op E O). exact IH.
    + specialize (IH (match dt_cut y with Some c => c | None => acc + match dt_bdata y with Some b => blen b | None => 0 end end) dl dl' op E O). exact IH.
Qed.

Lemma cell_cons_skip {A} (x : A) (l : list A) k y : (1 <= length l)%nat -> 0 < k -> cell (x :: skipn 1 l) k y <-> cell l k y.
Proof.
  intros L K. unfold cell. replace (Z.to_nat k) with (S (Z.to_nat (k - 1))) by lia. cbn [nth_error].
  destruct l as [|r0 rr]; [cbn in L; lia|]. cbn [skipn nth_error]. tauto.
Qed.
Lemma pending_chg d chg n : changes d = Ok chg -> pending d n <-> In n (map chg_num chg).
Proof. intro H. split; [intros (c & E & I); congruence|eauto]. exists chg. auto. Qed.

(* the cells of the revision opened by commit *)
Definition same_or_written (d : doc) (k : Z) (s s' : slot) : Prop :=
  s' = s \/ exists e e', s = SDict e /\ s' = SDict e' /\ positioned e e' /\ (pending d k \/ first_xsn d = Ok (Some k)).

Lemma commit_row_cells row0 nb x0 row x : (1 <= length row0)%nat -> (truthy x0 = true -> exists z, x0 = Some z /\ (z = -1 \/ 0 < z)) ->
  (if truthy x0 then commit_row row0 nb x0 else Ok (row0, x0)) = Ok (row, x) ->
  (row = row0 /\ x = x0 /\ x0 <> Some (-1)) \/
  (x0 = Some (-1) /\ x = Some (Z.of_nat (length row0)) /\ length row = S (length row0) /\
   (exists e e1, cell row0 0 (SDict e) /\ cell row 0 (SDict e1) /\ n_xsn e1 = x /\
     forall k s, k <> 0 -> cell row k s <-> cell row0 k s \/ (k = Z.of_nat (length row0) /\ s = SDict (with_dver (Some (nb - 1)) (with_over (Some 0) (ient0 (Z.of_nat (length row0)) 0)))))).
Proof.
  intros R X H. destruct (truthy x0) eqn:T.
  - destruct (X eq_refl) as (z & -> & Hz). unfold commit_row in H.
    destruct (z =? -1) eqn:N; [apply Z.eqb_eq in N; subst z|apply Z.eqb_neq in N].
    + right. split; [auto|]. destruct (upd_slot _ 0 _) as [row'| |] eqn:E; cbn [bind] in H; try discriminate. injection H as <- <-.
      split; [auto|]. apply upd_slot_inv in E; [|lia]. destruct E as (e & C & -> & L). rewrite lset_length, app_length. cbn [length].
      split; [lia|].
      rewrite cell_snoc in C. destruct C as [C|[C _]]; [|lia].
      exists e, (with_xsn (Some (Z.of_nat (length row0))) e). split; [auto|]. split; [apply cell_lset; [rewrite app_length; cbn; lia|]; auto|]. split; [reflexivity|].
      intros k s K. rewrite cell_lset by (rewrite app_length; cbn; lia). rewrite cell_snoc. split; [intros [[-> _]|[_ ?]]; [congruence|auto]|auto].
    + injection H as <- <-. left. split; [auto|]. split; [auto|]. congruence.
  - injection H as <- <-. left. split; [auto|]. split; [auto|]. intros ->. discriminate T.
Qed.

Lemma first_app (lx : list (list slot)) row row' r : (lx <> [] -> pyget (lx ++ row' :: r) 0 = pyget (lx ++ [row]) 0) /\ (lx = [] -> pyget (lx ++ row' :: r) 0 = Ok row').
Proof. destruct lx as [|y lx]; split; intro; try congruence; reflexivity. Qed.

(* all about a commit that has something to do *)
Record committed_as (d d' : doc) (lx : list (list slot)) (row0 row' : list slot) (e0 : ient) (p p' : prov) : Prop := {
  ca_index : d_index d = lx ++ [row0];
  ca_index' : d_index d' = lx ++ [row'; SDict e0 :: skipn 1 row'];
  ca_len : length row' = length row0 \/ (first_xsn d = Ok (Some (-1)) /\ length row' = S (length row0));
  ca_cells : forall k s', 0 < k -> cell row' k s' ->
    (exists s, cell row0 k s /\ same_or_written d k s s') \/
    (first_xsn d = Ok (Some (-1)) /\ k = Z.of_nat (length row0) /\ exists e, s' = SDict e /\ n_env e = None);
  ca_cache : forall k v, 0 < k -> cell (d_cache d') k v <-> cell (d_cache d) k v;
  ca_prov : provider d p;
  ca_prov' : provider d' p';
  ca_disk : forall n, 0 < n -> on_disk d row0 n -> forall e, cell row0 n (SDict e) -> parse_at p' e = parse_at p e;
  ca_end : committed_end (d_data d) 0 <= committed_end (d_data d') 0;
  ca_e0 : n_env e0 = None;
  ca_clen : length (d_cache d') = length (d_cache d);
  ca_xsn : (first_xsn d' = first_xsn d /\ (first_xsn d = Ok (Some (-1)) -> lx <> [])) \/ (first_xsn d = Ok (Some (-1)) /\ first_xsn d' = Ok (Some (Z.of_nat (length row0))))
}.

Lemma commit_as d chg d' : changes d = Ok chg -> chg <> [] -> commit d = Ok d' ->
  (exists p, provider d p) ->
  (forall z, first_xsn d = Ok (Some z) -> 0 <= z \/ (z = -1 /\ length (d_index d) = 1%nat)) ->
  (forall row n e, open_row d row -> cell row n (SDict e) -> pending d n -> n_env e = None) ->
  exists lx row0 row' e0 p p', committed_as d d' lx row0 row' e0 p p'.
Proof.
  intros EC NE H [p P] RX RD. destruct (commit_inv d chg d' EC NE H) as (lx & row0 & t0 & x0 & row & x & dx & dl & dl' & row' & cache' & pe & t3 & fd & Ei & C0 & Ex & Erx & Ed & CL & PE & C3 & Ef & ED).
  destruct (changes_at_nums d (-1) chg EC) as (cur & Ecur & SS & FN). rewrite Ei, pyget_last in Ecur. injection Ecur as <-.
  assert (LR : (2 <= length row0)%nat).
  { destruct chg as [|c l]; [congruence|]. inversion FN; subst. lia. }
  assert (XP : truthy x0 = true -> exists z, x0 = Some z /\ (z = -1 \/ 0 < z)).
  { intro T. destruct x0 as [z|]; [|discriminate]. exists z. split; [auto|]. destruct (RX z Ex) as [A|[A _]]; [|auto].
    cbn [truthy] in T. destruct (Z.eqb_spec z 0); [discriminate|]. lia. }
  pose proof (commit_row_cells row0 _ x0 row x ltac:(lia) XP Erx) as RC.
  assert (Pd : dt_fdata dl = Some p).
  { destruct P as (l2 & y & E2 & F2). rewrite Ed in E2. apply app_inj_tail in E2. destruct E2 as [_ ->]. exact F2. }
  set (cache1 := lset (d_cache d) 0 (PDict (closing_trailer x0 (Z.of_nat (length row)) t0))) in *.
  pose proof (cell_range _ _ _ C0) as RC0.
  assert (CC1 : forall k v, 0 < k -> cell cache1 k v <-> cell (d_cache d) k v).
  { intros k v K. unfold cache1. change 0%nat with (Z.to_nat 0). rewrite cell_lset by lia. split; [intros [[? _]|[_ ?]]; [lia|auto]|intro; right; split; [lia|auto]]. }
  assert (NP : Forall (fun c => 1 <= num_of c) chg).
  { rewrite Forall_map in FN. eapply Forall_impl; [|exact FN]. intros c Hc. cbv beta in *. change (num_of c) with (chg_num c). lia. }
  assert (INP : forall c, In c chg -> pending d (num_of c)).
  { intros c I. exists chg. split; [auto|]. apply in_map_iff. exists c. auto. }
  assert (XT : truthy x = true -> exists z, x = Some z /\ 0 < z).
  { intro T. destruct RC as [(-> & -> & N1)|(-> & -> & _)].
    - destruct (XP T) as (z & -> & [->|?]); [congruence|eauto].
    - exists (Z.of_nat (length row0)). split; [auto|lia]. }
  assert (ROW : forall k s', 0 < k -> cell row k s' -> cell row0 k s' \/
            (first_xsn d = Ok (Some (-1)) /\ k = Z.of_nat (length row0) /\ exists e, s' = SDict e /\ n_env e = None)).
  { intros k s' K C. destruct RC as [(-> & _)|(-> & _ & _ & e & e1 & _ & _ & _ & Q)]; [auto|]. apply Q in C; [|lia].
    destruct C as [C|[-> ->]]; [auto|]. right. split; [auto|]. split; [auto|]. eexists. split; [reflexivity|reflexivity]. }
  assert (DIR : direct row chg).
  { intros c e I NDel C. assert (1 <= num_of c) by (rewrite Forall_forall in NP; auto).
    destruct (ROW (num_of c) (SDict e)) as [C'|(_ & _ & e2 & E2 & N2)]; [lia|auto| |].
    - rewrite (RD row0 (num_of c) e); auto. now exists lx.
    - injection E2 as <-. now rewrite N2. }
  assert (LROW : length row = length row0 \/ (first_xsn d = Ok (Some (-1)) /\ length row = S (length row0))).
  { destruct RC as [(-> & _)|(-> & _ & L & _)]; auto. }
  (* the cells of row' and the cache, in the three cases *)
  assert (KEY : length row' = length row /\ length cache' = length cache1 /\ (forall k s', 0 < k -> cell row' k s' -> exists s, cell row k s /\
                  (s' = s \/ exists e e', s = SDict e /\ s' = SDict e' /\ positioned e e' /\ (pending d k \/ (truthy x = true /\ x = Some k)))) /\
                (forall k v, 0 < k -> cell cache' k v <-> cell (d_cache d) k v) /\
                (forall s, cell row' 0 s -> s = at_num row 0 \/ exists e e', s = SDict e' /\ cell row 0 (SDict e) /\ n_xsn e' = n_xsn e)).
  { assert (BUILD : forall sp b ni c', build_revision_byte_stream chg row cache1 sp x = Ok (b, ni, c') ->
       length ni = length row /\ length c' = length cache1 /\ (forall k s', 0 < k -> cell ni k s' -> exists s, cell row k s /\
                  (s' = s \/ exists e e', s = SDict e /\ s' = SDict e' /\ positioned e e' /\ (pending d k \/ (truthy x = true /\ x = Some k)))) /\
                (forall k v, 0 < k -> cell c' k v <-> cell (d_cache d) k v) /\
                (forall s, cell ni 0 s -> s = at_num row 0 \/ exists e e', s = SDict e' /\ cell row 0 (SDict e) /\ n_xsn e' = n_xsn e)).
    { intros sp b ni c' EB. destruct (build_cells _ _ _ _ _ _ _ _ NP DIR XT EB) as (B1 & B2 & B3 & (u & u' & Cu & Cu' & Xu) & B4 & B5 & _).
      split; [auto|]. split; [auto|]. split; [|split].
      - intros k s' K C. destruct (B4 k s' ltac:(lia) C) as (s & Cs & [M|(T & XK & e & e' & -> & -> & PO)]).
        + exists s. split; [auto|]. destruct M as [->|(c & e & e' & I & Nc & _ & -> & -> & PO)]; [now left|]. right. exists e, e'.
          split; [auto|]. split; [auto|]. split; [auto|]. left. rewrite <- Nc. auto.
        + exists (SDict e). split; [auto|]. right. exists e, e'. split; [reflexivity|]. split; [reflexivity|]. split; [exact PO|]. right. auto.
      - intros k v K. rewrite (B5 k v) by lia. now apply CC1.
      - intros s C. right. exists u, u'. rewrite (cell_fun _ _ _ _ C Cu'). auto. }
    destruct CL as [c Ecut|v b ni c' Ecut L1 EB|idx b ni c' q Ecut L1 EI EB Eq NB].
    - split; [auto|]. split; [auto|]. split; [intros k s' K C; exists s'; auto|]. split; [auto|]. intros s C. left. symmetry. apply at_num_cell; [lia|auto].
    - apply (BUILD _ _ _ _ EB).
    - apply (BUILD _ _ _ _ EB). }
  destruct KEY as (KL & KZ & KC & KH & K0).
  exists lx, row0, row', (revision_entry d x0), p, fd. subst d'. constructor; cbn [d_index d_cache d_data].
  - exact Ei.
  - reflexivity.
  - rewrite KL. exact LROW.
  - intros k s' K C. destruct (KC k s' K C) as (s & Cs & W). destruct (ROW k s K Cs) as [Cr|(X1 & -> & e & -> & Ne)].
    + left. exists s. split; [auto|]. destruct W as [->|(e & e' & -> & -> & PO & PX)]; [now left|]. right. exists e, e'.
      split; [auto|]. split; [auto|]. split; [auto|]. destruct PX as [PX|[T XK]]; [auto|]. right.
      destruct RC as [(-> & -> & _)|(-> & E & _)]; [congruence|]. pose proof (cell_range _ _ _ Cr). exfalso. rewrite E in XK. injection XK as XK. lia.
    + right. split; [auto|]. split; [auto|]. destruct W as [->|(e1 & e' & X2 & -> & PO & PX)]; [eauto|]. injection X2 as <-.
      exists e'. split; [auto|]. destruct (positioned_fields _ _ PO) as (_ & Q & _). congruence.
  - intros k v K. rewrite <- (KH k v K). pose proof (cell_range _ _ _ C3). change 0%nat with (Z.to_nat 0). rewrite cell_lset by lia.
    split; [intros [[? _]|[_ ?]]; [lia|auto]|intro; right; split; [lia|auto]].
  - exact P.
  - exists (dx ++ [dl']), (mk_datum None None (Some fd)). split; [now rewrite <- app_assoc|reflexivity].
  - intros n N (e1 & z & _ & C1 & PZ & LE & NPn & NX) e C. pose proof (cell_fun _ _ _ _ C1 C) as E1. injection E1 as ->. clear C1.
    destruct CL as [c Ecut|v b ni c' Ecut L1 EB|idx b ni c' q Ecut L1 EI EB Eq NB].
    + congruence.
    + exfalso. apply NPn. exists chg. split; [auto|]. apply (changes_first_all d chg row0 n e); auto. rewrite Ei in *.
      destruct lx; [auto|]. rewrite app_length in L1. cbn in L1. lia.
    + injection Ef as <-. rewrite Eq in Pd. injection Pd as ->. apply (parse_merge p idx b e z PZ).
      now rewrite (revision_index_end d dx dl idx Ed EI Ecut) in LE.
  - rewrite Ed. apply committed_grows; [|reflexivity]. destruct CL; cbn [dt_cut]; congruence.
  - reflexivity.
  - rewrite lset_length, KZ. unfold cache1. apply lset_length.
  - unfold first_xsn at 1 5. cbn [d_index]. destruct lx as [|y lx].
    + cbn [app] in *. change (pyget [row'; SDict (revision_entry d x0) :: skipn 1 row'] 0) with (@Ok (list slot) row'). cbn [bind].
      unfold first_xsn in Ex. rewrite Ei in Ex. change (pyget [row0] 0) with (@Ok (list slot) row0) in Ex. cbn [bind] in Ex.
      destruct (pyget_range row' 0) as [s C]; [lia|].
      assert (RZ : cell row 0 (at_num row 0)) by (apply at_num_in; lia).
      assert (FX : forall e, cell row 0 (SDict e) -> (n_xsn e = x0 /\ x0 <> Some (-1)) \/ (x0 = Some (-1) /\ n_xsn e = Some (Z.of_nat (length row0)))).
      { intros e Ce. destruct RC as [(-> & -> & NM)|(-> & -> & _ & e1 & e2 & Q1 & Q2 & Q3 & _)].
        - apply pyget_cell in Ce; [|lia]. rewrite Ce in Ex. cbn [bind] in Ex. injection Ex as ->. auto.
        - right. split; [auto|]. pose proof (cell_fun _ _ _ _ Ce Q2) as E2. injection E2 as ->. exact Q3. }
      pose proof C as Cp. apply pyget_cell in Cp; [|lia]. rewrite Cp. cbn [bind].
      assert (FIN : forall e', s = SDict e' -> ((n_xsn e' = x0 /\ x0 <> Some (-1)) \/ (x0 = Some (-1) /\ n_xsn e' = Some (Z.of_nat (length row0))))).
      { intros e' ->. destruct (K0 _ C) as [E|(e & e2 & E & Ce & X2)].
        - apply FX. rewrite E. exact RZ.
        - injection E as ->. rewrite X2. apply FX. exact Ce. }
      assert (EX : first_xsn d = Ok x0).
      { unfold first_xsn. rewrite Ei. change (pyget [row0] 0) with (@Ok (list slot) row0). exact Ex. }
      rewrite EX.
      assert (NL : forall l, s = SList l -> cell row0 0 (SList l)).
      { intros l ->. destruct (K0 _ C) as [E|(e & e2 & E & Ce & X2)]; [|discriminate].
        destruct RC as [(-> & _)|(_ & _ & _ & e1 & e2 & _ & Q2 & _)]; [rewrite E; exact RZ|].
        rewrite <- E in RZ. pose proof (cell_fun _ _ _ _ RZ Q2). discriminate. }
      destruct s as [|e'|l].
      * exfalso. destruct PE as [PE|(l & PE & _)]; pose proof (cell_fun _ _ _ _ C PE); discriminate.
      * destruct (FIN e' eq_refl) as [[E NM]|[E1 E]]; rewrite E; [left; split; [auto|congruence]|right]. subst x0. auto.
      * left. pose proof (NL l eq_refl) as C00. split.
        -- apply pyget_cell in C00; [|lia]. rewrite C00 in Ex. cbn [bind] in Ex. exact Ex.
        -- intro X1. injection X1 as ->. destruct RC as [(_ & _ & NM)|(_ & _ & _ & e1 & e2 & Q1 & _)]; [congruence|].
           pose proof (cell_fun _ _ _ _ C00 Q1). discriminate.
    + left. split; [|discriminate]. unfold first_xsn. rewrite Ei. reflexivity.
Qed.

Lemma open_two d lx row' r : d_index d = lx ++ [row'; r] -> forall row, open_row d row <-> row = r.
Proof.
  intros E row. replace (lx ++ [row'; r]) with ((lx ++ [row']) ++ [r]) in E by now rewrite <- app_assoc. split.
  - intros [l El]. rewrite E in El. now apply app_inj_tail in El.
  - intros ->. now exists (lx ++ [row']).
Qed.

Theorem commit_ready d chg d' : ready d -> (exists p, provider d p) -> changes d = Ok chg -> chg <> [] -> commit d = Ok d' ->
  (exists lx row row' last, d_index d = lx ++ [row] /\ d_index d' = lx ++ [row'; last]) /\
  changes d' = Ok [] /\ commit d' = Ok d' /\ ready d' /\ (exists p, provider d' p) /\
  forall row k, open_row d row -> 0 < k < Z.of_nat (length row) -> first_xsn d <> Ok (Some k) -> value d' k = value d k.
Proof.
  intros [CO RX RD RU RS] P EC NE H.
  destruct (commit_as d chg d' EC NE H P RX RD) as (lx & row0 & row' & e0 & p & p' & [Ei Ei' LN CE CC PP PP' DK GE E0 CLN XS]).
  assert (LR : (2 <= length row0)%nat).
  { destruct (changes_at_nums d (-1) chg EC) as (cur & Ecur & _ & FN). rewrite Ei, pyget_last in Ecur. injection Ecur as <-.
    destruct chg as [|c l]; [congruence|]. inversion FN; subst. lia. }
  assert (LR' : (2 <= length row')%nat) by lia.
  assert (O : open_row d row0) by now exists lx.
  set (row2 := SDict e0 :: skipn 1 row') in *.
  assert (O' : open_row d' row2) by (apply (open_two _ _ _ _ Ei'); reflexivity).
  assert (R2 : forall k s, 0 < k -> cell row2 k s <-> cell row' k s) by (intros; apply cell_cons_skip; lia).
  assert (EC' : changes d' = Ok []).
  { apply (changes_none d' lx row' e0 Ei' ltac:(lia)). intros k s K C a l ->. destruct (CE k _ K C) as [(s & Cs & [E|(e & e' & _ & E & _)])|(_ & _ & e & E & _)]; try discriminate.
    subst s. exact (changes_cells d chg lx row0 EC Ei k _ K Cs a l eq_refl). }
  assert (NOP : forall k, ~ pending d' k).
  { intros k (c & E & I). rewrite EC' in E. injection E as <-. exact I. }
  (* cells back *)
  assert (BACK : forall k s', 0 < k < Z.of_nat (length row0) -> cell row' k s' -> exists s, cell row0 k s /\ same_or_written d k s s').
  { intros k s' K C. destruct (CE k s' ltac:(lia) C) as [X|(_ & -> & _)]; [auto|lia]. }
  assert (KEEP : forall k e, 0 < k -> on_disk d row0 k -> cell row0 k (SDict e) -> cell row' k (SDict e)).
  { intros k e K (e1 & z & _ & C1 & _ & _ & NP & NX) C. pose proof (cell_range _ _ _ C). destruct (pyget_range row' k) as [s' C']; [lia|].
    destruct (BACK k s' ltac:(lia) C') as (s & Cs & [->|(a & b & _ & _ & _ & [PE|XE])]); [|contradiction|contradiction].
    now rewrite (cell_fun _ _ _ _ C Cs). }
  assert (ENTRY : forall k e', 0 < k < Z.of_nat (length row0) -> cell row' k (SDict e') -> exists e, cell row0 k (SDict e) /\ n_del e' = n_del e /\ n_env e' = n_env e).
  { intros k e' K C. destruct (BACK k _ K C) as (s & Cs & [<-|(a & b & -> & E & PO & _)]); [eauto|]. injection E as <-.
    exists a. split; [auto|]. destruct (positioned_fields _ _ PO) as (? & ? & _). auto. }
  assert (FWD : forall k e, 0 < k -> cell row0 k (SDict e) -> exists e', cell row' k (SDict e') /\ n_del e' = n_del e /\ n_env e' = n_env e).
  { intros k e K C. pose proof (cell_range _ _ _ C). destruct (pyget_range row' k) as [s' C']; [lia|].
    destruct (BACK k s' ltac:(lia) C') as (s & Cs & [->|(a & b & -> & -> & PO & _)]).
    - exists e. rewrite (cell_fun _ _ _ _ C Cs). auto.
    - pose proof (cell_fun _ _ _ _ C Cs) as X. injection X as ->. exists b. destruct (positioned_fields _ _ PO) as (? & ? & _). auto. }
  assert (DISK2 : forall n, 0 < n -> on_disk d row0 n -> on_disk d' row2 n).
  { intros n N OD. pose proof OD as (e & z & PN0 & C & PZ & LE & NP & NX). exists e, z. split; [exact PN0|]. split; [apply R2; auto|]. split; [auto|]. split; [lia|]. split; [apply NOP|].
    destruct XS as [[-> _]|[E1 ->]]; [auto|]. intro X. injection X as X. pose proof (cell_range _ _ _ C). lia. }
  assert (INT : forall c, on_disk d row0 c -> stream_intact row0 p (d_cache d) c -> stream_intact row2 p' (d_cache d') c).
  { intros c OD (ce & sd & st & en & l & C0 & C1 & D1 & V1 & PA & PO & CA & FA).
    exists ce, sd, st, en, l. split; [auto|]. split; [apply R2; auto|]. split; [auto|]. split; [auto|].
    split; [rewrite (DK c C0 OD ce C1); auto|]. split; [auto|]. split; [rewrite !CC by auto; auto|].
    eapply Forall_impl; [|exact FA]. cbv beta. intros y (n & ne & v & E1 & N0 & Cn & Dn & Vn & Cv & MV).
    destruct (FWD n ne N0 Cn) as (ne' & Cn' & D2 & V2). exists n, ne', v. split; [auto|]. split; [auto|]. split; [apply R2; auto|].
    split; [congruence|]. split; [congruence|]. split; [apply CC; auto|auto]. }
  (* entries of the new row that are embedded *)
  assert (RANGE : forall k e', 0 < k -> cell row' k (SDict e') -> n_env e' <> None -> k < Z.of_nat (length row0)).
  { intros k e' K C NV. destruct (CE k _ K C) as [(s & Cs & _)|(_ & -> & e & E & N0)]; [pose proof (cell_range _ _ _ Cs); lia|congruence]. }
  assert (C' : coherent d').
  { intros row q Or Oq n e c Cn Dn Vn. apply (open_two _ _ _ _ Ei') in Or. subst row. rewrite (provider_fun _ _ _ Oq PP').
    destruct (Z.eq_dec n 0) as [->|N].
    - destruct Cn as [_ Cn]. cbn in Cn. injection Cn as <-. congruence.
    - pose proof (proj1 Cn). apply R2 in Cn; [|lia]. pose proof (RANGE n e ltac:(lia) Cn ltac:(congruence)).
      destruct (ENTRY n e ltac:(lia) Cn) as (e1 & C1 & D1 & V1). apply INT.
      + apply (RS row0 n e1 c); auto; congruence.
      + apply (CO row0 p O PP n e1 c); auto; congruence. }
  split; [exists lx, row0, row', row2; auto|]. split; [exact EC'|]. split; [unfold commit; rewrite EC'; reflexivity|].
  split; [constructor|split; [eauto|]].
  - exact C'.
  - intros z Z0. destruct XS as [[E LX]|[E1 E]]; [|left; rewrite E in Z0; injection Z0 as <-; lia].
    rewrite E in Z0. destruct (RX z Z0) as [A|[-> L1]]; [auto|]. exfalso. apply (LX Z0). rewrite Ei, app_length in L1. cbn in L1. destruct lx; [auto|cbn in L1; lia].
  - intros row n e _ _ PN. destruct (NOP n PN).
  - intros row n e Or N NX Cn Dn Vn Cv. apply (open_two _ _ _ _ Ei') in Or. subst row. apply R2 in Cn; [|auto]. apply CC in Cv; [|auto].
    destruct (CE n _ N Cn) as [(s & Cs & SW)|(X1 & -> & _)].
    + apply DISK2; [auto|]. assert (NX0 : first_xsn d <> Ok (Some n)).
      { destruct XS as [[E _]|[E _]]; [congruence|]. rewrite E. intro X. injection X as X. lia. }
      destruct SW as [<-|(a & b & -> & E & PO & _)].
      * apply (RU row0 n e); auto.
      * injection E as <-. destruct (positioned_fields _ _ PO) as (Q1 & Q2 & _). apply (RU row0 n a); auto; congruence.
    + exfalso. destruct XS as [[E LX]|[_ E]]; [|congruence]. destruct (RX _ X1) as [A|[_ L1]]; [lia|]. apply (LX X1). rewrite Ei, app_length in L1. cbn in L1. destruct lx; [auto|cbn in L1; lia].
  - intros row n e c Or Cn Dn Vn. apply (open_two _ _ _ _ Ei') in Or. subst row. destruct (Z.eq_dec n 0) as [->|N].
    + destruct Cn as [_ Cn]. cbn in Cn. injection Cn as <-. congruence.
    + pose proof (proj1 Cn). apply R2 in Cn; [|lia]. pose proof (RANGE n e ltac:(lia) Cn ltac:(congruence)).
      destruct (ENTRY n e ltac:(lia) Cn) as (e1 & C1 & D1 & V1).
      assert (I1 : stream_intact row0 p (d_cache d) c) by (apply (CO row0 p O PP n e1 c); auto; congruence).
      apply DISK2; [destruct I1 as (ce & sd & st & en & l & C0 & _); auto|]. apply (RS row0 n e1 c); auto; congruence.
  - intros row k Or K NX. rewrite (open_fun _ _ _ Or O) in K.
    rewrite (value_is d' k row2 p'), (value_is d k row0 p); auto; try lia.
    unfold value_of. destruct (pyget_range row2 k) as [s' C2].
    { unfold row2. cbn [length]. rewrite skipn_length. lia. }
    pose proof C2 as Cr. apply R2 in Cr; [|lia]. destruct (BACK k s' K Cr) as (s & Cs & SW).
    pose proof C2 as Cp2. apply pyget_cell in Cp2; [|lia]. pose proof Cs as Cps. apply pyget_cell in Cps; [|lia].
    rewrite Cp2, Cps. cbn [bind].
    assert (DEL : deleted_in s' = deleted_in s).
    { destruct SW as [->|(a & b & -> & -> & PO & _)]; [auto|]. cbn. destruct (positioned_fields _ _ PO) as (Q1 & _). now rewrite Q1. }
    rewrite DEL. destruct (deleted_in s) as [del| |] eqn:Ed; cbn [bind]; auto.
    rewrite (cells_pyget (d_cache d) (d_cache d') k) by (try lia; intro; apply CC; lia).
    destruct (pyget (d_cache d) k) as [v| |] eqn:Ev; cbn [bind]; auto. destruct del; [auto|]. destruct v; cbn [is_none]; auto.
    apply pyget_cell in Ev; [|lia]. unfold disk. rewrite Cp2, Cps. cbn [bind]. replace (k =? 0) with false by lia.
    destruct s as [|e|l0]; [discriminate| |destruct SW as [->|(a & b & E & _)]; [reflexivity|discriminate]].
    cbn in Ed. injection Ed as Ed. destruct (n_env e) as [c|] eqn:Ve.
    + assert (I1 : stream_intact row0 p (d_cache d) c) by (apply (CO row0 p O PP k e c); auto).
      pose proof (RS row0 k e c O Cs Ed Ve) as OD. destruct I1 as (ce & sd & st & en & l & C0 & C1 & D1 & V1 & PA & PO1 & CA & FA).
      assert (exists e', s' = SDict e' /\ n_env e' = Some c) as (e' & -> & V').
      { destruct SW as [->|(a & b & E & -> & PO & _)]; [eauto|]. injection E as <-. exists b. destruct (positioned_fields _ _ PO) as (_ & Q2 & _). split; congruence. }
      rewrite V'. pose proof (KEEP c ce C0 OD C1) as CK. apply R2 in CK; [|lia]. apply pyget_cell in CK; [|lia]. rewrite CK.
      pose proof C1 as Cp1. apply pyget_cell in Cp1; [|lia]. rewrite Cp1. cbn [bind as_dict]. now rewrite (DK c C0 OD ce C1).
    + assert (OD : on_disk d row0 k) by (apply (RU row0 k e); auto; lia).
      pose proof (KEEP k e ltac:(lia) OD Cs) as CK. rewrite (cell_fun _ _ _ _ Cr CK). rewrite Ve. apply (DK k ltac:(lia) OD e Cs).
Qed.

(* ---------- sessions ---------- *)
Lemma change_of_ext cur prev cur' prev' i : pyget cur' i = pyget cur i -> pyget cur' 0 = pyget cur 0 ->
  pyget prev' i = pyget prev i -> (Z.of_nat (length prev') - 1 <? i) = (Z.of_nat (length prev) - 1 <? i) ->
  change_of cur' prev' i = change_of cur prev i.
Proof. intros A1 A2 A3 A4. unfold change_of, get_iref. now rewrite A1, A2, A3, A4. Qed.
Lemma change_of_dict cur prev cur' prev' i e y : 0 < i -> pyget cur i = Ok (SDict e) -> pyget cur' 0 = pyget cur 0 ->
  pyget prev' i = pyget prev i -> (Z.of_nat (length prev') - 1 <? i) = (Z.of_nat (length prev) - 1 <? i) ->
  (exists e', pyget cur' i = Ok (SDict e')) -> change_of cur' prev' i = Ok y -> exists y', change_of cur prev i = Ok y'.
Proof.
  intros I E A2 A3 A4 [e' E'] H. unfold change_of, get_iref in *. rewrite E. rewrite E', A2, A3, A4 in H. cbn [bind as_dict] in *.
  destruct (pyget cur 0) as [c0| |]; cbn [bind] in *; try discriminate.
  destruct (match c0 with SNone => _ | _ => _ end) as [xs| |]; cbn [bind] in *; try discriminate.
  destruct xs; [eauto|]. destruct (Z.of_nat (length prev) - 1 <? i); [eauto|]. destruct (pyget prev i) as [pp| |]; cbn [bind] in *; try discriminate.
  destruct (slot_eqb pp (SDict e)); [eauto|]. destruct pp as [|ep|lp]; cbn; eauto.
Qed.
Lemma map_res_all {A C} (f : A -> res C) l : (forall x, In x l -> exists y, f x = Ok y) -> exists r, map_res f l = Ok r.
Proof.
  induction l as [|a l IH]; intro H; cbn [map_res]; [eauto|]. destruct (H a (or_introl eq_refl)) as [y E]. rewrite E. cbn [bind].
  destruct IH as [r Er]; [intros; apply H; now right|]. rewrite Er. cbn [bind]. eauto.
Qed.
Lemma in_concat_nums cur prev r k : map_res (change_of cur prev) (nums cur) = Ok r -> In k (map chg_num (concat r)) ->
  1 <= k < Z.of_nat (length cur) /\ exists y c, change_of cur prev k = Ok y /\ In c y.
Proof.
  intros M I. apply in_map_iff in I. destruct I as (c & <- & I).
  assert (ALL : forall x, In x (nums cur) -> exists y, change_of cur prev x = Ok y).
  { intros x X. destruct (map_res_in _ _ _ M x X) as (y & E & _). eauto. }
  destruct (map_res_concat (change_of cur prev) (nums cur) ALL) as (r' & Er' & SP). rewrite M in Er'. injection Er' as <-.
  apply SP in I. destruct I as (x & y & X & E & IY). assert (chg_num c = x) as ->.
  { destruct (change_of_shape _ _ _ _ E) as [->|(g & a & ->)]; [destruct IY|]. destruct IY as [<-|[]]. reflexivity. }
  split; [apply in_nums in X; lia|]. eauto.
Qed.

Lemma changes_transfer d d' lx row row' chg' : d_index d = lx ++ [row] -> d_index d' = lx ++ [row'] ->
  (length row <= length row')%nat -> pyget row' 0 = pyget row 0 ->
  (forall i, 0 < i < Z.of_nat (length row) -> pyget row' i = pyget row i \/ exists e e', pyget row i = Ok (SDict e) /\ pyget row' i = Ok (SDict e')) ->
  changes d' = Ok chg' ->
  exists chg, changes d = Ok chg /\ forall k, 0 < k < Z.of_nat (length row) -> pyget row' k = pyget row k -> In k (map chg_num chg') -> In k (map chg_num chg).
Proof.
  intros E E' L Z0 CE H. unfold changes, changes_at in *. rewrite E, E' in *. rewrite pyget_last in *. cbn [bind] in *.
  rewrite app_length in *. cbn [length] in *.
  assert (exists prev prev', (if Nat.eqb (length lx + 1) 1 then Ok (repeat SNone (length row')) else pyget (lx ++ [row']) (-1 - 1)) = Ok prev' /\
     (if Nat.eqb (length lx + 1) 1 then Ok (repeat SNone (length row)) else pyget (lx ++ [row]) (-1 - 1)) = Ok prev /\
     forall i, 0 < i < Z.of_nat (length row) -> pyget prev' i = pyget prev i /\ (Z.of_nat (length prev') - 1 <? i) = (Z.of_nat (length prev) - 1 <? i)) as (prev & prev' & P' & P & PS).
  { destruct (Nat.eqb (length lx + 1) 1) eqn:EL.
    - do 2 eexists. split; [reflexivity|]. split; [reflexivity|]. intros i I. rewrite !repeat_length. split; [|lia].
      transitivity (Ok SNone); [|symmetry]; apply pyget_cell; try lia; (split; [lia|apply nth_error_repeat; lia]).
    - assert (EQ : pyget (lx ++ [row']) (-1 - 1) = pyget (lx ++ [row]) (-1 - 1)).
      { apply Nat.eqb_neq in EL. unfold pyget, pyidx. rewrite !app_length. cbn [length].
        replace ((0 <=? -1 - 1) && (-1 - 1 <? Z.of_nat (length lx + 1))) with false by lia.
        replace ((- Z.of_nat (length lx + 1) <=? -1 - 1) && (-1 - 1 <? 0)) with true by lia.
        rewrite !nth_error_app1 by lia. reflexivity. }
      rewrite EQ in *. destruct (pyget (lx ++ [row]) (-1 - 1)) as [prev| |]; cbn [bind] in H; try discriminate.
      exists prev, prev. split; [auto|]. split; [auto|]. auto. }
  rewrite P' in H. rewrite P. cbn [bind] in *. destruct (map_res _ (nums row')) as [r'| |] eqn:M'; cbn [bind] in H; try discriminate. injection H as <-.
  assert (ALL' : forall x, In x (nums row') -> exists y, change_of row' prev' x = Ok y).
  { intros x X. destruct (map_res_in _ _ _ M' x X) as (y & EY & _). eauto. }
  destruct (map_res_all (change_of row prev) (nums row)) as [r M].
  { intros x X. apply in_nums in X. destruct (ALL' x) as [y EY]; [apply in_nums; lia|]. destruct (PS x ltac:(lia)) as [Q1 Q2].
    destruct (CE x ltac:(lia)) as [S|(e & e' & S & S')].
    - exists y. rewrite <- EY. symmetry. now apply change_of_ext.
    - apply (change_of_dict row prev row' prev' x e y); auto; [lia|eauto]. }
  rewrite M. cbn [bind]. exists (concat r). split; [auto|]. intros k K S I.
  destruct (in_concat_nums _ _ _ _ M' I) as (_ & y & c & EY & IC). destruct (PS k ltac:(lia)) as [Q1 Q2].
  rewrite (change_of_ext row prev row' prev' k) in EY by auto.
  destruct (map_res_in _ _ _ M k) as (y2 & E2 & IN); [apply in_nums; lia|]. rewrite EY in E2. injection E2 as <-.
  apply in_map_iff. exists c. split; [|auto]. destruct (change_of_shape _ _ _ _ EY) as [->|(g & a & ->)]; [destruct IC|]. destruct IC as [<-|[]]. reflexivity.
Qed.

Lemma ready_read d g n v d1 : ready d -> 0 <= n -> get_object d (PRef g n) = Ok (v, d1) -> ready d1 /\ d_index d1 = d_index d /\ d_data d1 = d_data d /\ length (d_cache d1) = length (d_cache d).
Proof.
  intros [CO RX RD RU RS] N G. destruct (get_object_step d g n v d1 N CO G) as (row & p & O & P & E & [L F] & _).
  assert (EI : d_index d1 = d_index d) by (rewrite E; reflexivity). assert (ED : d_data d1 = d_data d) by (rewrite E; reflexivity).
  assert (EX : first_xsn d1 = first_xsn d) by (unfold first_xsn; now rewrite EI).
  assert (EP : forall k, pending d1 k <-> pending d k) by (intro k; unfold pending, changes, changes_at; rewrite EI; tauto).
  assert (EO : forall r, open_row d1 r <-> open_row d r) by (intro r; unfold open_row; rewrite EI; tauto).
  assert (OD : forall r k, on_disk d r k -> on_disk d1 r k).
  { intros r k (e & z & PN0 & C & PZ & LE & NP & NX). exists e, z. rewrite ED, EP, EX. tauto. }
  split; [|auto]. constructor.
  - rewrite E. apply (coherent_filled d row p); auto. split; auto.
  - intros z. rewrite EX, EI. apply RX.
  - intros r k e. rewrite EO, EP. apply RD.
  - intros r k e. rewrite EO, EX. intros Or K NX C De Ve Cv. apply OD. apply (RU r k e); auto.
    destruct (F _ _ Cv) as (x & Cx & [<-|(-> & _)]); auto.
  - intros r k e c. rewrite EO. intros Or C De Ve. apply OD. apply (RS r k e c); auto.
Qed.

Lemma ready_update d n o d1 : ready d -> 0 < n -> update_object d n o = Ok d1 ->
  (forall row e, open_row d row -> cell row n (SDict e) -> n_env e = None) ->
  (forall row k e, open_row d row -> cell row k (SDict e) -> n_del e = false -> n_env e <> Some n) ->
  ready d1.
Proof.
  intros [CO RX RD RU RS] N U H1 H2. pose proof (update_coherent d n o d1 N U CO H1 H2) as CO1.
  destruct (update_inv d n o d1) as (lx & row & old & ov & El & Ce & Eo & RC & ->); [lia|auto|].
  set (e1 := with_del _ _) in *. set (row1 := lset row (Z.to_nat n) (SDict e1)) in *. set (d1 := mk_doc _ _ _) in *.
  pose proof (cell_range _ _ _ Ce) as RN.
  assert (O : open_row d row) by now exists lx.
  assert (OP1 : forall r, open_row d1 r -> r = row1).
  { intros r [l2 E2]. cbn [d_index d1] in E2. now apply app_inj_tail in E2. }
  assert (CL : forall k s, k <> n -> cell row1 k s <-> cell row k s).
  { intros k s K. unfold row1. rewrite cell_lset by lia. split; [intros [[? _]|[_ ?]]; [congruence|auto]|auto]. }
  assert (CN : cell row1 n (SDict e1)) by (unfold row1; rewrite cell_lset by lia; auto).
  assert (EX : first_xsn d1 = first_xsn d).
  { unfold first_xsn. cbn [d_index d1]. rewrite El. destruct lx as [|y lx]; [|reflexivity]. cbn [app].
    change (pyget [row1] 0) with (@Ok (list slot) row1). change (pyget [row] 0) with (@Ok (list slot) row). cbn [bind].
    rewrite (cells_pyget row row1 0) by (try lia; intro; apply CL; lia). reflexivity. }
  assert (LR1 : length row1 = length row) by apply lset_length.
  assert (PE : forall k, 0 <= k -> k <> n -> pending d1 k -> pending d k).
  { intros k K KN (chg' & E' & I). destruct (changes_transfer d d1 lx row row1 chg') as (chg & EC & T); auto; try lia.
    - apply cells_pyget; [lia|]. intro. apply CL. lia.
    - intros i HI. destruct (Z.eq_dec i n) as [->|NI]; [right|left; apply cells_pyget; [lia|]; intro; now apply CL].
      exists old, e1. split; apply pyget_cell; auto; lia.
    - exists chg. split; [auto|]. destruct (changes_at_nums d1 (-1) chg' E') as (cur & Ecur & _ & FN). cbn [d_index d1] in Ecur. rewrite pyget_last in Ecur. injection Ecur as <-.
      rewrite Forall_forall in FN. specialize (FN k I). apply T; auto; [lia|]. apply cells_pyget; [lia|]. intro. now apply CL. }
  assert (OD : forall k, 0 < k -> k <> n -> on_disk d row k -> on_disk d1 row1 k).
  { intros k K KN (e & z & PN0 & C & PZ & LE & NP & NX). exists e, z. split; [exact PN0|]. split; [apply CL; auto|]. split; [auto|]. split; [exact LE|].
    split; [intro X; apply NP, PE; auto; lia|]. now rewrite EX. }
  constructor; auto.
  - intros z. rewrite EX. cbn [d_index d1]. replace (length (lx ++ [row1])) with (length (d_index d)); [apply RX|]. rewrite El, !app_length. reflexivity.
  - intros r k e Or C PN. rewrite (OP1 r Or) in C. destruct (Z.eq_dec k n) as [->|KN].
    + pose proof (cell_fun _ _ _ _ C CN) as X. injection X as ->. reflexivity.
    + apply CL in C; [|auto]. apply (RD row k e); auto. apply PE; auto. apply (proj1 C).
  - intros r k e Or K NX C De Ve Cv. rewrite (OP1 r Or) in *. cbn [d_cache d1] in Cv. rewrite cell_lset in Cv by lia.
    destruct (Z.eq_dec k n) as [->|KN].
    + exfalso. destruct Cv as [[_ Ev]|[? _]]; [|congruence]. pose proof (cell_fun _ _ _ _ C CN) as X. injection X as ->.
      unfold e1 in De. cbn in De. rewrite <- Ev in De. discriminate.
    + destruct Cv as [[? _]|[_ Cv]]; [congruence|]. apply CL in C; [|auto]. apply OD; auto. apply (RU row k e); auto. now rewrite <- EX.
  - intros r k e c Or C De Ve. rewrite (OP1 r Or) in *. destruct (Z.eq_dec k n) as [->|KN].
    + pose proof (cell_fun _ _ _ _ C CN) as X. injection X as ->. discriminate Ve.
    + apply CL in C; [|auto]. assert (c <> n) by (intros ->; exact (H2 row k e O C De Ve)).
      pose proof (RS row k e c O C De Ve) as ODc. apply OD; auto. destruct ODc as (e2 & z2 & C2 & _). exact C2.
Qed.

Lemma ready_add d o d1 r : ready d -> add_object d o = Ok (d1, r) -> (forall row, open_row d row -> length (d_cache d) = length row) ->
  (forall row, open_row d row -> (1 <= length row)%nat) -> (exists p, provider d p) -> o <> PNone -> ready d1 /\ (forall row, open_row d1 row -> length (d_cache d1) = length row).
Proof.
  intros [CO RX RD RU RS] A LC L1 P NO. destruct (add_fresh d o d1 r A LC P CO NO) as (_ & _ & _ & _ & _ & _ & CO1 & _).
  destruct (add_inv d o d1 r A) as (lx & row & El & LE & -> & ->). specialize (L1 row (ex_intro _ lx El)).
  assert (O : open_row d row) by now exists lx. specialize (LC row O).
  set (e1 := with_dver _ _) in *. set (row1 := row ++ [SDict e1]) in *. set (d1 := mk_doc _ _ _) in *.
  assert (OP1 : forall r, open_row d1 r -> r = row1).
  { intros r [l2 E2]. cbn [d_index d1] in E2. now apply app_inj_tail in E2. }
  assert (CL : forall k s, k <> Z.of_nat (length row) -> cell row1 k s <-> cell row k s).
  { intros k s K. unfold row1. rewrite cell_snoc. split; [intros [?|[? _]]; [auto|congruence]|auto]. }
  assert (CN : forall e, cell row1 (Z.of_nat (length row)) (SDict e) -> e = e1).
  { intros e C. unfold row1 in C. rewrite cell_snoc in C. destruct C as [C|[_ C]]; [pose proof (cell_range _ _ _ C); lia|congruence]. }
  assert (EX : first_xsn d1 = first_xsn d).
  { unfold first_xsn. cbn [d_index d1]. rewrite El. destruct lx as [|y lx]; [|reflexivity]. cbn [app].
    change (pyget [row1] 0) with (@Ok (list slot) row1). change (pyget [row] 0) with (@Ok (list slot) row). cbn [bind].
    rewrite (cells_pyget row row1 0) by (try lia; intro; apply CL; lia). reflexivity. }
  assert (PE : forall k, 0 <= k < Z.of_nat (length row) -> pending d1 k -> pending d k).
  { intros k K (chg' & E' & I). destruct (changes_transfer d d1 lx row row1 chg') as (chg & EC & T); auto; try lia.
    - unfold row1. rewrite app_length. lia.
    - apply cells_pyget; [lia|]. intro. apply CL. lia.
    - intros i HI. left. apply cells_pyget; [lia|]. intro. apply CL. lia.
    - exists chg. split; [auto|]. destruct (changes_at_nums d1 (-1) chg' E') as (cur & Ecur & _ & FN). cbn [d_index d1] in Ecur. rewrite pyget_last in Ecur. injection Ecur as <-.
      rewrite Forall_forall in FN. specialize (FN k I). apply T; auto; [lia|]. apply cells_pyget; [lia|]. intro. apply CL. lia. }
  assert (OD : forall k, on_disk d row k -> on_disk d1 row1 k).
  { intros k (e & z & PN0 & C & PZ & LD & NP & NX). pose proof (cell_range _ _ _ C). exists e, z. split; [exact PN0|]. split; [apply CL; [lia|auto]|]. split; [auto|]. split; [exact LD|].
    split; [intro X; apply NP, PE; auto; lia|]. now rewrite EX. }
  split; [constructor; auto|].
  - intros z. rewrite EX. cbn [d_index d1]. replace (length (lx ++ [row1])) with (length (d_index d)); [apply RX|]. rewrite El, !app_length. reflexivity.
  - intros r k e Or C PN. rewrite (OP1 r Or) in C. destruct (Z.eq_dec k (Z.of_nat (length row))) as [->|KN].
    + rewrite (CN e C). reflexivity.
    + apply CL in C; [|auto]. pose proof (cell_range _ _ _ C). apply (RD row k e); auto.
  - intros r k e Or K NX C De Ve Cv. rewrite (OP1 r Or) in *. cbn [d_cache d1] in Cv. rewrite cell_nat_set in Cv by (rewrite app_length; cbn; lia).
    rewrite cell_snoc in Cv. destruct (Z.eq_dec k (Z.of_nat (length row))) as [->|KN].
    + exfalso. destruct Cv as [[_ Ev]|[? _]]; [|congruence]. congruence.
    + destruct Cv as [[? _]|[_ [Cv|[? _]]]]; [congruence| |lia]. apply CL in C; [|auto]. apply OD; auto. apply (RU row k e); auto. now rewrite <- EX.
  - intros r k e c Or C De Ve. rewrite (OP1 r Or) in *. destruct (Z.eq_dec k (Z.of_nat (length row))) as [->|KN].
    + rewrite (CN e C) in Ve. discriminate Ve.
    + apply CL in C; [|auto]. apply OD; auto. apply (RS row k e c); auto.
  - intros r Or. rewrite (OP1 r Or). cbn [d_cache d1]. unfold row1. rewrite lset_length, !app_length. cbn. lia.
Qed.

(* documents outside object streams, with a cache as long as the open revision *)
Definition simple (d : doc) : Prop := plain d /\ (exists p, provider d p) /\
  (forall row, open_row d row -> length (d_cache d) = length row /\ (1 <= length row)%nat) /\ first_xsn d <> Ok (Some (-1)).

Lemma commit_simple d d1 : ready d -> simple d -> commit d = Ok d1 -> ready d1 /\ simple d1.
Proof.
  intros R (PL & P & LC & NX) C. pose proof C as C0. unfold commit in C0. destruct (changes d) as [chg| |] eqn:EC; cbn [bind] in C0; try discriminate.
  destruct chg as [|c0 chg0]; [injection C0 as <-; split; [auto|exact (conj PL (conj P (conj LC NX)))]|]. clear C0.
  assert (NE : c0 :: chg0 <> []) by discriminate.
  destruct (commit_ready d _ d1 R P EC NE C) as (_ & _ & _ & R1 & P1 & _). split; [exact R1|].
  destruct R as [CO RX RD RU RS].
  destruct (commit_as d _ d1 EC NE C P RX RD) as (lx & row0 & row' & e0 & p & p' & [Ei Ei' LN CE CC PP PP' DK GE E0 CLN XS]).
  assert (O : open_row d row0) by now exists lx. destruct (LC row0 O) as [L0 L1].
  assert (LN' : length row' = length row0) by (destruct LN as [?|[? _]]; [auto|contradiction]).
  split; [|split; [exact P1|split]].
  - intros row n e Or Ce. apply (open_two _ _ _ _ Ei') in Or. subst row. destruct (Z.eq_dec n 0) as [->|N].
    + destruct Ce as [_ Ce]. cbn in Ce. injection Ce as <-. exact E0.
    + pose proof (proj1 Ce). apply (cell_cons_skip (SDict e0) row' n (SDict e) ltac:(rewrite LN'; exact L1) ltac:(lia)) in Ce. destruct (CE n _ ltac:(lia) Ce) as [(s & Cs & [<-|(a & b & -> & Eb & PO & _)])|(X & _)].
      * exact (PL row0 n e O Cs).
      * injection Eb as <-. destruct (positioned_fields _ _ PO) as (_ & Q & _). rewrite Q. exact (PL row0 n a O Cs).
      * contradiction.
  - intros row Or. apply (open_two _ _ _ _ Ei') in Or. subst row. cbn [length]. rewrite skipn_length. split; [|lia].
    rewrite CLN. lia.
  - destruct XS as [[-> _]|[X _]]; [auto|contradiction].
Qed.

Theorem session_ready d d1 : session d d1 -> ready d -> simple d -> ready d1 /\ simple d1.
Proof.
  induction 1 as [d|d d1 d2 E S IH]; [auto|]. intros R SI. enough (ready d1 /\ simple d1) as [R1 S1] by auto. clear IH S d2.
  destruct E as [d g n v d1 N G|d n o d1 N U|d o d1 r NO A|d d1 C].
  - destruct (ready_read d g n v d1 R N G) as (R1 & EI & ED & EL). split; [auto|]. destruct SI as (PL & (p & P) & LC & NX).
    assert (EO : forall r, open_row d1 r <-> open_row d r) by (intro r; unfold open_row; rewrite EI; tauto).
    split; [|split; [|split]].
    + intros row k e Or. apply EO in Or. now apply PL.
    + exists p. unfold provider in *. now rewrite ED.
    + intros row Or. apply EO in Or. rewrite EL. auto.
    + unfold first_xsn. rewrite EI. exact NX.
  - destruct SI as (PL & (p & P) & LC & NX). split.
    + apply (ready_update d n o d1); auto.
      * intros row e Or C. exact (PL row n e Or C).
      * intros row k e Or C _ X. rewrite (PL row k e Or C) in X. discriminate.
    + destruct (update_inv d n o d1) as (lx & row & old & ov & El & Ce & Eo & RC & ->); [lia|auto|]. pose proof (cell_range _ _ _ Ce) as RN.
      destruct (LC row (ex_intro _ lx El)) as [L0 L1].
      set (e1 := with_del _ _) in *. set (row1 := lset row (Z.to_nat n) (SDict e1)) in *.
      assert (OP1 : forall r, open_row (mk_doc (lx ++ [row1]) (lset (d_cache d) (Z.to_nat n) o) (d_data d)) r -> r = row1).
      { intros r [l2 E2]. cbn [d_index] in E2. now apply app_inj_tail in E2. }
      split; [|split; [exists p; exact P|split]].
      * intros r k e Or C. rewrite (OP1 r Or) in C. unfold row1 in C. rewrite cell_lset in C by lia. destruct C as [[-> X]|[_ C]].
        -- injection X as ->. reflexivity.
        -- exact (PL row k e (ex_intro _ lx El) C).
      * intros r Or. rewrite (OP1 r Or). cbn [d_cache]. unfold row1. rewrite !lset_length. auto.
      * unfold first_xsn in *. cbn [d_index] in *. rewrite El in NX. destruct lx as [|y lx]; [|exact NX]. cbn [app] in *.
        change (pyget [row1] 0) with (@Ok (list slot) row1). change (pyget [row] 0) with (@Ok (list slot) row) in NX. cbn [bind] in *.
        rewrite (cells_pyget row row1 0); [exact NX|lia|]. intro x. unfold row1. rewrite cell_lset by lia. split; [intros [[? _]|[_ ?]]; [lia|auto]|intro; right; split; [lia|auto]].
  - destruct SI as (PL & (p & P) & LC & NX). destruct (ready_add d o d1 r R A) as [R1 L1]; auto; try (intros; apply LC; auto); [eauto|]. split; [exact R1|].
    destruct (add_inv d o d1 r A) as (lx & row & El & LE & -> & ->). destruct (LC row (ex_intro _ lx El)) as [L0 L2].
    set (e1 := with_dver _ _) in *. set (row1 := row ++ [SDict e1]) in *.
    assert (OP1 : forall r, open_row (mk_doc (lx ++ [row1]) (lset (d_cache d ++ [PNone]) (length row) o) (d_data d)) r -> r = row1).
    { intros r [l2 E2]. cbn [d_index] in E2. now apply app_inj_tail in E2. }
    split; [|split; [exists p; exact P|split]].
    + intros r k e Or C. rewrite (OP1 r Or) in C. unfold row1 in C. rewrite cell_snoc in C. destruct C as [C|[-> X]].
      * exact (PL row k e (ex_intro _ lx El) C).
      * injection X as ->. reflexivity.
    + intros r Or. split; [exact (L1 r Or)|]. rewrite (OP1 r Or). unfold row1. rewrite app_length. cbn. lia.
    + unfold first_xsn in *. cbn [d_index] in *. rewrite El in NX. destruct lx as [|y lx]; [|exact NX]. cbn [app] in *.
      change (pyget [row1] 0) with (@Ok (list slot) row1). change (pyget [row] 0) with (@Ok (list slot) row) in NX. cbn [bind] in *.
      rewrite (cells_pyget row row1 0); [exact NX|lia|]. intro x. unfold row1. rewrite cell_snoc. split; [intros [?|[? _]]; [auto|lia]|auto].
  - apply (commit_simple d d1); auto.
Qed.

(* deciding ready on an example *)
Definition memb (z : Z) (l : list Z) : bool := existsb (Z.eqb z) l.
Definition on_diskb (d : doc) (row : list slot) (chg : list change) (x : option Z) (k : Z) : bool :=
  match pyget row k with
  | Ok (SDict e) => match n_pos e with
                    | Some (AInt z) => (0 <? k) && (z <=? committed_end (d_data d) 0) && negb (memb k (map chg_num chg)) && negb (oz_eqb x (Some k))
                    | _ => false
                    end
  | _ => false
  end.
Definition readyb (d : doc) : bool :=
  match last_row d, changes d, first_xsn d with
  | Ok row, Ok chg, Ok x =>
      coherentb d &&
      match x with Some z => (0 <=? z) || ((z =? -1) && Nat.eqb (length (d_index d)) 1) | None => true end &&
      forallb (fun k =>
        match pyget row k with
        | Ok (SDict e) =>
            (negb (memb k (map chg_num chg)) || match n_env e with None => true | _ => false end) &&
            (n_del e || match n_env e with
                        | None => (k =? 0) || oz_eqb x (Some k) || match pyget (d_cache d) k with Ok PNone => on_diskb d row chg x k | _ => true end
                        | Some c => on_diskb d row chg x c
                        end)
        | _ => true
        end) (zseq 0 (length row))
  | _, _, _ => false
  end.
Lemma memb_in z l : memb z l = true <-> In z l.
Proof. unfold memb. rewrite existsb_exists. split; [intros (y & I & E); apply Z.eqb_eq in E; now subst|intro I; exists z; split; [auto|apply Z.eqb_refl]]. Qed.
Lemma readyb_ok d : readyb d = true -> ready d.
Proof.
  unfold readyb. destruct (last_row d) as [row| |] eqn:Er; try discriminate. destruct (changes d) as [chg| |] eqn:Ec; try discriminate.
  destruct (first_xsn d) as [x| |] eqn:Ex; try discriminate. rewrite !andb_true_iff. intros [[CO XB] FB]. rewrite forallb_forall in FB.
  apply last_open in Er.
  assert (PD : forall k, pending d k <-> In k (map chg_num chg)) by (intro; now apply pending_chg).
  set (od := on_diskb d row chg x) in *.
  assert (OD : forall k, od k = true -> on_disk d row k).
  { intros k H. unfold od, on_diskb in H. destruct (pyget row k) as [[|e|l]| |] eqn:E; try discriminate. destruct (n_pos e) as [[z| |]|] eqn:Ep; try discriminate.
    rewrite !andb_true_iff, !negb_true_iff in H. destruct H as [[[K LE] NM] NX]. exists e, z. split; [lia|]. split; [apply pyget_cell; [lia|auto]|]. split; [auto|].
    split; [lia|]. split; [rewrite PD, <- memb_in; congruence|]. rewrite Ex. intro X. injection X as ->. rewrite (proj2 (oz_eqb_eq (Some k) (Some k)) eq_refl) in NX. discriminate. }
  assert (ALL : forall k e, cell row k (SDict e) ->
     (negb (memb k (map chg_num chg)) || match n_env e with None => true | _ => false end) = true /\
            (n_del e || match n_env e with
                        | None => (k =? 0) || oz_eqb x (Some k) || match pyget (d_cache d) k with Ok PNone => od k | _ => true end
                        | Some c => od c
                        end) = true).
  { intros k e C. pose proof (cell_range _ _ _ C). assert (IK : In k (zseq 0 (length row))) by (apply in_zseq; lia). specialize (FB k IK). cbv beta in FB. apply pyget_cell in C; [|lia]. rewrite C in FB.
    apply andb_true_iff in FB. exact FB. }
  constructor.
  - now apply coherentb_ok.
  - intros z Z0. rewrite Ex in Z0. injection Z0 as ->. apply orb_true_iff in XB. destruct XB as [XB|XB]; [left; apply Z.leb_le in XB; exact XB|right]. apply andb_true_iff in XB. destruct XB as [X1 X2]. apply Z.eqb_eq in X1. apply Nat.eqb_eq in X2. auto.
  - intros r n e Or C PN. rewrite (open_fun _ _ _ Or Er) in C. destruct (ALL n e C) as [A _]. apply PD, memb_in in PN. rewrite PN in A. cbn in A. destruct (n_env e); [discriminate|auto].
  - intros r n e Or N NX C De Ve Cv. rewrite (open_fun _ _ _ Or Er) in *. destruct (ALL n e C) as [_ A]. rewrite De, Ve in A. cbn [orb] in A.
    apply pyget_cell in Cv; [|lia]. rewrite Cv in A. replace (n =? 0) with false in A by lia. cbn [orb] in A. rewrite orb_true_iff in A. destruct A as [A|A]; [|auto].
    apply oz_eqb_eq in A. congruence.
  - intros r n e c Or C De Ve. rewrite (open_fun _ _ _ Or Er) in *. destruct (ALL n e C) as [_ A]. rewrite De, Ve in A. cbn [orb] in A. auto.
Qed.
End WithZlib.
