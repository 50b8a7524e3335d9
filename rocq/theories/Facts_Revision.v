(* Revisions: layout of the bytes written (C19) *)
From Coq Require Import String ZifyBool ZifyNat Permutation Sorted.
From Verif Require Import PyBase Model_Filters Model_Objects Model_Filestruct Spec_Objects Spec_Filestruct
  Facts_Base Facts_Token Facts_Obj Facts_Ser Facts_Parse Facts_Top Facts_Stream Facts_Filters Facts_Refs Facts_Prov Facts_Xref Facts_Indirect Facts_Xstm.

(* ---------- arrays ---------- *)
Lemma cell_range {A} (l : list A) n x : cell l n x -> 0 <= n < Z.of_nat (length l).
Proof.
  intros [H E]. split; auto. assert (Z.to_nat n < length l)%nat by (apply nth_error_Some; congruence). lia.
Qed.

Lemma pyget_cell {A} (l : list A) n x : 0 <= n -> pyget l n = Ok x <-> cell l n x.
Proof.
  intros N. unfold pyget, pyidx, cell. destruct ((0 <=? n) && (n <? Z.of_nat (length l))) eqn:E.
  - destruct (nth_error l (Z.to_nat n)) eqn:En; cbn [of_opt]; split.
    + intros H. inversion H. auto.
    + intros [_ H]. congruence.
    + discriminate.
    + intros [_ H]. discriminate.
  - replace ((- Z.of_nat (length l) <=? n) && (n <? 0)) with false by lia. split; [discriminate|].
    intros [_ H]. assert (Z.to_nat n < length l)%nat by (apply nth_error_Some; congruence). lia.
Qed.

Lemma lset_length {A} (l : list A) : forall i v, length (lset l i v) = length l.
Proof. induction l as [|x l IH]; intros [|i] v; cbn; auto. Qed.
Lemma lset_get {A} (l : list A) : forall i j v, (i < length l)%nat ->
  nth_error (lset l i v) j = if Nat.eqb j i then Some v else nth_error l j.
Proof.
  induction l as [|x l IH]; intros i j v L; [cbn in L; lia|].
  destruct i, j; cbn [lset nth_error Nat.eqb]; auto. apply IH. cbn in L. lia.
Qed.

Lemma pyset_inv {A} (l l' : list A) n v : 0 <= n -> pyset l n v = Ok l' ->
  l' = lset l (Z.to_nat n) v /\ (Z.to_nat n < length l)%nat.
Proof.
  intros N. unfold pyset, pyidx. destruct ((0 <=? n) && (n <? Z.of_nat (length l))) eqn:E.
  - intros H. inversion H. split; auto. lia.
  - replace ((- Z.of_nat (length l) <=? n) && (n <? 0)) with false by lia. discriminate.
Qed.

Lemma pyset_same {A} (l l' : list A) n v : 0 <= n -> pyset l n v = Ok l' -> cell l' n v.
Proof.
  intros N H. apply pyset_inv in H as [-> L]; auto. split; auto. rewrite lset_get, Nat.eqb_refl by auto. auto.
Qed.
Lemma pyset_other {A} (l l' : list A) n v : 0 <= n -> pyset l n v = Ok l' ->
  forall k x, k <> n -> cell l' k x <-> cell l k x.
Proof.
  intros N H k x NE. apply pyset_inv in H as [-> L]; auto. unfold cell.
  split; intros [K E]; split; auto.
  - rewrite lset_get in E by auto. replace (Nat.eqb (Z.to_nat k) (Z.to_nat n)) with false in E; auto. symmetry. apply Nat.eqb_neq. lia.
  - rewrite lset_get by auto. replace (Nat.eqb (Z.to_nat k) (Z.to_nat n)) with false; auto. symmetry. apply Nat.eqb_neq. lia.
Qed.
Lemma pyset_length {A} (l l' : list A) n v : pyset l n v = Ok l' -> length l' = length l.
Proof. unfold pyset. destruct (pyidx l n); [|discriminate]. intros H. inversion H. apply lset_length. Qed.

Lemma cell_fun {A} (l : list A) n x y : cell l n x -> cell l n y -> x = y.
Proof. intros [_ A1] [_ A2]. congruence. Qed.

Lemma as_dict_inv s e : as_dict s = Ok e -> s = SDict e.
Proof. destruct s; try discriminate. intros H. inversion H. auto. Qed.

(* ---------- sorting ---------- *)
Lemma insert_by_perm {A} (key : A -> Z) x l : Permutation (insert_by key x l) (x :: l).
Proof.
  induction l as [|y l IH]; cbn [insert_by]; auto. destruct (key x <? key y); auto.
  rewrite IH. apply perm_swap.
Qed.
Lemma sort_by_perm {A} (key : A -> Z) l : Permutation (sort_by key l) l.
Proof.
  unfold sort_by. assert (G : forall acc, Permutation (fold_left (fun acc x => insert_by key x acc) l acc) (acc ++ l)).
  { induction l as [|x l IH]; intros acc; cbn [fold_left]; [rewrite app_nil_r; auto|].
    rewrite IH, insert_by_perm. apply Permutation_middle. }
  apply (G []).
Qed.
Lemma insert_by_sorted {A} (key : A -> Z) x l : StronglySorted (fun a b => key a <= key b) l ->
  StronglySorted (fun a b => key a <= key b) (insert_by key x l).
Proof.
  induction 1 as [|y l SL IH F]; cbn [insert_by]; [repeat constructor|].
  destruct (key x <? key y) eqn:E.
  - constructor; [constructor; auto|]. constructor; [lia|]. eapply Forall_impl; [|exact F]. cbn. lia.
  - constructor; auto. rewrite Forall_forall in *. intros z I.
    apply (Permutation_in z (insert_by_perm key x l)) in I. destruct I as [<-|I]; [lia|auto].
Qed.
Lemma sort_by_sorted {A} (key : A -> Z) l : StronglySorted (fun a b => key a <= key b) (sort_by key l).
Proof.
  unfold sort_by. assert (G : forall acc, StronglySorted (fun a b => key a <= key b) acc ->
    StronglySorted (fun a b => key a <= key b) (fold_left (fun acc x => insert_by key x acc) l acc)).
  { induction l as [|x l IH]; intros acc SA; cbn [fold_left]; auto. apply IH, insert_by_sorted; auto. }
  apply G. constructor.
Qed.

Lemma Forall2_permute {A C} (R : A -> C -> Prop) l e e' : Forall2 R l e -> Permutation e e' ->
  exists l', Permutation l l' /\ Forall2 R l' e'.
Proof.
  intros F P. revert l F. induction P as [|x e e' P IH|x y e|e e1 e' P1 IH1 P2 IH2]; intros l F.
  - inversion F; subst. exists []. split; constructor.
  - inversion F as [|a ? l0 ? R1 F1]; subst. destruct (IH l0 F1) as (l' & P' & F'). exists (a :: l'). split; auto.
  - inversion F as [|a ? l0 ? R1 F1]; subst. inversion F1 as [|b ? l1 ? R2 F2]; subst.
    exists (b :: a :: l1). split; [apply perm_swap|auto].
  - destruct (IH1 l F) as (l1 & Q1 & F1). destruct (IH2 l1 F1) as (l2 & Q2 & F2). exists l2. split; auto. etransitivity; eauto.
Qed.

Lemma Forall2_in_r {A C} (R : A -> C -> Prop) l e : Forall2 R l e -> forall y, In y e -> exists x, R x y.
Proof. induction 1 as [|a b l e H F IH]; intros y I; [destruct I|]. destruct I as [<-|I]; eauto. Qed.

(* ---------- positions ---------- *)
Lemma at_pos_app F off blk p : at_pos F off blk -> at_pos (p ++ F) (blen p + off) blk.
Proof. intros (a & b & -> & L). exists (p ++ a), b. rewrite <- app_assoc, app_length. unfold blen. split; auto. lia. Qed.
Lemma at_pos_tail F off blk q : at_pos F off blk -> at_pos (F ++ q) off blk.
Proof. intros (a & b & -> & L). exists a, (b ++ q). rewrite <- !app_assoc. auto. Qed.
Lemma at_pos_here a blk b : at_pos (a ++ blk ++ b) (blen a) blk.
Proof. exists a, b. unfold blen. auto. Qed.

Section WithZlib.
Context {ZL : Zlib}.

Lemma fragment_object num gen o blk : serialize_fragment num gen o = Ok blk -> exists v, serialize o = Ok v /\ blk = object_text num gen v.
Proof.
  unfold serialize_fragment. destruct (serialize o) as [v| |]; try discriminate. cbn [bind]. intros H. inversion H.
  exists v. split; auto.
Qed.

Definition num_of (c : change) : Z := snd (fst c).
(* the change is embedded in an object stream *)
Definition emb (cur : list slot) (c : change) : bool :=
  negb (is_del (snd c)) &&
  match nth_error cur (Z.to_nat (num_of c)) with Some (SDict e) => truthy (n_env e) | _ => false end.

Lemma dec_some n : (1 <= length (dec n))%nat.
Proof.
  destruct (Z_lt_dec n 0) as [N|N]; [unfold dec; replace (n <? 0) with true by lia; cbn [length]; lia|].
  pose proof (proj2 (dec_dig n ltac:(lia))) as D. destruct (dec n); [congruence|cbn [length]; lia].
Qed.
Lemma write_changes_ok cur cache l : forall newi cnt last fr el ni cnt' last',
  write_changes cur cache newi cnt last l = Ok (fr, el, ni, cnt', last') ->
  Forall (fun c => 0 <= num_of c) l -> NoDup (map num_of l) ->
  (forall c, In c l -> forall e, cell cur (num_of c) (SDict e) -> cell newi (num_of c) (SDict e)) ->
  cnt' = cnt + blen fr /\ length ni = length newi /\
  (forall k x, ~ In k (map num_of l) -> cell ni k x <-> cell newi k x) /\
  (forall c e, In c (filter (emb cur) l) -> cell cur (num_of c) (SDict e) -> cell ni (num_of c) (SDict e)) /\
  Forall (fun e => forall c, xe_cnt e = Some c -> cnt <= c /\ c + 16 <= cnt') el /\
  forall P Q, blen P = cnt ->
    Forall2 (placed (P ++ fr ++ Q) cur cache ni) (filter (fun c => negb (emb cur c)) l) el.
Proof.
  induction l as [|[[g num] a] l IH]; intros newi cnt last fr el ni cnt' last' WC NN ND SAME.
  - cbn in WC. inversion WC; subst. split; [unfold blen; cbn; lia|]. split; auto. split; [tauto|]. split; [intros ? ? []|]. split; [constructor|].
    intros. constructor.
  - cbn [map num_of fst snd] in ND. inversion ND as [|? ? NI ND']; subst. inversion NN as [|? ? N0 NN']; subst. cbn [num_of fst snd] in N0.
    cbn [write_changes fst snd] in WC. destruct (is_del a) eqn:ED.
    + (* deletion *)
      assert (a = Del) by (destruct a; try discriminate; auto). subst a.
      destruct (if num =? 0 then _ else _) as [gen| |] eqn:EG; try discriminate. cbn [bind] in WC.
      destruct (write_changes cur cache newi cnt last l) as [[[[[fr0 el0] ni0] ct0] la0]| |] eqn:EW; try discriminate.
      cbn [bind] in WC. inversion WC; subst.
      destruct (IH _ _ _ _ _ _ _ _ EW NN' ND' ltac:(intros; apply SAME; auto; right; auto)) as (A1 & A2 & A3 & A3' & A5 & A4).
      split; auto. split; auto. split. { intros k x NK. apply A3. cbn [map num_of fst snd] in NK. intros I; apply NK; right; auto. }
      split. { intros c e I. cbn [filter] in I. unfold emb at 1 in I. cbn [snd is_del negb andb] in I. apply A3'; auto. }
      split. { constructor; [discriminate|exact A5]. }
      intros P Q LP. cbn [filter]. unfold emb at 1. cbn [snd is_del negb andb]. constructor; auto.
      destruct (num =? 0) eqn:E0.
      * inversion EG. replace num with 0 by lia. constructor.
      * destruct (pyget cur num) as [s| |] eqn:EP; try discriminate. cbn [bind] in EG.
        destruct (as_dict s) as [e| |] eqn:EA; try discriminate. cbn [bind] in EG. inversion EG; subst.
        apply as_dict_inv in EA. subst s. apply pl_del; [lia|]. apply pyget_cell; auto.
    + assert (ND1 : a <> Del) by (intros ->; discriminate).
      destruct (pyget cur num) as [s| |] eqn:EP; try discriminate. cbn [bind] in WC.
      destruct (as_dict s) as [e| |] eqn:EA; try discriminate. cbn [bind] in WC.
      apply as_dict_inv in EA. subst s. apply pyget_cell in EP; auto.
      assert (EM : emb cur (@pair ref action (g, num) a) = truthy (n_env e)).
      { unfold emb, num_of. cbn [fst snd]. rewrite ED. destruct EP as [_ EP]. rewrite EP. reflexivity. }
      destruct (truthy (n_env e)) eqn:ET.
      * (* embedded: nothing written here *)
        destruct (IH _ _ _ _ _ _ _ _ WC NN' ND' ltac:(intros; apply SAME; auto; right; auto)) as (A1 & A2 & A3 & A3' & A5 & A4).
        split; auto. split; auto. split. { intros k x NK. apply A3. cbn [map num_of fst snd] in NK. intros I; apply NK; right; auto. }
        split. { intros c e' I C. cbn [filter] in I. rewrite EM in I. destruct I as [<-|I]; [|apply A3'; auto].
          cbn [num_of fst snd] in *. apply A3; auto. apply (SAME ((g, num), a)); auto. left; auto. }
        split; [exact A5|].
        intros P Q LP. cbn [filter]. rewrite EM. cbn [negb]. auto.
      * destruct (pyget cache num) as [o| |] eqn:EO; try discriminate. cbn [bind] in WC. apply pyget_cell in EO; auto.
        set (ro := match o with PStream d _ _ => _ | _ => Ok o end) in WC.
        destruct ro as [o'| |] eqn:ER; try discriminate. cbn [bind] in WC. unfold ro in ER. clear ro.
        assert (WV : written_value o o').
        { unfold written_value, is_objstm. change (B "/Type") with K_Type. change (B "/ObjStm") with V_ObjStm.
          destruct o; try (inversion ER; subst; reflexivity).
          destruct (dget K_Type d) as [[]|]; try (inversion ER; subst; reflexivity).
          destruct (beqb s V_ObjStm); [exact ER|inversion ER; reflexivity]. }
        destruct (serialize_fragment num (n_gen e) o') as [blk| |] eqn:EF; try discriminate. cbn [bind] in WC.
        destruct (fragment_object _ _ _ _ EF) as (v & SV & ->).
        set (blk := object_text num (n_gen e) v) in *.
        destruct (pyget newi num) as [ns| |] eqn:EN; try discriminate. cbn [bind] in WC.
        destruct (as_dict ns) as [ne| |] eqn:EA; try discriminate. cbn [bind] in WC. apply as_dict_inv in EA. subst ns.
        apply pyget_cell in EN; auto.
        assert (ne = e).
        { specialize (SAME ((g, num), a) ltac:(left; auto) e EP). cbn [num_of fst snd] in SAME. pose proof (cell_fun _ _ _ _ EN SAME) as Q. inversion Q. auto. }
        subst ne.
        match type of WC with (let* newi' := pyset newi num ?v in _) = _ => destruct (pyset newi num v) as [newi'| |] eqn:EPS; try discriminate end.
        cbn [bind] in WC.
        destruct (write_changes cur cache newi' (cnt + blen blk) (Some blk) l) as [[[[[fr0 el0] ni0] ct0] la0]| |] eqn:EW; try discriminate.
        cbn [bind] in WC. inversion WC; subst.
        assert (SAME' : forall c, In c l -> forall e0, cell cur (num_of c) (SDict e0) -> cell newi' (num_of c) (SDict e0)).
        { intros c I e0 C. assert (num_of c <> num) by (intros <-; apply NI; apply in_map; auto).
          apply (pyset_other _ _ _ _ N0 EPS); auto. apply SAME; auto. right; auto. }
        destruct (IH _ _ _ _ _ _ _ _ EW NN' ND' SAME') as (A1 & A2 & A3 & A3' & A5 & A4).
        split. { rewrite A1, blen_app. lia. }
        split. { rewrite A2. eapply pyset_length; eauto. }
        split. { intros k x NK. cbn [map num_of fst snd] in NK. rewrite A3 by (intros I; apply NK; right; auto).
                 apply (pyset_other _ _ _ _ N0 EPS). intros ->. apply NK. left; auto. }
        split. { intros c e' I C. cbn [filter] in I. rewrite EM in I. apply A3'; auto. }
        assert (BL : 16 <= blen blk).
        { unfold blk, object_text, blen. rewrite !app_length. pose proof (dec_some num). pose proof (dec_some (n_gen e)).
          change (length (B " obj")) with 4%nat. change (length (B "endobj")) with 6%nat. cbn [length]. lia. }
        split. { constructor; [|eapply Forall_impl; [|exact A5]; cbn beta; intros x0 H0 c0 Hc0; specialize (H0 c0 Hc0); lia].
                 cbn [xe_cnt]. intros c0 Q0. injection Q0 as <-. rewrite A1. unfold blen in *. lia. }
        intros P Q LP. cbn [filter]. rewrite EM. cbn [negb]. constructor.
        -- apply (pl_direct _ _ _ _ g num a e o o' v cnt); auto.
           ++ destruct (n_env e) as [z|]; auto. right. cbn in ET. f_equal. lia.
           ++ fold blk. rewrite <- LP. rewrite <- !app_assoc. apply at_pos_here.
           ++ fold blk. apply A3; auto. exact (pyset_same _ _ _ _ N0 EPS).
        -- specialize (A4 (P ++ blk) Q). rewrite <- !app_assoc in A4. rewrite <- app_assoc. apply A4. rewrite blen_app. lia.
Qed.

(* ---------- objects put in object streams ---------- *)
Definition even_lines (N : Z -> Prop) (cache : list obj) : Prop := forall n d s e fl, N n -> cell cache n (PStream d s e) ->
  dget K_FirstLine d = Some (PList fl) -> exists k, length fl = (2 * k)%nat.
(* the object streams that receive changes *)
Definition receiving (cur : list slot) (chg : list change) (env : Z) : Prop :=
  exists c e, In c chg /\ emb cur c = true /\ cell cur (num_of c) (SDict e) /\ n_env e = Some env.

Lemma cell_app {A} (l r : list A) n x : cell l n x -> cell (l ++ r) n x.
Proof.
  intros C. pose proof (cell_range _ _ _ C). destruct C as [N E]. split; auto. rewrite nth_error_app1 by lia. auto.
Qed.

Lemma append_inside num o d s e new ser0 : serialize o = Ok ser0 ->
  append_to_stream_fragment num o (PStream d (Some s) e) = Ok new ->
  (forall fl, dget K_FirstLine d = Some (PList fl) -> exists k, length fl = (2 * k)%nat) ->
  exists fl d' , (dget K_FirstLine d = Some (PList fl) \/ (dget K_FirstLine d = None /\ fl = [])) /\
    new = PStream d' (Some (s ++ ser0 ++ [10])) None /\
    dget K_FirstLine d' = Some (PList (fl ++ [PInt num; PInt (blen s)])) /\
    d' = dset K_FirstLine (PList (fl ++ [PInt num; PInt (blen s)])) d /\
    exists k, length fl = (2 * k)%nat /\ get_pos_in_stream new = Ok (Z.of_nat k).
Proof.
  intros SE AP EV. unfold append_to_stream_fragment in AP. rewrite SE in AP. cbn [bind] in AP.
  destruct (dget K_FirstLine d) as [x|] eqn:EF.
  - destruct x as [| | | | | | |fl| |]; try discriminate. inversion AP; subst new. exists fl. eexists.
    split; [left; auto|]. split; [reflexivity|]. rewrite dget_dset_eq. split; auto. split; auto.
    destruct (EV fl eq_refl) as (k & Ek). exists k. split; auto.
    unfold get_pos_in_stream. rewrite dget_dset_eq, app_length. cbn [length]. f_equal. lia.
  - inversion AP; subst new. exists []. eexists. split; [right; auto|]. split; [reflexivity|]. rewrite dget_dset_eq. split; auto. split; auto.
    exists 0%nat. split; auto. unfold get_pos_in_stream. rewrite dget_dset_eq. reflexivity.
Qed.

Lemma embed_changes_ok cur l : forall cache cache' el,
  embed_changes cur cache l = Ok (cache', el) ->
  Forall (fun c => 0 <= num_of c) l ->
  (forall c e env, In c l -> cell cur (num_of c) (SDict e) -> n_env e = Some env -> 0 <= env) ->
  even_lines (receiving cur l) cache ->
  (forall c c' e', In c l -> In c' l -> emb cur c = true -> cell cur (num_of c') (SDict e') -> n_env e' <> Some (num_of c)) ->
  length cache' = length cache /\
  (forall n x, (forall c e, In c l -> emb cur c = true -> cell cur (num_of c) (SDict e) -> n_env e <> Some n) ->
     cell cache' n x <-> cell cache n x) /\
  (forall env pos num v, inside cache env pos num v -> inside cache' env pos num v) /\
  Forall2 (fun c e => exists ce o v env pos, snd c <> Del /\ cell cur (num_of c) (SDict ce) /\ n_env ce = Some env /\ env <> 0 /\
     cell cache (num_of c) o /\ serialize o = Ok v /\ inside cache' env pos (num_of c) v /\
     e = mk_xe false (num_of c) (n_gen ce) (Some pos) (Some env)) (filter (emb cur) l) el.
Proof.
  induction l as [|[[g num] a] l IH]; intros cache cache' el EC NN EP EV NE.
  - cbn in EC. inversion EC; subst. split; auto. split; [tauto|]. split; auto. constructor.
  - inversion NN as [|? ? N0 NN']; subst. cbn [num_of fst snd] in N0.
    cbn [embed_changes fst snd] in EC.
    destruct (pyget cur num) as [sl| |] eqn:E1; try discriminate. cbn [bind] in EC.
    destruct (as_dict sl) as [e| |] eqn:EA; try discriminate. cbn [bind] in EC.
    apply as_dict_inv in EA. subst sl. apply pyget_cell in E1; auto.
    assert (EM : emb cur (@pair ref action (g, num) a) = negb (is_del a) && truthy (n_env e)).
    { unfold emb, num_of. cbn [fst snd]. destruct E1 as [_ E1]. rewrite E1. reflexivity. }
    assert (EP' : forall c e env, In c l -> cell cur (num_of c) (SDict e) -> n_env e = Some env -> 0 <= env).
    { intros c e0 env I. apply (EP c e0 env). right; auto. }
    assert (NE' : forall c c' e', In c l -> In c' l -> emb cur c = true -> cell cur (num_of c') (SDict e') -> n_env e' <> Some (num_of c)).
    { intros c c' e' I I'. apply NE; right; auto. }
    destruct (negb (is_del a) && truthy (n_env e)) eqn:ET.
    + destruct (n_env e) as [env|] eqn:EE; [|rewrite andb_false_r in ET; discriminate]. cbn [of_opt bind] in EC.
      assert (NZ : env <> 0) by (cbn in ET; lia).
      assert (NDl : a <> Del) by (intros ->; discriminate).
      pose proof (EP ((g, num), a) e env ltac:(left; auto) E1 EE) as PE.
      destruct (pyget cache num) as [o| |] eqn:E2; try discriminate. cbn [bind] in EC. apply pyget_cell in E2; auto.
      destruct (pyget cache env) as [eo| |] eqn:E3; try discriminate. cbn [bind] in EC. apply pyget_cell in E3; auto.
      destruct (append_to_stream_fragment num o eo) as [new| |] eqn:E4; try discriminate. cbn [bind] in EC.
      destruct (pyset cache env new) as [cache1| |] eqn:E5; try discriminate. cbn [bind] in EC.
      destruct (get_pos_in_stream new) as [pos| |] eqn:E6; try discriminate. cbn [bind] in EC.
      destruct (embed_changes cur cache1 l) as [[cache2 tl]| |] eqn:E7; try discriminate. cbn [bind] in EC. inversion EC; subst cache2 el.
      assert (exists ser0, serialize o = Ok ser0) as (ser0 & ES).
      { unfold append_to_stream_fragment in E4. destruct (serialize o) as [x| |]; try discriminate. eauto. }
      assert (exists d s0 e0, eo = PStream d (Some s0) e0) as (d & s0 & e0 & ->).
      { unfold append_to_stream_fragment in E4. rewrite ES in E4. cbn [bind] in E4. destruct eo; try discriminate. destruct stream; try discriminate. eauto. }
      destruct (append_inside num o d s0 e0 new ser0 ES E4) as (fl & d' & EFL & -> & DG & ED & k & LK & GP).
      { intros fl F. apply (EV env d (Some s0) e0 fl); auto. exists ((g, num), a), e. split; [left; reflexivity|]. split; [exact EM|]. split; assumption. }
      assert (pos = Z.of_nat k) by congruence. subst pos.
      pose proof (pyset_same _ _ _ _ PE E5) as CS. pose proof (pyset_other _ _ _ _ PE E5) as CO.
      assert (EV1 : even_lines (receiving cur l) cache1).
      { intros n dd ss ee ff (c1 & e1 & I1 & R1) C F. destruct (Z.eq_dec n env) as [->|NN1].
        - pose proof (cell_fun _ _ _ _ C CS) as Q. inversion Q; subst dd. rewrite DG in F. inversion F. exists (S k).
          rewrite app_length, LK. cbn [length]. lia.
        - apply CO in C; auto. eapply EV; eauto. exists c1, e1. split; [right; assumption|exact R1]. }
      destruct (IH cache1 cache' tl E7 NN' EP' EV1 NE') as (A1 & A3 & A4 & A5).
      assert (KEEP : forall en po nu v, inside cache en po nu v -> inside cache1 en po nu v).
      { intros en po nu v (dd & ss & ee & ff & off & C1 & F1 & C2 & C3 & AT).
        destruct (Z.eq_dec en env) as [->|NN1].
        - pose proof (cell_fun _ _ _ _ C1 E3) as Q. inversion Q; subst dd ss ee.
          change (B "/FirstLine") with K_FirstLine in F1. destruct EFL as [EFL|[EFL _]]; [|congruence].
          assert (ff = fl) by congruence. subst ff.
          exists d', (s0 ++ ser0 ++ [10]), None, (fl ++ [PInt num; PInt (blen s0)]), off.
          split; auto. split; auto. split; [apply cell_app; auto|]. split; [apply cell_app; auto|]. apply at_pos_tail; auto.
        - exists dd, ss, ee, ff, off. split; auto. apply CO; auto. }
      split. { rewrite A1. eapply pyset_length; eauto. }
      split.
      { intros n x H. rewrite A3.
        - apply CO. intros ->. apply (H ((g, num), a) e); auto. left; auto.
        - intros c e1 I M C. apply (H c e1); auto. right; auto. }
      split; [intros; apply A4; auto|].
      cbn [filter]. rewrite EM. constructor.
      * exists e, o, ser0, env, (Z.of_nat k). cbn [num_of fst snd]. split; auto. split; auto. split; auto. split; auto. split; auto. split; auto. split; auto.
        apply A4. exists d', (s0 ++ ser0 ++ [10]), None, (fl ++ [PInt num; PInt (blen s0)]), (blen s0).
        split; auto. split; auto. split; [|split].
        -- split; [lia|]. rewrite nth_error_app2 by lia. replace (Z.to_nat (2 * Z.of_nat k) - length fl)%nat with 0%nat by lia. auto.
        -- split; [lia|]. rewrite nth_error_app2 by lia. replace (Z.to_nat (2 * Z.of_nat k + 1) - length fl)%nat with 1%nat by lia. auto.
        -- pose proof (at_pos_here s0 (ser0 ++ [10]) []) as AP. rewrite app_nil_r in AP. exact AP.
      * assert (EQ : forall c o1, In c (filter (emb cur) l) -> cell cache1 (num_of c) o1 -> cell cache (num_of c) o1).
        { intros c o1 I C. apply filter_In in I as [I M]. apply CO in C; auto. intros Q.
          apply (NE c ((g, num), a) e); auto; try (right; auto; fail); try (left; auto; fail). congruence. }
        clear -A5 EQ. induction A5 as [|c x cs xs H F IHF]; constructor.
        -- destruct H as (ce & o1 & v & env1 & pos & H1 & H2 & H3 & H4 & H5 & H6 & H7 & H8).
           exists ce, o1, v, env1, pos. do 4 (split; [assumption|]). split; [apply EQ; auto; left; auto|]. auto.
        -- apply IHF. intros c0 o1 I. apply EQ. right; auto.
    + assert (EV' : even_lines (receiving cur l) cache).
      { intros n dd ss ee ff (c1 & e1 & I1 & R1). apply EV. exists c1, e1. split; [right; assumption|exact R1]. }
      destruct (IH cache cache' el EC NN' EP' EV' NE') as (A1 & A3 & A4 & A5).
      split; auto. split.
      { intros n x H. apply A3. intros c e1 I M C. apply (H c e1); auto. right; auto. }
      split; auto. cbn [filter]. rewrite EM. auto.
Qed.

Lemma placed_mono F cur cache newi newi' c e : (forall x, cell newi (num_of c) x -> cell newi' (num_of c) x) ->
  placed F cur cache newi c e -> placed F cur cache newi' c e.
Proof.
  intros K PL. destruct PL.
  - apply pl_zero.
  - apply pl_del; auto.
  - eapply pl_direct; eauto.
  - eapply pl_inside; eauto.
Qed.

Lemma filter_partition {A} (f : A -> bool) l : Permutation (filter f l ++ filter (fun x => negb (f x)) l) l.
Proof.
  induction l as [|x l IH]; auto. cbn [filter]. destruct (f x); cbn [negb app]; auto.
  rewrite <- Permutation_middle. auto.
Qed.

Lemma rfind_from_spec p s : forall i, (exists a b, s = a ++ p ++ b) -> exists k a b, rfind_from p s i = Some k /\ s = a ++ p ++ b /\ (k = i + length a)%nat.
Proof.
  induction s as [|c s IH]; intros i (a & b & E).
  - destruct a; [|discriminate]. destruct p; [|discriminate]. exists i, [], []. cbn. split; auto.
  - cbn [rfind_from]. destruct (rfind_from p s (S i)) as [k|] eqn:ER.
    + assert (G : forall s i k, rfind_from p s i = Some k -> exists a b, s = a ++ p ++ b /\ (k = i + length a)%nat).
      { clear. induction s as [|c s IH]; intros i k; cbn [rfind_from].
        - destruct (starts p []) eqn:ES; [|discriminate]. intros H. inversion H; subst. apply starts_iff in ES as (b & E). exists [], b. split; [auto|cbn [length]; lia].
        - destruct (rfind_from p s (S i)) as [k'|] eqn:ER.
          + intros H. inversion H; subst. destruct (IH _ _ ER) as (a & b & -> & L). exists (c :: a), b. split; auto. cbn [length]. lia.
          + destruct (starts p (c :: s)) eqn:ES; [|discriminate]. intros H. inversion H; subst. apply starts_iff in ES as (b & E). exists [], b. split; [auto|cbn [length]; lia]. }
      destruct (G _ _ _ ER) as (a' & b' & -> & L). exists k, (c :: a'), b'. split; auto. split; auto. cbn [length]. lia.
    + destruct a as [|x a].
      * cbn [app] in E. replace (starts p (c :: s)) with true by (symmetry; apply starts_iff; exists b; auto).
        exists i, [], b. cbn [app length]. split; [auto|split; [auto|lia]].
      * cbn [app] in E. injection E as _ E. exfalso.
        destruct (IH (S i) (ex_intro _ a (ex_intro _ b E))) as (k & a' & b' & Q & _). congruence.
Qed.

(* C19 *)
Theorem revision_layout chg cur cache sp xsn R newi cache' :
  build_revision_byte_stream chg cur cache sp xsn = Ok (R, newi, cache') ->
  Forall (fun c => 1 <= num_of c) chg -> NoDup (map num_of chg) ->
  (forall c, In c chg -> xsn <> Some (num_of c)) -> (forall x, xsn = Some x -> 0 <= x) ->
  (forall c e env, In c chg -> cell cur (num_of c) (SDict e) -> n_env e = Some env -> 0 <= env) ->
  even_lines (receiving cur chg) cache ->
  (forall c c' e', In c chg -> In c' chg -> emb cur c = true -> cell cur (num_of c') (SDict e') -> n_env e' <> Some (num_of c)) ->
  (forall e, cell cur 0 (SDict e) -> n_env e = None) ->
  forall P, blen P = sp ->
  exists l elems built cnt cache1,
    (* the end of the file *)
    (exists body, R = body ++ built ++ B "startxref" ++ [10] ++ dec cnt ++ [10] ++ B "%%EOF" ++ [10] /\ blen (P ++ body) = cnt) /\
    at_pos (P ++ R) cnt built /\
    (* objects are written after the earlier revisions and before the section *)
    Forall (fun e => truthy (xe_env e) = false -> forall c, xe_cnt e = Some c -> sp < c /\ c + 16 <= cnt) elems /\
    (* the section *)
    Permutation (((0, 0), Del) :: chg) l /\ Forall2 (placed (P ++ R) cur cache1 newi) l elems /\
    StronglySorted (fun a b => xe_num a <= xe_num b) elems /\
    (* objects keep their value in the cache, except the object streams being completed *)
    (forall n x, (forall c e, In c chg -> emb cur c = true -> cell cur (num_of c) (SDict e) -> n_env e <> Some n) ->
       cell cache1 n x <-> cell cache n x) /\
    length newi = length cur /\
    (forall k x, k <> 0 -> xsn <> Some k -> ~ In k (map num_of chg) -> cell newi k x <-> cell cur k x) /\
    match xsn with
    | Some x =>
        if x =? 0 then True else
        exists d0 d1, cell cache1 0 (PDict d0) /\
          format_xref_stream (elems ++ [mk_xe false x 0 (Some cnt) None]) d0 (circular_deleted chg) x = Ok (built, d1) /\
          cell cache' 0 (PDict d1) /\ (forall n y, n <> 0 -> cell cache' n y <-> cell cache1 n y) /\
          (exists e, cell cur 0 (SDict e) /\ cell newi 0 (SDict (with_next (Some (cnt + blen built)) (with_pos (Some (AInt cnt)) (with_xs (Some cnt) e))))) /\
          (exists e n, cell cur x (SDict e) /\ cell newi x (SDict (with_next n (with_pos (Some (AInt cnt)) e))))
    | None => True
    end /\
    (xsn = None \/ xsn = Some 0 -> exists t,
        cell cache1 0 t /\ format_xref_table elems t (circular_deleted chg) = Ok built /\ cache' = cache1 /\
        (exists e pos, cell cur 0 (SDict e) /\ at_pos (P ++ R) pos (B "trailer") /\
           cell newi 0 (SDict (with_next (Some (cnt + blen built)) (with_pos (Some (AInt pos)) (with_xt (Some cnt) e)))))).
Proof.
  intros BR NN ND NX PX EP EV NE E0 P LP.
  unfold build_revision_byte_stream in BR.
  set (l := ((0, 0), Del) :: chg) in *.
  destruct (embed_changes cur cache l) as [[cache1 el1]| |] eqn:EE; try discriminate. cbn [bind] in BR.
  destruct (write_changes cur cache1 cur (sp + 1) None l) as [[[[[fr el2] ni] cnt] la]| |] eqn:EW; try discriminate. cbn [bind] in BR.
  destruct (pyget cache1 0) as [c0| |] eqn:EC0; try discriminate. cbn [bind] in BR. apply pyget_cell in EC0; [|lia].
  assert (NN1 : Forall (fun c => 0 <= num_of c) l).
  { constructor; [cbn; lia|]. eapply Forall_impl; [|exact NN]. cbn. lia. }
  assert (NZ : ~ In 0 (map num_of chg)).
  { intros I. apply in_map_iff in I as (c & E & I). rewrite Forall_forall in NN. specialize (NN c I). lia. }
  assert (ND1 : NoDup (map num_of l)) by (constructor; auto).
  assert (EMB0 : emb cur ((0, 0), Del) = false) by reflexivity.
  destruct (embed_changes_ok cur l cache cache1 el1 EE NN1) as (B1 & B3 & B4 & B5); auto.
  { intros c e env [<-|I] C Q; [rewrite (E0 e C) in Q; discriminate|eapply EP; eauto]. }
  { intros n dd ss ee ff (c1 & e1 & [<-|I1] & M1 & R1); [rewrite EMB0 in M1; discriminate|]. apply EV. exists c1, e1. auto. }
  { intros c c' e' [<-|I] I' M C; [rewrite EMB0 in M; discriminate|].
    destruct I' as [<-|I']; [rewrite (E0 e' C); discriminate|]. eapply NE; eauto. }
  destruct (write_changes_ok cur cache1 l _ _ _ _ _ _ _ _ EW NN1 ND1) as (A1 & A2 & A3 & A3' & A5 & A4); auto.
  set (elems := sort_by xe_num (el1 ++ el2)) in *.
  set (tail := W_startxref_nl ++ dec cnt ++ [10] ++ W_EOF_nl) in *.
  (* the two lists together *)
  assert (PLC : forall Q, exists l', Permutation l l' /\ Forall2 (placed (P ++ ([10] ++ fr ++ Q)) cur cache1 ni) l' elems).
  { intros Q. specialize (A4 (P ++ [10]) Q). rewrite <- !app_assoc in A4. rewrite blen_app in A4. specialize (A4 ltac:(unfold blen at 2; cbn [length]; lia)).
    assert (F1 : Forall2 (placed (P ++ ([10] ++ fr ++ Q)) cur cache1 ni) (filter (emb cur) l) el1).
    { assert (FI : Forall (fun c => In c (filter (emb cur) l)) (filter (emb cur) l)) by (apply Forall_forall; auto).
      assert (G : forall cs xs, Forall2 (fun c e => exists ce o v env pos, snd c <> Del /\ cell cur (num_of c) (SDict ce) /\ n_env ce = Some env /\ env <> 0 /\
         cell cache (num_of c) o /\ serialize o = Ok v /\ inside cache1 env pos (num_of c) v /\
         e = mk_xe false (num_of c) (n_gen ce) (Some pos) (Some env)) cs xs -> Forall (fun c => In c (filter (emb cur) l)) cs ->
         Forall2 (placed (P ++ ([10] ++ fr ++ Q)) cur cache1 ni) cs xs).
      { induction 1 as [|c x cs xs H F IHF]; intros FA; constructor; inversion FA as [|c_ cs_ IC FA']; subst; auto.
        destruct H as (ce & o1 & v & env1 & pos & H1 & H2 & H3 & H4 & H5 & H6 & H7 & ->).
        destruct c as [[gg nn] aa]. cbn [num_of fst snd] in *.
        apply (pl_inside _ _ _ _ gg nn aa ce o1 v env1 pos); auto.
        - apply B3; auto. intros c e I M C. apply filter_In in IC as [IC MC].
          assert (J : In c chg) by (destruct I as [<-|I]; [discriminate|auto]).
          assert (J' : In (gg, nn, aa) chg) by (destruct IC as [Q1|IC]; [inversion Q1; subst; discriminate|auto]).
          apply (NE _ _ _ J' J MC C).
        - apply (A3' (gg, nn, aa)); auto. }
      apply G; auto. }
    pose proof (Forall2_app F1 A4) as FA.
    destruct (Forall2_permute _ _ _ elems FA) as (l' & P' & F').
    { symmetry. apply sort_by_perm. }
    exists l'. split; auto. rewrite <- P'. symmetry. apply filter_partition. }
  assert (SRT : StronglySorted (fun a b => xe_num a <= xe_num b) elems) by apply sort_by_sorted.
  assert (CNT : cnt = blen (P ++ [10] ++ fr)).
  { rewrite A1, !blen_app. unfold blen at 3. cbn [length]. lia. }
  assert (RNG : Forall (fun e => truthy (xe_env e) = false -> forall c, xe_cnt e = Some c -> sp < c /\ c + 16 <= cnt) elems).
  { apply Forall_forall. intros e I T c C. apply (Permutation_in _ (sort_by_perm xe_num (el1 ++ el2))) in I. apply in_app_iff in I as [I|I].
    - apply (Forall2_in_r _ _ _ B5) in I. destruct I as (ch & ce & o & v & env & pos & H1 & H2 & H3 & H4 & H5 & H6 & H7 & ->). cbn [xe_env truthy] in T. lia.
    - rewrite Forall_forall in A5. specialize (A5 e I c C). lia. }
  assert (CK : forall n x, (forall c e, In c chg -> emb cur c = true -> cell cur (num_of c) (SDict e) -> n_env e <> Some n) ->
       cell cache1 n x <-> cell cache n x).
  { intros n x H. apply B3. intros c e [<-|I]; [discriminate|]. apply H; auto. }
  destruct (negb (truthy xsn)) eqn:EX.
  - (* table *)
    assert (XN : xsn = None \/ xsn = Some 0) by (destruct xsn as [x|]; auto; right; cbn in EX; f_equal; lia).
    destruct (format_xref_table elems c0 (circular_deleted chg)) as [built| |] eqn:EF; try discriminate. cbn [bind] in BR.
    destruct (upd_slot ni 0 _) as [ni1| |] eqn:EU; try discriminate. cbn [bind] in BR. assert (EQ3 : R = [10] ++ fr ++ built ++ tail /\ newi = ni1 /\ cache' = cache1) by (inversion BR; auto). clear BR. destruct EQ3 as (-> & -> & ->).
    unfold upd_slot in EU. destruct (pyget ni 0) as [s0| |] eqn:EG; try discriminate. cbn [bind] in EU.
    destruct (as_dict s0) as [e0| |] eqn:EA; try discriminate. cbn [bind] in EU. apply as_dict_inv in EA. subst s0.
    apply pyget_cell in EG; [|lia].
    assert (CU0 : cell cur 0 (SDict e0)).
    { destruct (write_changes_ok cur cache1 chg cur (sp + 1) None fr (tl el2) ni cnt la) as (_ & _ & Q & _); auto.
      - unfold l in EW. cbn [write_changes fst snd is_del] in EW. change (0 =? 0) with true in EW. cbn [bind] in EW.
        destruct (write_changes cur cache1 cur (sp + 1) None chg) as [[[[[f1 e1] n1] c1] l1]| |]; try discriminate.
        cbn [bind] in EW. inversion EW; subst. reflexivity.
      - inversion NN1; auto.
      - apply Q; auto. }
    destruct (PLC (built ++ tail)) as (l' & PM & F2).
    assert (TR : exists k a b, rfind W_trailer built 0 = Some k /\ built = a ++ W_trailer ++ b /\ k = length a).
    { unfold format_xref_table in EF. destruct (map_res _ elems) as [lines| |]; try discriminate. cbn [bind] in EF.
      destruct lines as [|ln0 lns]; try discriminate. destruct (serialize c0) as [tr| |]; try discriminate. cbn [bind] in EF.
      assert (EB : built = (W_xref_nl ++ flat_map sub_text (group_runs (ln0 :: lns))) ++ W_trailer ++ ([10] ++ tr ++ [10])).
      { rewrite <- app_assoc. change W_trailer_nl with (W_trailer ++ [10]) in EF. injection EF as <-. reflexivity. }
      clear EF. unfold rfind. replace (Nat.ltb (length built) 0) with false by (symmetry; apply Nat.ltb_ge; lia). cbn [skipn].
      destruct (rfind_from_spec W_trailer built 0) as (k & a & b & R1 & R2 & R3).
      - rewrite EB. eauto.
      - exists k, a, b. split; auto. }
    destruct TR as (kt & ta & tb & TR1 & TR2 & TR3).
    pose proof (pyset_same _ _ _ _ (Z.le_refl 0) EU) as CS. pose proof (pyset_other _ _ _ _ (Z.le_refl 0) EU) as CO.
    exists l', elems, built, cnt, cache1.
    split. { exists ([10] ++ fr). split; [unfold tail; rewrite <- !app_assoc; reflexivity|exact (eq_sym CNT)]. }
    split. { rewrite CNT. replace (P ++ [10] ++ fr ++ built ++ tail) with ((P ++ [10] ++ fr) ++ built ++ tail) by (rewrite <- !app_assoc; reflexivity). apply at_pos_here. }
    split; [exact RNG|]. split; auto. split.
    { assert (FA : Forall (fun c => In c l) l') by (apply Forall_forall; intros c I; eapply Permutation_in; [symmetry; exact PM|auto]).
      clear -F2 FA CO NZ. induction F2 as [|c x cs xs H F IHF]; constructor; inversion FA; subst; auto.
      assert (HZ : c = ((0, 0), Del) \/ num_of c <> 0).
      { match goal with I : In c l |- _ => destruct I as [<-|I] end; auto. right. intros Q. apply NZ. rewrite <- Q. apply in_map; auto. }
      destruct HZ as [->|HZ].
      - inversion H; subst; try congruence; try contradiction. constructor.
      - eapply placed_mono; [|exact H]. intros y. apply CO; auto. }
    split; auto. split; auto.
    split. { rewrite (pyset_length _ _ _ _ EU), A2. reflexivity. }
    split. { intros k x K0 KX NK. rewrite CO by auto. apply A3. intros [Q|I]; [cbn in Q; congruence|auto]. }
    split. { destruct XN as [-> | ->]; exact Logic.I. }
    intros _. exists c0. split; auto. split; auto. split; auto.
    exists e0, (cnt + Z.of_nat (length ta)). split; auto. split.
    { rewrite CNT. replace (P ++ [10] ++ fr ++ built ++ tail) with ((P ++ [10] ++ fr) ++ (built ++ tail)) by (rewrite <- !app_assoc; reflexivity).
      apply at_pos_app. rewrite TR2, <- !app_assoc. exists ta. eexists. split; [reflexivity|auto]. }
    rewrite TR1 in CS. cbn [znat] in CS. subst kt. exact CS.
  - (* stream *)
    destruct xsn as [x|]; [|discriminate]. assert (X0 : x <> 0) by (cbn in EX; lia). cbn [of_opt bind] in BR.
    specialize (PX x eq_refl).
    destruct c0 as [| | | | | | | |d0|]; try discriminate. cbn [bind] in BR.
    destruct (format_xref_stream _ d0 _ x) as [[built d1]| |] eqn:EF; try discriminate. cbn [bind] in BR.
    destruct la as [blk|]; try discriminate. cbn [of_opt bind] in BR.
    destruct (upd_slot ni x _) as [ni1| |] eqn:EU1; try discriminate. cbn [bind] in BR.
    destruct (upd_slot ni1 0 _) as [ni2| |] eqn:EU2; try discriminate. cbn [bind] in BR.
    destruct (pyset cache1 0 (PDict d1)) as [cache2| |] eqn:EPC; try discriminate. cbn [bind] in BR.
    assert (EQ3 : R = [10] ++ fr ++ built ++ tail /\ newi = ni2 /\ cache' = cache2) by (inversion BR; auto). clear BR. destruct EQ3 as (-> & -> & ->).
    unfold upd_slot in EU1. destruct (pyget ni x) as [s1| |] eqn:EG1; try discriminate. cbn [bind] in EU1.
    destruct (as_dict s1) as [e1| |] eqn:EA1; try discriminate. cbn [bind] in EU1. apply as_dict_inv in EA1. subst s1.
    apply pyget_cell in EG1; auto.
    unfold upd_slot in EU2. destruct (pyget ni1 0) as [s2| |] eqn:EG2; try discriminate. cbn [bind] in EU2.
    destruct (as_dict s2) as [e2| |] eqn:EA2; try discriminate. cbn [bind] in EU2. apply as_dict_inv in EA2. subst s2.
    apply pyget_cell in EG2; [|lia].
    pose proof (pyset_same _ _ _ _ PX EU1) as CS1. pose proof (pyset_other _ _ _ _ PX EU1) as CO1.
    pose proof (pyset_same _ _ _ _ (Z.le_refl 0) EU2) as CS2. pose proof (pyset_other _ _ _ _ (Z.le_refl 0) EU2) as CO2.
    assert (NIX : ~ In x (map num_of l)).
    { intros [Q|I]; [cbn in Q; congruence|]. apply in_map_iff in I as (c & Q & I). apply (NX c I). congruence. }
    assert (Q0 : forall y, cell ni 0 y <-> cell cur 0 y).
    { destruct (write_changes_ok cur cache1 chg cur (sp + 1) None fr (tl el2) ni cnt (Some blk)) as (_ & _ & Q & _); auto.
      - unfold l in EW. cbn [write_changes fst snd is_del] in EW. change (0 =? 0) with true in EW. cbn [bind] in EW.
        destruct (write_changes cur cache1 cur (sp + 1) None chg) as [[[[[f1 ee1] n1] c1] l1]| |]; try discriminate.
        cbn [bind] in EW. inversion EW; subst. reflexivity.
      - inversion NN1; auto. }
    destruct (PLC (built ++ tail)) as (l' & PM & F2).
    exists l', elems, built, cnt, cache1.
    split. { exists ([10] ++ fr). split; [unfold tail; rewrite <- !app_assoc; reflexivity|exact (eq_sym CNT)]. }
    split. { rewrite CNT. replace (P ++ [10] ++ fr ++ built ++ tail) with ((P ++ [10] ++ fr) ++ built ++ tail) by (rewrite <- !app_assoc; reflexivity). apply at_pos_here. }
    split; [exact RNG|]. split; auto. split.
    { assert (FA : Forall (fun c => In c l) l') by (apply Forall_forall; intros c I; eapply Permutation_in; [symmetry; exact PM|auto]).
      clear -F2 FA CO1 CO2 NZ NX. induction F2 as [|c y cs ys H F IHF]; constructor; inversion FA; subst; auto.
      assert (HZ : c = ((0, 0), Del) \/ (num_of c <> 0 /\ num_of c <> x)).
      { match goal with I : In c l |- _ => destruct I as [<-|I] end; auto. right. split.
        - intros Q. apply NZ. rewrite <- Q. apply in_map; auto.
        - intros Q. apply (NX c); auto. congruence. }
      destruct HZ as [->|[HZ HX]].
      - inversion H; subst; try congruence; try contradiction. constructor.
      - eapply placed_mono; [|exact H]. intros z C. apply CO2; auto. apply CO1; auto. }
    split; auto. split; auto.
    split. { rewrite (pyset_length _ _ _ _ EU2), (pyset_length _ _ _ _ EU1), A2. reflexivity. }
    split. { intros k y K0 KX NK. rewrite CO2 by auto. rewrite CO1 by congruence. apply A3. intros [Q|I]; [cbn in Q; congruence|auto]. }
    split.
    { replace (x =? 0) with false by lia. exists d0, d1. split; auto. split; auto.
      split; [exact (pyset_same _ _ _ _ (Z.le_refl 0) EPC)|]. split; [apply (pyset_other _ _ _ _ (Z.le_refl 0) EPC)|].
      split.
      - exists e2. split; [|exact CS2]. apply Q0. apply CO1; auto.
      - exists e1. eexists. split; [apply A3; auto|]. apply CO2; auto. exact CS1. }
    intros [Q|Q]; congruence.
Qed.

End WithZlib.
