(* The xref chain and the index (C57, C58, C60) *)
From Coq Require Import String ZifyBool ZifyNat Sorted Permutation.
From Verif Require Import PyBase Model_Filters Model_Objects Model_Filestruct Spec_Objects Spec_Filestruct
  Facts_Base Facts_Token Facts_Obj Facts_Prov Facts_Revision Facts_Scan.

(* ---------- chain ---------- *)
Section WithZlib.
Context {ZL : Zlib}.

Lemma chain_mono f : forall p t prev stm r, xref_chain f p t prev stm = Ok r -> xref_chain (S f) p t prev stm = Ok r.
Proof.
  induction f as [|f IH]; intros p t prev stm r E.
  - cbn [xref_chain] in E |- *. destruct ((prev =? 0) && (stm =? 0)); auto. discriminate.
  - cbn [xref_chain] in E. remember (S f) as g eqn:G. cbn [xref_chain]. destruct ((prev =? 0) && (stm =? 0)); auto.
    destruct ((if stm =? 0 then prev else stm) <? 0); auto.
    destruct (read_section _ _ _ _) as [[[xi tr] t']| |]; auto. cbn [bind] in E |- *.
    match type of E with bind ?x _ = _ => destruct x as [[[h s] q]| |]; auto end. cbn [bind] in E |- *.
    destruct (xref_chain f p t' q s) as [rest| |] eqn:X; try discriminate. rewrite (IH _ _ _ _ _ X). exact E.
Qed.

Lemma single_buffer f x len t a n : read_at (PvSingle f) x len = Ok (t, a, n) -> t = f.
Proof.
  unfold read_at, run_prov. destruct (blen f =? 0); [discriminate|]. cbn [bind].
  destruct (_ <? 0); [discriminate|]. intros E. inversion E. reflexivity.
Qed.
Lemma section_buffer f x last sx xi d t : read_section (PvSingle f) x last sx = Ok (xi, d, t) -> t = f.
Proof.
  unfold read_section. destruct (read_at _ _ (last - x)) as [[[t0 a0] n0]| |] eqn:R1; cbn [bind]; try discriminate.
  apply single_buffer in R1. subst t0. destruct (beqb _ _).
  - destruct (parse_xref_table f a0); cbn [bind]; try discriminate. destruct (znat _ <? 0); [discriminate|].
    destruct (next_token f _) as [[? j1] ?]. destruct (next_token f j1) as [[i2 j2] ?]. destruct (parse_obj _ _) as [[]| |]; cbn [bind]; try discriminate.
    intros E. inversion E. reflexivity.
  - destruct (read_at _ _ (sx - x)) as [[[t0 a1] n1]| |] eqn:R2; cbn [bind]; try discriminate. apply single_buffer in R2. subst t0.
    destruct (next_token f a1) as [[i1 j1] ?]. destruct (parse_obj f i1) as [o1| |]; cbn [bind]; try discriminate.
    destruct (next_token f j1) as [[? j2] ?]. destruct (next_token f j2) as [[? j3] ?]. destruct (next_token f j3) as [[i4 ?] ?].
    destruct (parse_obj f i4) as [o4| |]; cbn [bind]; try discriminate. destruct o1; try discriminate. destruct o4; try discriminate.
    destruct (parse_xref_stream _ _ _ _); cbn [bind]; try discriminate. intros E. inversion E. reflexivity.
Qed.

Definition chain_measure (prev stm : Z) : Z :=
  2 * Z.max 0 (Z.max prev stm) + (if (prev =? 0) || (stm =? 0) then 0 else 1).

Lemma chain_terminates F (Q : Z -> Prop) : (forall x, Q x -> back_pointers (section_at F x) (fun q => Q q /\ q < x)) ->
  (forall x, Q x -> section_at F x <> Loop) ->
  forall f prev stm, prev = 0 \/ Q prev -> stm = 0 \/ Q stm -> chain_measure prev stm < Z.of_nat f -> xref_chain f (PvSingle F) F prev stm <> Loop.
Proof.
  intros PB NL. induction f as [|f IH]; intros prev stm QP QS L; [unfold chain_measure in L; destruct ((prev =? 0) || (stm =? 0)); lia|].
  cbn [xref_chain]. destruct ((prev =? 0) && (stm =? 0)) eqn:Z0; [discriminate|].
  destruct ((if stm =? 0 then prev else stm) <? 0) eqn:NEG; [discriminate|].
  set (x := if stm =? 0 then prev else stm) in *.
  assert (QX : Q x) by (unfold x; destruct (stm =? 0) eqn:E1; destruct QP, QS; try lia; auto).
  fold (section_at F x).
  destruct (section_at F x) as [[[xi tr] t']| |] eqn:RS; cbn [bind]; [|discriminate|exfalso; eapply NL; eauto].
  pose proof (section_buffer _ _ _ _ _ _ _ RS). subst t'.
  unfold chain_measure in *.
  destruct ((if stm =? 0 then 0 else prev) =? 0) eqn:P1.
  - destruct (int_entry K_XRefStm tr) as [s| |] eqn:ES; cbn [bind].
    2: discriminate. 2: { unfold int_entry in ES. destruct (dget K_XRefStm tr); [|discriminate]. destruct (py_int_obj o); discriminate. }
    destruct (int_entry K_Prev tr) as [q| |] eqn:EQ; cbn [bind].
    2: discriminate. 2: { unfold int_entry in EQ. destruct (dget K_Prev tr); [|discriminate]. destruct (py_int_obj o); discriminate. }
    pose proof (PB _ QX _ _ _ _ _ RS (or_intror eq_refl) ES) as B1.
    pose proof (PB _ QX _ _ _ _ _ RS (or_introl eq_refl) EQ) as B2.
    destruct (xref_chain f _ F q s) eqn:X; cbn [bind]; try discriminate. exfalso. eapply IH; [| | |exact X]; try tauto.
    unfold x in *. destruct (stm =? 0) eqn:E1, (prev =? 0) eqn:E2, (q =? 0), (s =? 0); cbn [orb andb] in *; lia.
  - cbn [bind]. destruct (stm =? 0) eqn:E1; [lia|].
    destruct (xref_chain f _ F prev 0) eqn:X; cbn [bind]; try discriminate. exfalso. eapply IH; [| | |exact X]; try tauto.
    rewrite orb_true_r. destruct (prev =? 0); [discriminate|]. cbn [orb] in L. unfold x in NEG. lia.
Qed.

(* C57, the part that holds *)
Theorem sequence_terminates F (Q : Z -> Prop) : 
  (forall x, Q x -> section_at F x <> Loop /\ back_pointers (section_at F x) (fun q => Q q /\ q < x)) ->
  last_section F <> Loop -> back_pointers (last_section F) Q ->
  exists n, forall f, (n <= f)%nat -> build_xref_sequence f (PvSingle F) <> Loop.
Proof.
  intros PB' NLS PLS.
  assert (PB : forall x, Q x -> back_pointers (section_at F x) (fun q => Q q /\ q < x)) by (intros; apply PB'; auto).
  assert (NL : forall x, Q x -> section_at F x <> Loop) by (intros; apply PB'; auto). clear PB'.
  assert (NI : forall k d, int_entry k d <> Loop).
  { intros k d E. unfold int_entry in E. destruct (dget k d); [|discriminate]. destruct (py_int_obj o); discriminate. }
  assert (G : exists n, forall f, (n <= f)%nat -> xref_chrono f (PvSingle F) <> Loop).
  { unfold xref_chrono. unfold last_section in *.
    destruct (read_at (PvSingle F) (-100) (-1)) as [[[t a0] n0]| |] eqn:RA; cbn [bind] in *; [|exists 0%nat; discriminate|congruence].
    pose proof (single_buffer _ _ _ _ _ _ RA). subst t.
    destruct (next_token F (Z.to_nat (znat (rfind W_startxref F a0) + 9))) as [[i j] k].
    destruct (py_int 10 (sub F i j)) as [x|]; cbn [of_opt bind] in *; [|exists 0%nat; discriminate].
    destruct (read_section (PvSingle F) x _ _) as [[[xi tr] t']| |] eqn:RS; cbn [bind]; [|exists 0%nat; discriminate|congruence].
    pose proof (section_buffer _ _ _ _ _ _ _ RS). subst t'.
    destruct (int_entry K_XRefStm tr) as [s| |] eqn:ES; cbn [bind]; [|exists 0%nat; discriminate|exfalso; eapply NI; eauto].
    destruct (int_entry K_Prev tr) as [q| |] eqn:EQ; cbn [bind]; [|exists 0%nat; discriminate|exfalso; eapply NI; eauto].
    pose proof (PLS _ _ _ _ _ eq_refl (or_intror eq_refl) ES) as B1.
    pose proof (PLS _ _ _ _ _ eq_refl (or_introl eq_refl) EQ) as B2.
    exists (S (Z.to_nat (chain_measure q s))). intros f L. destruct (xref_chain f (PvSingle F) F q s) eqn:X; cbn [bind]; try discriminate.
    exfalso. eapply chain_terminates; [exact PB|exact NL|exact B2|exact B1| |exact X].
    assert (0 <= chain_measure q s) by (unfold chain_measure; destruct ((q =? 0) || (s =? 0)); lia). lia. }
  destruct G as (n & G). exists n. intros f L. unfold build_xref_sequence. specialize (G f L).
  destruct (xref_chrono f (PvSingle F)) as [c| |]; cbn [bind]; try discriminate; [|congruence].
  cbn. unfold finish_seq; destruct (flat_map seq_of c) as [|[? ?] ?]; discriminate.
Qed.

(* a section that points to itself is read for ever *)
Lemma self_loop p t x xi d : 0 < x -> dget K_XRefStm d = None -> dget K_Prev d = Some (PInt x) ->
  read_section p x (znat (find W_EOF t (Z.to_nat x))) (znat (find W_startxref t (Z.to_nat x))) = Ok (xi, d, t) ->
  forall f, xref_chain f p t x 0 = Loop.
Proof.
  intros P NS PV RS. induction f as [|f IH]; cbn [xref_chain].
  - replace (x =? 0) with false by lia. reflexivity.
  - replace (x =? 0) with false by lia. cbn [andb Z.eqb]. replace (x <? 0) with false by lia. rewrite RS. cbn [bind].
    unfold int_entry. rewrite NS, PV. cbn [py_int_obj of_opt bind]. rewrite IH. reflexivity.
Qed.

Lemma sequence_stuck p t a0 n0 i j k xp xi tr t' q : read_at p (-100) (-1) = Ok (t, a0, n0) ->
  next_token t (Z.to_nat (znat (rfind W_startxref t a0) + 9)) = (i, j, k) -> py_int 10 (sub t i j) = Some xp ->
  read_section p xp (znat (rfind W_startxref t a0)) (znat (rfind W_startxref t a0)) = Ok (xi, tr, t') ->
  dget K_XRefStm tr = None -> dget K_Prev tr = Some (PInt q) -> (forall f, xref_chain f p t' q 0 = Loop) ->
  forall fuel, build_xref_sequence fuel p = Loop.
Proof.
  intros RA NT PI RS XS PV CH fuel. unfold build_xref_sequence, xref_chrono. rewrite RA. cbn [bind]. rewrite NT, PI. cbn [of_opt bind].
  rewrite RS. cbn [bind]. unfold int_entry. rewrite XS, PV. cbn [bind py_int_obj of_opt]. rewrite CH. reflexivity.
Qed.

End WithZlib.

(* ---------- what follows a position ---------- *)
Lemma next_map_sorted l : StronglySorted Z.le l -> forall a b, zlookup a (next_map l) = Some b <-> In a l /\ least_above l a b.
Proof.
  induction 1 as [|x l SL IH F]; intros a b.
  - cbn. split; [discriminate|]. intros [[] _].
  - cbn [next_map]. destruct l as [|y l].
    + cbn. split; [discriminate|]. intros [[->|[]] [[<-|[]] [C _]]]. lia.
    + assert (XY : x <= y) by (inversion F; auto).
      assert (FY : Forall (Z.le y) l) by (inversion SL; auto).
      assert (KEYS : forall k v, zlookup k (next_map (y :: l)) = Some v -> In k (y :: l)) by (intros k v E; apply IH in E; tauto).
      assert (LA : forall b, a <> x \/ In a (y :: l) -> (In a (x :: y :: l) /\ least_above (x :: y :: l) a b <-> In a (y :: l) /\ least_above (y :: l) a b)).
      { intros b0 Q. unfold least_above. split.
        - intros (I & J & LT & M). assert (I' : In a (y :: l)) by (destruct Q as [Q|Q]; auto; destruct I; auto; congruence).
          assert (x <= a) by (rewrite Forall_forall in F; apply F; auto).
          split; auto. split; [destruct J as [->|J]; auto; lia|]. split; auto. intros c C. apply M. right; auto.
        - intros (I & J & LT & M). split; [right; auto|]. split; [right; auto|]. split; auto. intros c [<-|C] L1; auto.
          assert (x <= a) by (rewrite Forall_forall in F; apply F; auto). lia. }
      destruct (x <? y) eqn:LT.
      * cbn [zlookup]. destruct (zlookup a (next_map (y :: l))) as [v|] eqn:E.
        -- rewrite (LA b) by (right; eapply KEYS; eauto). rewrite <- IH, E. reflexivity.
        -- destruct (a =? x) eqn:AX.
           ++ assert (a = x) by lia. subst a. split.
              ** intros H. inversion H; subst. split; [left; auto|]. split; [right; left; auto|]. split; [lia|].
                 intros c [<-|[<-|C]] L1; try lia. rewrite Forall_forall in FY. apply FY; auto.
              ** intros (_ & J & L1 & M). f_equal. assert (b <= y) by (apply M; [right; left; auto|lia]).
                 destruct J as [->|[->|J]]; try lia. rewrite Forall_forall in FY. specialize (FY _ J). lia.
           ++ rewrite (LA b) by (left; lia). rewrite <- IH, E. split; discriminate.
      * assert (x = y) by lia. subst y. rewrite IH. split; intros (I & J).
        -- rewrite (LA b) by auto. auto.
        -- assert (I' : In a (x :: l)) by (destruct I; auto; left; auto). rewrite <- (LA b) by auto. auto.
Qed.

Lemma sorted_snoc l z : StronglySorted (fun a b => a <= b) l -> Forall (fun a => a <= z) l -> StronglySorted Z.le (l ++ [z]).
Proof.
  induction 1 as [|x l SL IH F]; intros FZ; cbn; [repeat constructor|]. inversion FZ; subst. constructor; auto.
  apply Forall_app. split; auto.
Qed.

(* C60 *)
Theorem following_position chrono sz nxt nb : finish_seq chrono sz = Ok (nxt, nb) ->
  let seq := flat_map seq_of chrono in
  Forall (fun x => fst x <= sz) seq ->
  (forall a b, zlookup a nxt = Some b <-> (In a (map fst seq) \/ a = sz) /\ least_above (sz :: map fst seq) a b) /\ (In nb (map snd seq) /\ Forall (fun x => snd x <= nb) seq).
Proof.
  intros E seq F. unfold finish_seq in E. fold seq in E. destruct seq as [|[p0 n0] r] eqn:ES; [discriminate|]. rewrite <- ES in E |- *.
  inversion E; subst nxt nb. split.
  - intros a b. rewrite next_map_sorted.
    2: { apply sorted_snoc; [apply sort_by_sorted|]. eapply Permutation_Forall; [symmetry; apply sort_by_perm|].
         apply Forall_map. rewrite ES. exact F. }
    assert (IFF : forall c, In c (sort_by (fun z => z) (map fst seq) ++ [sz]) <-> In c (sz :: map fst seq)).
    { intros c. rewrite in_app_iff. cbn [In]. split.
      - intros [H|[H|[]]]; auto. right. eapply Permutation_in; [apply sort_by_perm|]; eauto.
      - intros [H|H]; auto. left. eapply Permutation_in; [symmetry; apply sort_by_perm|]; eauto. }
    unfold least_above. rewrite !IFF. cbn [In]. split.
    + intros (A & J & L & M). split; [intuition|]. split; auto. split; auto. intros c C. apply M. apply IFF. exact C.
    + intros (A & J & L & M). split; [intuition|]. split; auto. split; auto. intros c C. apply M. apply IFF. exact C.
  - clear -ES. rewrite ES. cbn [map snd]. clear ES.
    assert (G : forall l m, (In (fold_left (fun m (x : Z * Z) => Z.max m (snd x)) l m) (m :: map snd l)) /\ m <= fold_left (fun m (x : Z * Z) => Z.max m (snd x)) l m /\ Forall (fun x => snd x <= fold_left (fun m (x : Z * Z) => Z.max m (snd x)) l m) l).
    { induction l as [|x l IH]; intros m; cbn [fold_left map]; [split; [left; auto|split; [lia|constructor]]|].
      destruct (IH (Z.max m (snd x))) as (A & B & C). split; [|split; [lia|constructor; [lia|auto]]].
      destruct A as [A|A]; [|right; right; auto]. rewrite <- A. destruct (Z.max_spec m (snd x)) as [[_ ->]|[_ ->]]; [right; left|left]; auto. }
    destruct (G r n0) as (A & B & C). split; auto.
Qed.

(* ---------- rows ---------- *)
Definition ok_num (nb n : Z) : Prop := n = -1 \/ 1 <= n <= nb.
Definition related (nb : Z) (m : list slot) (H : Z -> list (Z * ient)) : Prop :=
  Z.of_nat (length m) = nb + 2 /\
  forall n, ok_num nb n -> pyget m n = Ok (cell_of (H n)) /\ Forall (fun x => n_num (snd x) = n) (H n).

Lemma pyget_slot {A} (l : list A) n i : pyidx l n = Some i -> pyget l n = of_opt EIndexError (nth_error l i).
Proof. unfold pyget. intros ->. reflexivity. Qed.
Lemma pyidx_ok {A} (l : list A) nb n : 0 <= nb -> Z.of_nat (length l) = nb + 2 -> ok_num nb n ->
  exists i, pyidx l n = Some i /\ (1 <= i < length l)%nat /\ Z.of_nat i = (if n =? -1 then nb + 1 else n).
Proof.
  intros B L [->|N]; unfold pyidx.
  - rewrite L. replace ((0 <=? -1) && _) with false by lia. replace ((- (nb + 2) <=? -1) && _) with true by lia.
    eexists. split; [reflexivity|]. change (-1 =? -1) with true. lia.
  - rewrite L. replace ((0 <=? n) && (n <? nb + 2)) with true by lia. eexists. split; [reflexivity|].
    replace (n =? -1) with false by lia. lia.
Qed.

Lemma pyset_related nb m H n v h : 0 <= nb -> related nb m H -> ok_num nb n -> v = cell_of h -> Forall (fun x => n_num (snd x) = n) h ->
  exists m', pyset m n v = Ok m' /\ nth_error m' 0 = nth_error m 0 /\ related nb m' (fun k => if k =? n then h else H k).
Proof.
  intros NB [L R] N -> FH. destruct (pyidx_ok m nb n NB L N) as (i & PI & I1 & I2).
  unfold pyset. rewrite PI. eexists. split; [reflexivity|]. split.
  - rewrite lset_get by lia. destruct (Nat.eqb 0 i) eqn:E; auto. apply Nat.eqb_eq in E. lia.
  - split; [rewrite lset_length; auto|]. intros k K. destruct (R k K) as [RK FK].
    destruct (pyidx_ok m nb k NB L K) as (j & PJ & J1 & J2).
    assert (PJ' : pyidx (lset m i (cell_of h)) k = Some j) by (unfold pyidx in *; rewrite lset_length; auto).
    rewrite (pyget_slot _ _ _ PJ'), lset_get by lia. rewrite (pyget_slot _ _ _ PJ) in RK.
    destruct (k =? n) eqn:E.
    + assert (k = n) by lia. subst k. assert (j = i) by congruence. subst j. rewrite Nat.eqb_refl. split; auto.
    + replace (Nat.eqb j i) with false; [auto|]. symmetry. apply Nat.eqb_neq. intros ->.
      destruct (k =? -1) eqn:E1, (n =? -1) eqn:E2; destruct K, N; lia.
Qed.

Lemma related_ext nb m H H' : (forall n, H n = H' n) -> related nb m H -> related nb m H'.
Proof. intros E [L R]. split; auto. intros n N. rewrite <- E. auto. Qed.

Lemma put_entry_ok nb ver m H o : 0 <= nb -> related nb m H -> ok_num nb (n_num o) ->
  exists m', put_entry true ver m o = Ok m' /\ nth_error m' 0 = nth_error m 0 /\
    related nb m' (fun k => if k =? n_num o then remember ver (H k) o else H k).
Proof.
  intros NB RL N. pose proof RL as [L R]. destruct (R _ N) as [RN FN]. unfold put_entry. rewrite RN. cbn [bind].
  assert (EXT : forall m' h, h = remember ver (H (n_num o)) o -> related nb m' (fun k => if k =? n_num o then h else H k) ->
    related nb m' (fun k => if k =? n_num o then remember ver (H k) o else H k)).
  { intros m' h -> Q. eapply related_ext; [|exact Q]. intros k. cbn. destruct (k =? n_num o) eqn:E; auto. f_equal. f_equal. lia. }
  destruct (H (n_num o)) as [|[v e0] h0] eqn:EH; cbn [cell_of].
  - destruct (pyset_related nb m H (n_num o) (cell_of [(ver, o)]) [(ver, o)] NB RL N eq_refl) as (m' & E & Z0 & RM).
    { constructor; auto. }
    exists m'. split; [exact E|]. split; auto. eapply EXT; [|exact RM]. reflexivity.
  - cbn [as_dict bind]. set (oe := with_dver (Some v) (with_over (Some (Z.of_nat (length h0))) e0)).
    change (n_pos oe) with (n_pos e0).
    assert (NE : n_num e0 = n_num o) by (inversion FN; auto).
    destruct (match n_pos e0, n_pos o with Some a, Some b => apos_eqb a b | _, _ => false end) eqn:SP.
    + change (n_num oe) with (n_num e0). rewrite NE.
      destruct (pyset_related nb m H (n_num o) (SDict oe) ((v, e0) :: h0) NB RL N eq_refl FN) as (m' & E & Z0 & RM).
      exists m'. split; [exact E|]. split; auto. eapply EXT; [|exact RM]. cbn [remember].
      destruct (n_pos e0), (n_pos o); try discriminate. rewrite SP. reflexivity.
    + change (n_over oe) with (Some (Z.of_nat (length h0))). cbn [of_opt bind].
      destruct (pyset_related nb m H (n_num o) (cell_of ((ver, o) :: (v, e0) :: h0)) ((ver, o) :: (v, e0) :: h0) NB RL N eq_refl) as (m' & E & Z0 & RM).
      { constructor; auto. }
      exists m'. split.
      { rewrite <- E. cbn [cell_of length]. do 3 f_equal. f_equal. f_equal. lia. }
      split; auto. eapply EXT; [|exact RM]. cbn [remember].
      destruct (n_pos e0), (n_pos o); auto. rewrite SP. reflexivity.
Qed.

Lemma put_entries_ok nb ver l : 0 <= nb -> Forall (fun o => ok_num nb (n_num o)) l -> forall m H, related nb m H ->
  exists m', put_entries true ver m l = Ok m' /\ nth_error m' 0 = nth_error m 0 /\
    related nb m' (fun n => fold_left (remember ver) (filter (fun e => n_num e =? n) l) (H n)).
Proof.
  intros NB F. induction F as [|o l N F IH]; intros m H RL; cbn [put_entries].
  - exists m. split; auto.
  - destruct (put_entry_ok nb ver m H o NB RL N) as (m1 & E & Z0 & RM). rewrite E. cbn [bind].
    destruct (IH _ _ RM) as (m2 & E2 & Z2 & RM2). exists m2. split; auto. split; [congruence|].
    eapply related_ext; [|exact RM2]. intros n. cbn beta. cbn [filter].
    replace (n_num o =? n) with (n =? n_num o) by lia. destruct (n =? n_num o) eqn:EN; cbn [fold_left]; auto.
Qed.

Definition row_ok (nb : Z) (row : list slot) (k : Z) (t : ient) (H : Z -> list (Z * ient)) : Prop :=
  nth_error row 0 = Some (SDict (with_dver (Some k) (with_over (Some k) t))) /\ related nb row H.

Lemma lset_related nb m H v : 0 <= nb -> related nb m H -> related nb (lset m 0 v) H.
Proof.
  intros NB [L R]. split; [rewrite lset_length; auto|]. intros n N. destruct (R n N) as [RN FN]. split; auto.
  destruct (pyidx_ok m nb n NB L N) as (i & PI & I1 & I2).
  assert (PI' : pyidx (lset m 0 v) n = Some i) by (unfold pyidx in *; rewrite lset_length; auto).
  rewrite (pyget_slot _ _ _ PI'), lset_get by lia. rewrite (pyget_slot _ _ _ PI) in RN.
  replace (Nat.eqb i 0) with false; auto. symmetry. apply Nat.eqb_neq. lia.
Qed.

Lemma build_rows_ok nb secs : 0 <= nb -> Forall (fun s => Forall (fun o => ok_num nb (n_num o)) (tl s)) secs ->
  forall done have m ver prev H, related nb m H -> increasing prev secs ->
  exists rows, build_rows done have m ver prev secs = Ok (rev (if have then m :: done else done) ++ rows) /\
    length rows = length secs /\
    forall k row sec, nth_error rows k = Some row -> nth_error secs k = Some sec ->
      exists t es, sec = t :: es /\ row_ok nb row (ver + 1 + Z.of_nat k) t (fun n => history n (ver + 1) (H n) (firstn (S k) secs)).
Proof.
  intros NB F. induction F as [|s secs FS F IH]; intros done have m ver prev H RL INC.
  - exists []. cbn [build_rows]. rewrite app_nil_r. split; auto. split; auto. intros [|k] row sec E; discriminate.
  - destruct INC as (t & es & p & -> & PT & ST & LT & INC). cbn [tl] in FS.
    cbn [build_rows]. unfold pos_int. rewrite PT. cbn [bind]. replace (prev <? p) with true by lia.
    destruct m as [|m0 m']; [destruct RL as [L _]; cbn in L; lia|]. cbn [nth_error of_opt bind].
    set (m := m0 :: m') in *. set (t' := SDict _).
    destruct (put_entries_ok nb (ver + 1) es NB FS (lset m 0 t') H (lset_related nb m H t' NB RL)) as (m2 & E2 & Z2 & R2).
    rewrite E2. cbn [bind].
    destruct (IH (if have then m :: done else done) true m2 (ver + 1) p _ R2 INC) as (rows & E3 & L3 & R3).
    exists (m2 :: rows). split; [rewrite E3; cbn [rev]; rewrite <- app_assoc; reflexivity|]. split; [cbn [length]; lia|].
    intros [|k] row sec EK ES; cbn [nth_error] in EK, ES.
    + injection EK as <-. injection ES as <-. exists t, es. split; auto. split.
      * rewrite Z2. cbn [lset nth_error]. unfold t'. replace (ver + 1 + Z.of_nat 0) with (ver + 1) by lia. reflexivity.
      * cbn [firstn history]. exact R2.
    + destruct (R3 k row sec EK ES) as (t1 & es1 & -> & RO1 & RO2). exists t1, es1. split; auto.
      replace (ver + 1 + Z.of_nat (S k)) with (ver + 1 + 1 + Z.of_nat k) by lia. split; auto.
Qed.

Lemma hybrid_none seq : forall acc, Forall (fun s => exists t es, s = t :: es /\ n_stm t = false) seq -> hybrid_merge acc seq = Ok (rev acc ++ seq).
Proof.
  induction seq as [|s seq IH]; intros acc F; cbn [hybrid_merge]; [rewrite app_nil_r; auto|].
  inversion F as [|? ? (t & es & -> & ST) F']; subst. rewrite ST, IH by auto. cbn [rev]. rewrite <- app_assoc. reflexivity.
Qed.

Lemma increasing_stm secs : forall prev, increasing prev secs -> Forall (fun s => exists t es, s = t :: es /\ n_stm t = false) secs.
Proof.
  induction secs as [|s secs IH]; intros prev I; constructor.
  - destruct I as (t & es & p & -> & _ & ST & _). eauto.
  - destruct I as (t & es & p & _ & _ & _ & _ & I). eapply IH; eauto.
Qed.

Lemma remember_next k h e : Forall (fun x => n_next (snd x) = None) h -> n_next e = None -> Forall (fun x => n_next (snd x) = None) (remember k h e).
Proof.
  intros F N. unfold remember. destruct h as [|[v e0] h]; [constructor; auto|].
  destruct (n_pos e0), (n_pos e); try (constructor; auto; fail). destruct (apos_eqb _ _); auto.
Qed.
Lemma history_next num secs : Forall (Forall (fun e => n_next e = None)) secs -> forall k h, Forall (fun x => n_next (snd x) = None) h ->
  Forall (fun x => n_next (snd x) = None) (history num k h secs).
Proof.
  induction 1 as [|s secs FS F IH]; intros k h FH; cbn [history]; auto. apply IH.
  unfold remember_all. assert (G : forall l, Forall (fun e => n_next e = None) l -> forall h, Forall (fun x => n_next (snd x) = None) h ->
    Forall (fun x => n_next (snd x) = None) (fold_left (remember k) l h)).
  { induction 1; intros; cbn [fold_left]; auto. apply IHForall. apply remember_next; auto. }
  apply G; auto. destruct s; cbn [tl]; [constructor|]. inversion FS; subst. clear -H2.
  induction H2; cbn [filter]; auto. destruct (n_num x =? num); auto.
Qed.

Lemma complete_ok rows nxt e y : n_next e = None -> complete rows nxt e = Ok y -> completed rows nxt (SDict e) (SDict y).
Proof.
  unfold complete. intros ->. destruct (n_dver e) as [v|] eqn:EV; [|discriminate]. cbn [of_opt bind].
  destruct (pyget rows v) as [row| |] eqn:ER; try discriminate. cbn [bind].
  destruct (n_pos e) as [[p|? ?|env off]|] eqn:EP; try discriminate.
  - destruct (zlookup p nxt) eqn:EZ; [|discriminate]. cbn [of_opt bind]. intros H. inversion H. eapply cp_direct; eauto.
  - destruct (pyget row env) as [c| |] eqn:EC; try discriminate. cbn [bind].
    destruct (as_dict c) as [ce| |] eqn:ED; try discriminate. cbn [bind]. apply as_dict_inv in ED. subst c.
    unfold pos_int. destruct (n_pos ce) as [[loc|? ?|? ?]|] eqn:EPC; try discriminate. cbn [bind].
    destruct (zlookup loc nxt) eqn:EZ; [|discriminate]. cbn [of_opt bind]. intros H. inversion H. eapply cp_embedded; eauto.
Qed.

Lemma map_res_nth {A C} (f : A -> res C) l : forall r, map_res f l = Ok r -> length r = length l /\
  forall k x, nth_error l k = Some x -> exists y, nth_error r k = Some y /\ f x = Ok y.
Proof.
  induction l as [|x l IH]; intros r E; cbn [map_res] in E.
  - inversion E. split; auto. intros [|k] x H; discriminate.
  - destruct (f x) as [y| |] eqn:EX; try discriminate. cbn [bind] in E. destruct (map_res f l) as [tl| |] eqn:ET; try discriminate.
    cbn [bind] in E. inversion E; subst. destruct (IH _ eq_refl) as [L N]. split; [cbn; lia|].
    intros [|k] x' H; cbn [nth_error] in *; [injection H as <-; eauto|auto].
Qed.

(* C58 *)
Theorem index_rows chrono nxt nb idx : 0 <= nb -> increasing 0 (rev chrono) ->
  Forall (Forall (fun e => n_next e = None)) chrono ->
  Forall (fun s => Forall (fun o => ok_num nb (n_num o)) (tl s)) chrono ->
  build_index chrono nxt nb = Ok idx ->
  length idx = length chrono /\
  exists raw, length raw = length chrono /\
    forall k row sec, nth_error idx k = Some row -> nth_error (rev chrono) k = Some sec ->
      length row = Z.to_nat (nb + 2) /\
      (exists t es c, sec = t :: es /\ nth_error row 0 = Some c /\
         completed raw nxt (SDict (with_dver (Some (Z.of_nat k)) (with_over (Some (Z.of_nat k)) t))) c) /\
      (exists rrow, nth_error raw k = Some rrow /\
         forall n, ok_num nb n -> let c := cell_of (history n 0 [] (firstn (S k) (rev chrono))) in
           pyget rrow n = Ok c /\ exists c', pyget row n = Ok c' /\ completed raw nxt c c').
Proof.
  intros NB INC FN FO E. unfold build_index in E.
  rewrite hybrid_none in E by (eapply increasing_stm; eauto). cbn [rev app bind] in E.
  assert (FO' : Forall (fun s => Forall (fun o => ok_num nb (n_num o)) (tl s)) (rev chrono)) by (apply Forall_rev; auto).
  assert (FN' : Forall (Forall (fun e => n_next e = None)) (rev chrono)) by (apply Forall_rev; auto).
  assert (RL : related nb (repeat SNone (Z.to_nat (nb + 2))) (fun _ => [])).
  { split; [rewrite repeat_length; lia|]. intros n N. split; [|constructor].
    destruct (pyidx_ok (repeat SNone (Z.to_nat (nb + 2))) nb n NB) as (i & PI & I1 & I2); auto; [rewrite repeat_length; lia|].
    rewrite (pyget_slot _ _ _ PI). rewrite repeat_length in I1. rewrite (nth_error_nth' _ SNone) by (rewrite repeat_length; lia).
    rewrite nth_repeat. reflexivity. }
  destruct (build_rows_ok nb (rev chrono) NB FO' [] false (repeat SNone (Z.to_nat (nb + 2))) (-1) 0 _ RL INC) as (rows & EB & LB & RB).
  rewrite EB in E. cbn [rev app bind] in E.
  destruct (map_res_nth _ _ _ E) as [L N]. rewrite rev_length in LB. split; [lia|].
  exists rows. split; auto. intros k row sec EK ES.
  assert (K : (k < length rows)%nat) by (rewrite <- L; apply nth_error_Some; congruence).
  destruct (nth_error rows k) as [rrow|] eqn:ER; [|apply nth_error_None in ER; lia].
  destruct (N _ _ ER) as (row' & EK' & MR). assert (row' = row) by congruence. subst row'.
  destruct (map_res_nth _ _ _ MR) as [LR NR].
  destruct (RB k rrow sec ER ES) as (t & es & -> & R0 & RR).
  replace (-1 + 1 + Z.of_nat k) with (Z.of_nat k) in R0 by lia. change (-1 + 1) with 0 in RR.
  assert (NT : n_next t = None).
  { apply nth_error_In in ES. rewrite Forall_forall in FN'. specialize (FN' _ ES). inversion FN'; auto. }
  split; [destruct RR as [LL _]; lia|]. split.
  - destruct (NR _ _ R0) as (c & EC & CC). exists t, es, c. split; auto. split; auto.
    cbn [complete_slot] in CC. destruct (complete rows nxt _) as [y| |] eqn:CE; try discriminate. cbn [bind] in CC. inversion CC.
    eapply complete_ok; eauto.
  - exists rrow. split; auto. intros n ON c. destruct RR as [LL RR]. destruct (RR n ON) as [PG _]. fold c in PG. split; auto.
    destruct (pyidx_ok rrow nb n NB LL ON) as (i & PI & I1 & I2).
    assert (PI' : pyidx row n = Some i) by (unfold pyidx in *; rewrite LR; auto).
    rewrite (pyget_slot _ _ _ PI) in PG. destruct (nth_error rrow i) as [c0|] eqn:EI; [|discriminate]. inversion PG. subst c0.
    destruct (NR _ _ EI) as (c' & EC & CC). exists c'. split; [rewrite (pyget_slot _ _ _ PI'), EC; reflexivity|].
    assert (HN : Forall (fun x => n_next (snd x) = None) (history n 0 [] (firstn (S k) (rev chrono)))).
    { apply history_next; [|constructor]. eapply (Forall_impl _ (fun _ H => H)).
      rewrite <- (firstn_skipn (S k) (rev chrono)) in FN'. apply Forall_app in FN' as [FN' _]. exact FN'. }
    subst c. destruct (history n 0 [] (firstn (S k) (rev chrono))) as [|[v e] h]; cbn [cell_of complete_slot] in *.
    + inversion CC. constructor.
    + destruct (complete rows nxt _) as [y| |] eqn:CE; try discriminate. cbn [bind] in CC. inversion CC.
      apply complete_ok; auto. inversion HN; auto.
Qed.
