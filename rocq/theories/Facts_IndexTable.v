(* Proofs about the table of the index *)
From Coq Require Import String ZifyBool ZifyNat.
From Verif Require Import PyBase Model_Filters Model_Objects Model_Filestruct Model_Text Model_Docstruct Model_Api Model_Print Model_IndexTable Spec_IndexTable Facts_Doc.
Open Scope Z_scope.

Lemma last_such_snoc : forall P l x e, last_such P (l ++ [x]) e <-> (P x /\ e = x) \/ (~ P x /\ last_such P l e).
Proof.
  intros P l x e. split.
  - intros (a & b & E & H & F). destruct b as [|y b _] using rev_ind.
    + apply app_inj_tail in E as [E1 E2]. subst. left. split; [exact H|reflexivity].
    + rewrite app_comm_cons, app_assoc in E. apply app_inj_tail in E as [E1 E2]. subst. right. apply Forall_app in F as [F1 F2]. split; [exact (Forall_inv F2)|]. exists a, b. repeat split; assumption.
  - intros [[H ->]|[N (a & b & E & H & F)]].
    + exists l, []. repeat split; auto.
    + exists a, (b ++ [x]). subst. rewrite <- app_assoc. repeat split; auto. apply Forall_app. split; [exact F|constructor; auto].
Qed.
Lemma last_such_fun : forall P l e e', last_such P l e -> last_such P l e' -> e = e'.
Proof.
  intros P l. induction l as [|x l IH] using rev_ind; intros e e' H H'.
  - destruct H as (a & b & E & _). destruct a; discriminate E.
  - apply last_such_snoc in H as [[P0 ->]|[N H]]; apply last_such_snoc in H' as [[P' ->]|[N' H']]; auto; contradiction.
Qed.
Lemma last_such_nil : forall P e, ~ last_such P [] e.
Proof. intros P e (a & b & E & _). destruct a; discriminate E. Qed.

Lemma apos_eqb_iff : forall a b, apos_eqb a b = true <-> a = b.
Proof.
  intros [x|x k|x k] [y|y j|y j]; cbn; split; intros H; try discriminate H;
    first [injection H; intros; subst; rewrite ?Z.eqb_refl; reflexivity|rewrite ?andb_true_iff, ?Z.eqb_eq in H; f_equal; intuition lia].
Qed.
Lemma oz_eqb_iff : forall a b, oz_eqb a b = true <-> a = b.
Proof. intros [x|] [y|]; cbn; split; intros H; try discriminate H; auto; [f_equal; lia|injection H; lia]. Qed.
Lemma ids_eqb_iff : forall a b, ids_eqb a b = true <-> a = b.
Proof.
  intros [[g v] w] [[g' v'] w']. cbn. split; intros H.
  - apply andb_prop in H as [H H3]. apply andb_prop in H as [H1 H2]. apply oz_eqb_iff in H1, H2, H3. subst. reflexivity.
  - injection H; intros; subst. rewrite !(proj2 (oz_eqb_iff _ _) eq_refl). reflexivity.
Qed.
Lemma opos_eqb_iff : forall a b, opos_eqb a b = true <-> a = Some b.
Proof.
  intros [[x|]|] [y|]; cbn; split; intros H; try discriminate H; auto.
  - apply apos_eqb_iff in H. subst. reflexivity.
  - injection H as H. apply apos_eqb_iff. exact H.
Qed.
Lemma number_text : forall o, number_shown o (oz_text o).
Proof. intros [z0|]; reflexivity. Qed.

Section Show.
Context (show : apos -> bytes).

Record follows_seen (st : seen) (earlier : list ient) : Prop := mk_fs {
  fs_ids : (s_ids st = (None, None, None) /\ forall e, ~ last_such live earlier e) \/ exists e, last_such live earlier e /\ s_ids st = ids_of e;
  fs_pos : (s_pos st = None /\ earlier = []) \/ exists e, last_such (fun _ => True) earlier e /\ s_pos st = Some (n_pos e);
  fs_env : (s_env st = (None, None) /\ earlier = []) \/ exists e, last_such (fun _ => True) earlier e /\ s_env st = (n_env e, n_opos e)
}.
Lemma last_any : forall l x, last_such (fun _ => True) (l ++ [x]) x.
Proof. intros. apply last_such_snoc. left. auto. Qed.

Lemma entry_cell_ok : forall st earlier e c st', follows_seen st earlier -> entry_cell show st e = (c, st') ->
  (exists a b t, c = a ++ b ++ t /\ state_shown earlier e a /\ pos_shown show earlier e b /\ env_shown earlier e t) /\ follows_seen st' (earlier ++ [e]).
Proof.
  intros st earlier e c st' [FI FP FE] E. unfold entry_cell in E.
  destruct (if n_del e then (B "Deleted ", s_ids st) else if ids_eqb (ids_of e) (s_ids st) then (B "idem", s_ids st) else (ids_text (ids_of e), ids_of e)) as [c1 ids] eqn:E1.
  destruct (if opos_eqb (s_pos st) (n_pos e) then ([], s_pos st) else (B " " ++ opos_text show (n_pos e), Some (n_pos e))) as [c2 pos] eqn:E2.
  destruct (if oz_eqb (n_env e) (fst (s_env st)) && oz_eqb (n_opos e) (snd (s_env st)) then ([], s_env st) else (B " " ++ oz_text (n_env e), (n_env e, n_opos e))) as [c3 env] eqn:E3.
  injection E as <- <-.
  assert (A : state_shown earlier e c1 /\ ((ids = (None, None, None) /\ forall x, ~ last_such live (earlier ++ [e]) x) \/ exists x, last_such live (earlier ++ [e]) x /\ ids = ids_of x)).
  { destruct (n_del e) eqn:D.
    - injection E1 as <- <-. split; [constructor; exact D|]. assert (N : ~ live e) by (unfold live; rewrite D; discriminate).
      destruct FI as [[I1 I2]|(x & I1 & I2)].
      + left. split; [exact I1|]. intros x L. apply last_such_snoc in L as [[L _]|[_ L]]; [contradiction|exact (I2 x L)].
      + right. exists x. split; [|exact I2]. apply last_such_snoc. right. auto.
    - assert (LV : last_such live (earlier ++ [e]) e) by (apply last_such_snoc; left; split; [exact D|reflexivity]).
      destruct (ids_eqb (ids_of e) (s_ids st)) eqn:Q; injection E1 as <- <-.
      + apply ids_eqb_iff in Q. destruct FI as [[I1 I2]|(x & I1 & I2)]; [rewrite I1 in Q; discriminate Q|]. rewrite I2 in Q. split.
        * injection Q as Q1 Q2 Q3. eapply Ss_same with (e' := x); auto.
        * right. exists e. split; [exact LV|]. rewrite I2. symmetry. exact Q.
      + split; [|right; exists e; auto]. change (state_shown earlier e (dec (n_gen e) ++ [47] ++ oz_text (n_over e) ++ [47] ++ oz_text (n_dver e))). apply Ss_new; [exact D| |apply number_text|apply number_text].
        intros x L (G & V & W). destruct FI as [[I1 I2]|(y & I1 & I2)]; [exact (I2 x L)|]. rewrite (last_such_fun _ _ _ _ I1 L) in I2.
        assert (QQ : ids_eqb (ids_of e) (s_ids st) = true) by (apply ids_eqb_iff; rewrite I2; unfold ids_of; rewrite G, V, W; reflexivity). congruence. }
  assert (P : pos_shown show earlier e c2 /\ pos = Some (n_pos e)).
  { destruct (opos_eqb (s_pos st) (n_pos e)) eqn:Q; injection E2 as <- <-.
    - apply opos_eqb_iff in Q. split; [|exact Q]. destruct FP as [[I1 I2]|(x & I1 & I2)]; [congruence|]. apply Ps_same with (e' := x); [exact I1|congruence].
    - split; [|reflexivity]. apply Ps_new.
      + intros x L EQ. destruct FP as [[I1 I2]|(y & I1 & I2)]; [subst; exact (last_such_nil _ _ L)|]. rewrite (last_such_fun _ _ _ _ I1 L), EQ in I2. apply opos_eqb_iff in I2. congruence.
      + destruct (n_pos e); reflexivity. }
  assert (V : env_shown earlier e c3 /\ env = (n_env e, n_opos e)).
  { destruct (oz_eqb (n_env e) (fst (s_env st)) && oz_eqb (n_opos e) (snd (s_env st))) eqn:Q; injection E3 as <- <-.
    - apply andb_prop in Q as [Q1 Q2]. apply oz_eqb_iff in Q1, Q2. split; [|rewrite Q1, Q2; apply surjective_pairing].
      destruct FE as [[I1 I2]|(x & I1 & I2)]; [rewrite I1 in Q1, Q2; apply Es_none; assumption|]. rewrite I2 in Q1, Q2. apply Es_same with (e' := x); auto.
    - split; [|reflexivity].
      assert (N : s_env st <> (n_env e, n_opos e)).
      { intros X. rewrite X in Q. cbn [fst snd] in Q. rewrite !(proj2 (oz_eqb_iff _ _) eq_refl) in Q. discriminate Q. }
      apply Es_new; [| |apply number_text].
      + intros x L (X & Y). destruct FE as [[I1 I2]|(y & I1 & I2)]; [subst; exact (last_such_nil _ _ L)|]. rewrite (last_such_fun _ _ _ _ I1 L), X, Y in I2. contradiction.
      + intros -> (X & Y). destruct FE as [[I1 I2]|(y & I1 & I2)]; [rewrite I1, X, Y in N; contradiction|exact (last_such_nil _ _ I1)]. }
  destruct A as [A1 A2], P as [P1 P2], V as [V1 V2]. split.
  - exists c1, c2, c3. repeat split; assumption.
  - constructor; cbn [s_ids s_pos s_env]; [exact A2|right|right]; exists e; (split; [apply last_any|assumption]).
Qed.

Definition listsb (s : slot) : Prop := forall l, s = SList l -> l = [] \/ exists e l', l = SDict e :: l'.
Lemma object_cells_ok : forall i rows st earlier, (forall r s, In r rows -> In s r -> listsb s) -> follows_seen st earlier ->
  exists cs, object_cells show st i rows = Ok cs /\ cells_shown show i earlier rows cs.
Proof.
  intros i rows. induction rows as [|r rows IH]; intros st earlier L F; cbn [object_cells].
  { exists []. split; [reflexivity|constructor]. }
  assert (L' : forall r s, In r rows -> In s r -> listsb s) by (intros; eapply L; eauto; right; assumption).
  destruct (nth_error r i) as [s|] eqn:N.
  - pose proof (L r s (or_introl eq_refl) (nth_error_In _ _ N)) as LS.
    assert (I : (i < length r)%nat) by (apply nth_error_Some; congruence).
    assert (C : (index_cell show st s = Ok (B "idem", st) /\ entry_in i r = None) \/ (exists e, index_cell show st s = Ok (entry_cell show st e) /\ entry_in i r = Some e)).
    { unfold entry_in. rewrite N. destruct s as [|e|l]; cbn [index_cell]; eauto. destruct (LS l eq_refl) as [->|(e & l' & ->)]; eauto. }
    destruct C as [[C1 C2]|(e & C1 & C2)]; rewrite C1; cbn [bind].
    + destruct (IH st earlier L' F) as (cs & E & H). rewrite E. cbn [bind]. eexists. split; [reflexivity|]. apply Ix_empty; assumption.
    + destruct (entry_cell show st e) as [c st'] eqn:EC. destruct (entry_cell_ok _ _ _ _ _ F EC) as ((a & b & t & -> & A1 & A2 & A3) & F').
      destruct (IH st' _ L' F') as (cs & E & H). cbn [bind]. rewrite E. cbn [bind]. eexists. split; [reflexivity|]. eapply Ix_entry; eassumption.
  - destruct (IH st earlier L' F) as (cs & E & H). rewrite E. cbn [bind]. eexists. split; [reflexivity|]. apply Ix_absent; [apply nth_error_None; exact N|exact H].
Qed.
Lemma follows_seen0 : follows_seen seen0 [].
Proof. constructor; cbn; left; (split; [reflexivity|]); auto. intros e. apply last_such_nil. Qed.

Lemma cells_length : forall i earlier rows cs, cells_shown show i earlier rows cs -> length cs = length rows.
Proof. intros i earlier rows cs H. induction H; cbn; congruence. Qed.

(* ---- widths ---- *)
Lemma widen_length : forall ws cs, length (widen ws cs) = length ws.
Proof. induction ws as [|w ws IH]; intros [|c cs]; cbn; auto. Qed.
Lemma widen_nth : forall ws cs j, nth_error (widen ws cs) j =
  match nth_error ws j with Some w => Some (match nth_error cs j with Some c => Nat.max w (length c) | None => w end) | None => None end.
Proof.
  induction ws as [|w ws IH]; intros cs [|j]; cbn; destruct cs as [|c cs]; cbn; auto. destruct (nth_error ws j); reflexivity.
Qed.
Lemma widths_step : forall m ws, let ws' := fold_left widen m ws in length ws' = length ws /\
  (forall j w, nth_error ws j = Some w -> exists w', nth_error ws' j = Some w' /\ (w <= w')%nat /\ (w' = w \/ exists cs c, In cs m /\ nth_error cs j = Some c /\ length c = w')) /\
  (forall j cs c w', In cs m -> nth_error cs j = Some c -> nth_error ws' j = Some w' -> (length c <= w')%nat).
Proof.
  induction m as [|cs m IH]; intros ws; cbn [fold_left].
  - split; [reflexivity|]. split; [intros j w H; exists w; auto|intros j cs c w' []].
  - destruct (IH (widen ws cs)) as (L & A & C). cbn zeta. split; [rewrite L; apply widen_length|]. split.
    + intros j w H. destruct (A j (match nth_error cs j with Some c => Nat.max w (length c) | None => w end)) as (w' & N & LE & D); [rewrite widen_nth, H; reflexivity|].
      exists w'. split; [exact N|]. split; [destruct (nth_error cs j); lia|]. destruct D as [D|(cs' & c & I & Nc & Lc)]; [|right; exists cs', c; split; [right; exact I|auto]].
      destruct (nth_error cs j) as [c|] eqn:Nc; [|left; exact D]. destruct (Nat.le_gt_cases (length c) w); [left; lia|]. right. exists cs, c. split; [left; reflexivity|]. split; [exact Nc|lia].
    + intros j cs' c w' [<-|I] Nc Nw; [|eapply C; eassumption]. destruct (nth_error ws j) as [w|] eqn:Nj.
      * destruct (A j (Nat.max w (length c))) as (w2 & N2 & LE & _); [rewrite widen_nth, Nj, Nc; reflexivity|]. rewrite N2 in Nw. injection Nw as <-. lia.
      * assert (X : (j < length (fold_left widen m (widen ws cs)))%nat) by (apply nth_error_Some; congruence). rewrite L, widen_length in X. apply nth_error_None in Nj. lia.
Qed.
Lemma forall2_nth : forall {A C} (R : A -> C -> Prop) l l', length l = length l' -> (forall j x y, nth_error l j = Some x -> nth_error l' j = Some y -> R x y) -> Forall2 R l l'.
Proof.
  intros A C R l. induction l as [|x l IH]; intros [|y l'] E H; try discriminate E; constructor.
  - exact (H 0%nat x y eq_refl eq_refl).
  - apply IH; [injection E; auto|]. intros j. exact (H (S j)).
Qed.
Lemma widths_fitted : forall n m, (forall cs, In cs m -> length cs = n) -> fitted m (widths_of n m).
Proof.
  intros n m L. unfold widths_of. destruct (widths_step m (repeat 1%nat n)) as (LW & A & C). rewrite repeat_length in LW. constructor.
  - intros cs I. apply forall2_nth; [rewrite LW; auto|]. intros j c w Nc Nw. eapply C; eassumption.
  - intros j w Nw. assert (J : (j < n)%nat) by (rewrite <- LW; apply nth_error_Some; congruence).
    destruct (A j 1%nat) as (w' & N' & _ & D); [apply nth_error_repeat; exact J|]. rewrite N' in Nw. injection Nw as <-. exact D.
Qed.

(* ---- layout ---- *)
Lemma bars_columns : forall ws cs, index_bars ws cs = columns ws cs.
Proof. reflexivity. Qed.
Lemma lines_numbered : forall compact ws m i, index_lines compact ws i m = numbered_lines compact ws i m.
Proof. intros compact ws m. induction m as [|cs m IH]; intros i; cbn [index_lines numbered_lines]; [reflexivity|]. rewrite IH, bars_columns. reflexivity. Qed.
Lemma label_line : forall compact ws k cs, label_text compact k ++ index_bars ws cs ++ LF = named_line compact ws k cs.
Proof. intros compact ws k cs. unfold label_text, named_line. rewrite bars_columns. destruct compact; cbn [label_width]; rewrite <- ?app_assoc; try reflexivity. Qed.

Lemma first_line_ok : forall compact ws rows k f (P : ient -> bytes -> Prop), (forall e, P e (f e)) ->
  (forall r, In r rows -> exists s, nth_error r 0 = Some s /\ s <> SNone) ->
  exists l, first_line compact ws rows k f = Ok (named_line compact ws k (map (fun t => t ++ [32]) l)) /\ Forall2 (first_shown P) rows l.
Proof.
  intros compact ws rows k f P HP H.
  assert (X : exists l, Model_Filestruct.map_res (first_cell f) rows = Ok (map (fun t => t ++ [32]) l) /\ Forall2 (first_shown P) rows l).
  { induction rows as [|r rows IH]; [exists []; split; [reflexivity|constructor]|].
    destruct IH as (l & E & F); [intros; apply H; right; assumption|]. destruct (H r (or_introl eq_refl)) as (s & N & NS).
    destruct r as [|s0 r]; [discriminate N|]. injection N as ->.
    assert (Y : exists t, first_cell f (s :: r) = Ok (t ++ [32]) /\ first_shown P (s :: r) t).
    { destruct s as [|e|l0]; [contradiction| |]; cbn [first_cell]; unfold first_shown; cbn [nth_error]; [exists (f e)|exists (B "multiple")]; auto. }
    destruct Y as (t & Y1 & Y2). exists (t :: l). cbn [Model_Filestruct.map_res]. rewrite Y1. cbn [bind]. rewrite E. cbn [bind map]. split; [reflexivity|constructor; assumption]. }
  destruct X as (l & E & F). exists l. split; [|exact F]. unfold first_line. rewrite E. cbn [bind]. rewrite label_line. reflexivity.
Qed.

Lemma rows_ok : forall rows n k, (forall r s, In r rows -> In s r -> listsb s) -> exists m,
  Model_Filestruct.map_res (fun i => object_cells show seen0 i rows) (seq k n) = Ok m /\ length m = n /\
  forall i cs, nth_error m i = Some cs -> cells_shown show (k + i) [] rows cs.
Proof.
  intros rows n. induction n as [|n IH]; intros k L; cbn [seq Model_Filestruct.map_res].
  - exists []. split; [reflexivity|]. split; [reflexivity|]. intros [|i] cs N; discriminate N.
  - destruct (object_cells_ok k rows seen0 [] L follows_seen0) as (cs & E & H). rewrite E. cbn [bind]. destruct (IH (S k) L) as (m & E' & LM & H'). rewrite E'. cbn [bind].
    exists (cs :: m). split; [reflexivity|]. split; [cbn; congruence|]. intros [|i] c N; cbn in N.
    + injection N as <-. rewrite Nat.add_0_r. exact H.
    + rewrite Nat.add_succ_r. exact (H' i c N).
Qed.

Theorem index_printed : forall compact d last, printable d last -> exists c0 m ws l1 l2 l3 l4 l5,
  pprint_index show compact d = Ok (numbered_lines compact ws 1 m ++ [10] ++ named_line compact ws (B "0 (trailer)") c0 ++
    named_line compact ws (B "abs_pos") (map (fun t => t ++ [32]) l1) ++ named_line compact ws (B "startxref_pos") (map (fun t => t ++ [32]) l2) ++
    named_line compact ws (B "xref_table_pos") (map (fun t => t ++ [32]) l3) ++ named_line compact ws (B "xref_stream_pos") (map (fun t => t ++ [32]) l4) ++
    named_line compact ws (B "xref_stream_num") (map (fun t => t ++ [32]) l5)) /\
  length (c0 :: m) = length last /\
  (forall i cs, nth_error (c0 :: m) i = Some cs -> cells_shown show i [] (d_index d) cs) /\ fitted (c0 :: m) ws /\
  Forall2 (first_shown (fun e => place_shown show (n_pos e))) (d_index d) l1 /\ Forall2 (first_shown (fun e => dashed (n_sx e))) (d_index d) l2 /\
  Forall2 (first_shown (fun e => dashed (n_xt e))) (d_index d) l3 /\ Forall2 (first_shown (fun e => dashed (n_xs e))) (d_index d) l4 /\
  Forall2 (first_shown (fun e => dashed (n_xsn e))) (d_index d) l5.
Proof.
  intros compact d last [(l & EL) PF PL].
  assert (LR : last_row d = Ok last). { unfold last_row. rewrite EL. apply pyget_last. }
  assert (LS : forall r s, In r (d_index d) -> In s r -> listsb s) by (intros r s IR IS l0 Es; eapply PL; eassumption).
  destruct (rows_ok (d_index d) (length last) 0 LS) as (m & EM & LM & HM). cbn [Nat.add] in HM.
  destruct (PF last) as (s0 & N0 & _); [rewrite EL; apply in_or_app; right; left; reflexivity|].
  assert (NZ : (0 < length last)%nat) by (apply nth_error_Some; congruence).
  destruct m as [|c0 m]; [cbn in LM; lia|]. set (ws := widths_of (length (d_index d)) (c0 :: m)).
  assert (DD : forall o, dashed o (dash o)) by (intros [z0|]; reflexivity).
  destruct (first_line_ok compact ws (d_index d) (B "abs_pos") (fun e => opos_text show (n_pos e)) (fun e => place_shown show (n_pos e))) as (l1 & E1 & F1); [intros e; destruct (n_pos e); reflexivity|exact PF|].
  destruct (first_line_ok compact ws (d_index d) (B "startxref_pos") (fun e => dash (n_sx e)) (fun e => dashed (n_sx e))) as (l2 & E2 & F2); [intros; apply DD|exact PF|].
  destruct (first_line_ok compact ws (d_index d) (B "xref_table_pos") (fun e => dash (n_xt e)) (fun e => dashed (n_xt e))) as (l3 & E3 & F3); [intros; apply DD|exact PF|].
  destruct (first_line_ok compact ws (d_index d) (B "xref_stream_pos") (fun e => dash (n_xs e)) (fun e => dashed (n_xs e))) as (l4 & E4 & F4); [intros; apply DD|exact PF|].
  destruct (first_line_ok compact ws (d_index d) (B "xref_stream_num") (fun e => dash (n_xsn e)) (fun e => dashed (n_xsn e))) as (l5 & E5 & F5); [intros; apply DD|exact PF|].
  exists c0, m, ws, l1, l2, l3, l4, l5. split.
  - unfold pprint_index. rewrite LR. cbn [bind]. rewrite EM. cbn [bind]. fold ws. rewrite E1. cbn [bind]. rewrite E2. cbn [bind]. rewrite E3. cbn [bind]. rewrite E4. cbn [bind]. rewrite E5. cbn [bind].
    rewrite lines_numbered. rewrite <- (label_line compact ws (B "0 (trailer)") c0). rewrite <- ?app_assoc. reflexivity.
  - split; [exact LM|]. split; [exact HM|]. split; [|auto]. apply widths_fitted. intros cs I. apply In_nth_error in I as (i & N). apply HM in N. eapply cells_length; eassumption.
Qed.

(* the bars of the lines of the objects are one below the other *)
Lemma columns_length : forall m ws, fitted m ws -> forall cs, In cs m -> length (columns ws cs) = fold_right (fun w n => (w + 3 + n)%nat) 0%nat ws.
Proof.
  intros m ws [F _] cs I. specialize (F cs I). clear I. induction F as [|c w cs ws LE _ IH]; cbn [columns fold_right]; [reflexivity|].
  rewrite !app_length, IH. unfold column. rewrite app_length, repeat_length. cbn. lia.
Qed.
End Show.

Lemma envelope_objects_ok : forall d row, last_row d = Ok row -> (forall s, In s row -> exists e, s = SDict e) ->
  exists l, envelope_objects d = Ok l /\ forall z0, In z0 l <-> z0 <> 0 /\ exists e, In (SDict e) row /\ n_env e = Some z0.
Proof.
  intros d row LR H. unfold envelope_objects. rewrite LR. cbn [bind].
  assert (X : exists es, row = map SDict es /\ Model_Filestruct.map_res cell_env row = Ok (map n_env es)).
  { clear LR. induction row as [|s row IH]; [exists []; auto|]. destruct IH as (es & -> & E); [intros; apply H; right; assumption|].
    destruct (H s (or_introl eq_refl)) as (e & ->). exists (e :: es). split; [reflexivity|]. cbn [Model_Filestruct.map_res cell_env bind] in *. rewrite E. reflexivity. }
  destruct X as (es & -> & E). rewrite E. cbn [bind]. eexists. split; [reflexivity|]. intros z0. rewrite in_flat_map. split.
  - intros (o & I & J). apply in_map_iff in I as (e & <- & I). destruct (n_env e) as [y|] eqn:N; [|destruct J]. destruct (y =? 0) eqn:Y; [destruct J|]. destruct J as [->|[]].
    split; [lia|]. exists e. split; [apply in_map; exact I|exact N].
  - intros (NZ & e & I & N). apply in_map_iff in I as (e' & Q & I). injection Q as ->. exists (n_env e). split; [apply in_map; exact I|]. rewrite N. destruct (z0 =? 0) eqn:Y; [lia|left; reflexivity].
Qed.

(* ---- a computable form of the hypotheses ---- *)
Definition printableb (d : doc) : bool :=
  forallb (fun r => match r with [] | SNone :: _ => false | _ => true end &&
                    forallb (fun s => match s with SList (SNone :: _) | SList (SList _ :: _) => false | _ => true end) r) (d_index d).
Lemma printableb_ok : forall d l last, printableb d = true -> d_index d = l ++ [last] -> printable d last.
Proof.
  intros d l last H E. unfold printableb in H. rewrite forallb_forall in H. constructor.
  - exists l. exact E.
  - intros r I. specialize (H r I). apply andb_prop in H as [H _]. destruct r as [|[|e|l0] r]; try discriminate H; eexists; (split; [reflexivity|discriminate]).
  - intros r s l0 I J ->. specialize (H r I). apply andb_prop in H as [_ H]. rewrite forallb_forall in H. specialize (H _ J). destruct l0 as [|[|e|l1] l0]; try discriminate H; eauto.
Qed.
