(* Facts about the iteration over a document and the texts that describe it *)
From Coq Require Import String Permutation.
From Verif Require Import PyBase Model_Filters Model_Objects Model_Filestruct Model_Text Model_Docstruct Model_Api Model_Print.
From Verif Require Import Spec_Objects Spec_Filestruct Spec_Docstruct Spec_Pages Spec_Print.
From Verif Require Import Facts_Base Facts_Obj Facts_Revision Facts_Doc Facts_Edit Facts_Pages Facts_Remove.
From Coq Require Import ZifyBool ZifyNat.

Section WithZlib.
Context {ZL : Zlib}.

(* ---- iteration ---- *)
Lemma kept_none {A} (P : nat -> Prop) : forall (l m : list A) i, kept P i l m -> (forall j, (i <= j < i + length l)%nat -> ~ P j) -> m = [].
Proof.
  induction l as [|x l IH]; intros m i K N; inversion K; subst; auto.
  - destruct (N i); [cbn; lia|auto].
  - eapply IH; [eauto|]. intros j J. apply N. cbn. lia.
Qed.
Lemma kept_one {A} (P : nat -> Prop) : forall (l m : list A) i c x, kept P i l m -> nth_error l c = Some x ->
  (forall j, (i <= j < i + length l)%nat -> P j <-> j = (i + c)%nat) -> m = [x].
Proof.
  induction l as [|y l IH]; intros m i c x K N H; [destruct c; discriminate|]. destruct c as [|c]; cbn [nth_error] in N.
  - injection N as ->. inversion K; subst.
    + f_equal. eapply kept_none; [eauto|]. intros j J Q. apply H in Q; cbn in *; lia.
    + exfalso. match goal with N : ~ P _ |- _ => apply N end. apply H; cbn; lia.
  - inversion K; subst.
    + exfalso. match goal with N : P _ |- _ => apply H in N end; cbn in *; lia.
    + eapply IH; eauto. intros j J. rewrite H by (cbn; lia). lia.
Qed.
Section Ord.
Context (ord : list ref -> list ref) (O : forall s, Permutation (ord s) s).
Lemma iter_only f d t c leak d' leak' : editable d -> well_formed d t -> tidy d t -> (depth t < f)%nat -> (c < length (leaves t))%nat ->
  keep_pages ord f d leak [Z.of_nat c] = Ok (d', leak') -> only_page d t c d'.
Proof.
  intros E W T D C K. destruct (keep_spec ord O f d t leak _ d' leak' E W T D K) as (t' & P).
  assert (exists x, nth_error (leaves t) c = Some x) as (x & N) by (destruct (nth_error (leaves t) c) as [x|] eqn:N; [eauto|apply nth_error_None in N; lia]).
  exists t', x, (dropped (length (leaves t)) [Z.of_nat c]). split; auto. split; [intro j; rewrite dropped_in; cbn [In]; intuition|]. split; auto.
  eapply (kept_one _ _ _ 0 c); [exact (pr_kept _ _ _ _ _ P)|exact (map_nth_error fst c (leaves t) N)|].
  intros j J. assert (J' : (j < length (leaves t))%nat) by (rewrite map_length in J; exact (proj2 J)). cbn beta. pose proof (dropped_indexed (length (leaves t)) [Z.of_nat c] j J') as DI. cbn [In] in DI. split.
  - intro H. destruct (Nat.eq_dec j c) as [Q|Q]; [lia|]. exfalso. apply H. apply DI. lia.
  - intros -> Q. apply DI in Q. apply Q. auto.
Qed.
Lemma iter_yields f d t : editable d -> well_formed d t -> tidy d t -> (depth t < f)%nat -> forall l leak it, yields ord f leak it l ->
  read_only d (it_doc it) -> it_end it = Z.of_nat (length (leaves t)) -> forall c, it_current it = Z.of_nat c -> (c <= length (leaves t))%nat ->
  Forall2 (only_page d t) (seq c (length (leaves t) - c)) l.
Proof.
  intros E W T D. induction 1 as [leak it leak' it' N|leak it dn leak1 it1 l N Y IH]; intros R EN c CU CL; unfold iter_next in N; rewrite EN, CU in N.
  - destruct (Z.of_nat c <? Z.of_nat (length (leaves t))) eqn:L.
    + destruct (number_pages (it_doc it)) as [[x d1]| |]; cbn [bind] in N; try discriminate. destruct (keep_pages _ _ _ _ _) as [[nd lk]| |]; discriminate.
    + replace (length (leaves t) - c)%nat with 0%nat by lia. constructor.
  - destruct (Z.of_nat c <? Z.of_nat (length (leaves t))) eqn:L; [|discriminate].
    destruct (number_spec (it_doc it) t (ro_coherent _ _ R) (well_formed_ro _ _ _ R W)) as (d1 & E1 & R1). rewrite E1 in N. cbn [bind] in N.
    destruct (keep_pages ord f (it_doc it) leak [Z.of_nat c]) as [[nd lk]| |] eqn:K; cbn [bind] in N; try discriminate. injection N as <- <- <-.
    replace (length (leaves t) - c)%nat with (S (length (leaves t) - S c)) by lia. cbn [seq]. constructor.
    + destruct (iter_only f (it_doc it) t c leak nd lk (editable_ro _ _ E R) (well_formed_ro _ _ _ R W) (tidy_ro _ _ _ R T) D ltac:(lia) K) as (t' & x & l0 & A1 & A2 & A3 & A4).
      exists t', x, l0. split; auto. split; auto. split; auto. eapply removed_ro; eauto. eapply node_nums_pos; eauto.
    + apply IH; cbn [it_doc it_current it_end]; try lia. eapply read_only_trans; eauto.
Qed.
Lemma iter_total f0 f d t : editable d -> well_formed d t -> tidy d t ->
  (forall d1 leak keep, read_only d d1 -> (f0 <= f)%nat -> exists d' leak', keep_pages ord f d1 leak keep = Ok (d', leak')) -> (f0 <= f)%nat ->
  forall n c leak it, read_only d (it_doc it) -> it_end it = Z.of_nat (length (leaves t)) -> it_current it = Z.of_nat c -> (c + n = length (leaves t))%nat ->
  exists l, yields ord f leak it l.
Proof.
  intros E W T H LE. induction n as [|n IH]; intros c leak it R EN CU CN.
  - exists []. econstructor. unfold iter_next. rewrite EN, CU. replace (Z.of_nat c <? Z.of_nat (length (leaves t))) with false by lia. reflexivity.
  - destruct (number_spec (it_doc it) t (ro_coherent _ _ R) (well_formed_ro _ _ _ R W)) as (d1 & E1 & R1).
    destruct (H (it_doc it) leak [Z.of_nat c] R LE) as (d' & leak' & K).
    destruct (IH (S c) leak' (mk_iterator d1 (Z.of_nat c + 1) (Z.of_nat (length (leaves t))))) as (l & Y); cbn [it_doc it_current it_end]; try lia; [eapply read_only_trans; eauto|].
    exists (d' :: l). econstructor; [|exact Y]. unfold iter_next. rewrite EN, CU. replace (Z.of_nat c <? Z.of_nat (length (leaves t))) with true by lia. rewrite E1. cbn [bind]. rewrite K. reflexivity.
Qed.
End Ord.

(* ---- marks ---- *)
Lemma status_mark chg i o : exists c, cache_status chg i o = [c] /\ cell_mark chg i o c.
Proof.
  unfold cache_status, chg_status. unfold change in *. unfold ref in *. destruct (filter (fun c => snd (fst c) =? i) (rev chg)) as [|[[g k] a] r] eqn:F.
  - assert (N : forall g a, ~ In ((g, i), a) chg).
    { intros g a I. apply in_rev in I. assert (J : In ((g, i), a) (filter (fun c : Z * Z * action => snd (fst c) =? i) (rev chg))) by (apply filter_In; split; [auto|cbn; lia]). rewrite F in J. destruct J. }
    destruct o; try (exists 120; split; [reflexivity|apply Cm_read; [auto|discriminate]]). exists 45. split; [reflexivity|]. now apply Cm_empty.
  - assert (J : In ((g, k), a) (filter (fun c : Z * Z * action => snd (fst c) =? i) (rev chg))) by (rewrite F; now left).
    apply filter_In in J as [J K]. apply in_rev in J. cbn in K. replace k with i in J by lia. exists (mark_of a). split; [destruct a; reflexivity|eapply Cm_changed; eauto].
Qed.
Lemma marks_lines chg n : forall l k i line, i = 10 * k + Z.of_nat (length line) -> (length line < 10)%nat -> 0 <= k ->
  n = i + Z.of_nat (length l) -> (l = [] -> line = []) ->
  exists marks t, cache_lines chg n i line l = t ++ [10] /\ Forall2 (fun io c => cell_mark chg (fst io) (snd io) c) (combine (zseq i (length l)) l) marks /\ ten_rows k (line ++ marks) t.
Proof.
  induction l as [|o l IH]; intros k i line Ei LL K En NL.
  - rewrite (NL eq_refl). exists [], []. split; [reflexivity|]. split; constructor.
  - destruct (status_mark chg i o) as (c & EC & MC). cbn [cache_lines]. rewrite EC. cbn [length] in En.
    assert (IM : i mod 10 = Z.of_nat (length line)) by (rewrite Ei, Z.mul_comm, Z.add_comm, Z.mod_add, Z.mod_small; lia).
    assert (ID : (i - i mod 10) / 10 = k) by (rewrite IM, Ei; replace (10 * k + Z.of_nat (length line) - Z.of_nat (length line)) with (k * 10) by lia; apply Z.div_mul; lia).
    rewrite ID, IM. destruct ((Z.of_nat (length line) =? 9) || (i =? n - 1)) eqn:E.
    + assert (LE : length (line ++ [c]) = S (length line)) by (rewrite app_length; cbn; lia).
      assert (HL : exists w, padl 5 (dec k ++ B "_") = (repeat 32 w ++ dec k) ++ [95] /\ w = (4 - length (dec k))%nat).
      { eexists. split; [|reflexivity]. unfold padl. rewrite app_length. change (length (B "_")) with 1%nat. change (B "_") with [95].
        replace (5 - (length (dec k) + 1))%nat with (4 - length (dec k))%nat by lia. now rewrite app_assoc. }
      destruct HL as (w & EP & EW).
      destruct (Z.eq_dec (Z.of_nat (length line)) 9) as [N9|N9].
      * destruct (IH (k + 1) (i + 1) []) as (marks & t & E1 & F1 & T1); cbn [length]; try lia; [auto|].
        exists (c :: marks), ((repeat 32 w ++ dec k) ++ [95; 32] ++ (line ++ [c]) ++ [10] ++ t). split; [|split].
        { rewrite E1, EP. change (B " ") with [32]. unfold LF. rewrite <- !app_assoc. reflexivity. }
        { cbn [length zseq combine]. constructor; [exact MC|exact F1]. }
        { replace (line ++ c :: marks) with ((line ++ [c]) ++ marks) by (rewrite <- app_assoc; reflexivity). apply Te_row; [left; lia|eauto|exact T1]. }
      * assert (l = []) as -> by (destruct l; [auto|cbn [length] in En; lia]).
        exists [c], ((repeat 32 w ++ dec k) ++ [95; 32] ++ (line ++ [c]) ++ [10] ++ []). split; [|split].
        { rewrite EP. cbn [cache_lines]. change (B " ") with [32]. unfold LF. rewrite <- !app_assoc. reflexivity. }
        { cbn [length zseq combine]. constructor; [exact MC|constructor]. }
        { rewrite <- (app_nil_r (line ++ [c])) at 1. apply Te_row; [right; split; [lia|auto]|eauto|constructor]. }
    + destruct (IH k (i + 1) (line ++ [c])) as (marks & t & E1 & F1 & T1); rewrite ?app_length; cbn [length]; try lia.
      { intros ->. cbn [length] in En. lia. }
      exists (c :: marks), t. split; [exact E1|]. split; [cbn [length zseq combine]; constructor; auto|]. rewrite <- app_assoc in T1. exact T1.
Qed.

(* ---- history of the data ---- *)
Lemma size_run p n : data_size p n -> run_prov p None (-1) = Ok (RLen n).
Proof. intros []; reflexivity. Qed.
Lemma none_or o : blank_or o (num_or_none o).
Proof. destruct o as [x|]; cbn; [|reflexivity]. destruct (x =? 0) eqn:E; [right|left]; split; auto; lia. Qed.
Definition hist4 (h : hist) : bytes * bytes * bytes * bytes := (h_name h, h_size h, h_add h, h_cut h).
Lemma hist_line_bars k f l : hist_line k f l = wide k ++ bars (map f l).
Proof.
  unfold hist_line. f_equal. induction l as [|h l IH]; [reflexivity|]. cbn [flat_map map bars]. rewrite <- IH. change (B "| ") with [124; 32]. change (B " ") with [32]. rewrite <- !app_assoc. reflexivity.
Qed.
Lemma hist_cell data i x : nth_error data i = Some x -> (exists p n, dt_fdata x = Some p /\ data_size p n) ->
  exists h y, hist_of data (Z.of_nat i) = Ok h /\ nth_error data ((length data - i) mod length data) = Some y /\ shown_datum x y (hist4 h).
Proof.
  intros N (p & n & E & DS). assert (L : (i < length data)%nat) by (apply nth_error_Some; congruence). unfold hist_of.
  assert (G1 : pyget data (Z.of_nat i) = Ok x). { apply pyget_cell; [lia|]. split; [lia|]. rewrite Nat2Z.id. exact N. }
  rewrite G1. cbn [bind].
  assert (exists y, nth_error data ((length data - i) mod length data) = Some y) as (y & NY).
  { destruct (nth_error data ((length data - i) mod length data)) as [y|] eqn:Q; [eauto|]. apply nth_error_None in Q. pose proof (Nat.mod_upper_bound (length data - i) (length data)). lia. }
  assert (G2 : pyget data (- Z.of_nat i) = Ok y).
  { destruct i as [|i].
    - cbn [Z.of_nat Z.opp]. rewrite Nat.sub_0_r, Nat.mod_same in NY by lia. apply pyget_cell; [lia|]. split; [lia|]. exact NY.
    - rewrite Nat.mod_small in NY by lia. unfold pyget, pyidx. replace ((0 <=? - Z.of_nat (S i)) && (- Z.of_nat (S i) <? Z.of_nat (length data))) with false by lia.
      replace ((- Z.of_nat (length data) <=? - Z.of_nat (S i)) && (- Z.of_nat (S i) <? 0)) with true by lia.
      replace (Z.to_nat (- Z.of_nat (S i) + Z.of_nat (length data))) with (length data - S i)%nat by lia. rewrite NY. reflexivity. }
  rewrite G2. cbn [bind]. rewrite E. cbn [of_opt bind]. rewrite (size_run p n DS). cbn [bind].
  eexists _, y. split; [reflexivity|]. split; auto. constructor; cbn [hist4 h_name h_size h_add h_cut fst snd].
  - exists p, n. auto.
  - exists p. split; auto. inversion DS; reflexivity.
  - apply none_or.
  - apply none_or.
Qed.
Lemma hist_all data : Forall (fun x => exists p n, dt_fdata x = Some p /\ data_size p n) data -> forall l, Forall (fun i => (i < length data)%nat) l ->
  exists hs, Model_Filestruct.map_res (hist_of data) (map Z.of_nat l) = Ok hs /\
    Forall2 (fun i h => exists x y, nth_error data i = Some x /\ nth_error data ((length data - i) mod length data) = Some y /\ shown_datum x y (hist4 h)) l hs.
Proof.
  intros FA. induction l as [|i l IH]; intro FL; [exists []; split; [reflexivity|constructor]|]. inversion FL as [|? ? L FL']; subst.
  assert (exists x, nth_error data i = Some x) as (x & N) by (destruct (nth_error data i) as [x|] eqn:N; [eauto|apply nth_error_None in N; lia]).
  rewrite Forall_forall in FA. destruct (hist_cell data i x N (FA x (nth_error_In _ _ N))) as (h & y & E & NY & SD). destruct (IH FL') as (hs & E2 & F2).
  exists (h :: hs). cbn [map Model_Filestruct.map_res]. rewrite E. cbn [bind]. rewrite E2. split; [reflexivity|]. constructor; eauto.
Qed.
Lemma zseq_of n : zseq 0 n = map Z.of_nat (seq 0 n).
Proof.
  assert (H : forall n a, zseq (Z.of_nat a) n = map Z.of_nat (seq a n)) by (induction n0 as [|m IH]; intro a; [reflexivity|]; cbn [zseq seq map]; rewrite <- IH; f_equal; f_equal; lia). exact (H n 0%nat).
Qed.
Lemma history_spec d : Forall (fun x => exists p n, dt_fdata x = Some p /\ data_size p n) (d_data d) -> exists hs,
  pprint_data_history d = Ok (wide (B "data_f()") ++ bars (map (fun h => fst (fst (fst h))) hs) ++ wide (B "data_sz") ++ bars (map (fun h => snd (fst (fst h))) hs) ++
    wide (B "add_data") ++ bars (map (fun h => snd (fst h)) hs) ++ wide (B "eof_cut") ++ bars (map snd hs)) /\
  Forall2 (fun i h => exists x y, nth_error (d_data d) i = Some x /\ nth_error (d_data d) ((length (d_data d) - i) mod length (d_data d)) = Some y /\ shown_datum x y h) (seq 0 (length (d_data d))) hs.
Proof.
  intro FA. destruct (hist_all (d_data d) FA (seq 0 (length (d_data d)))) as (hs & E & F2); [apply Forall_forall; intros i I; apply in_seq in I; lia|].
  exists (map hist4 hs). unfold pprint_data_history. rewrite zseq_of, E. cbn [bind]. rewrite !hist_line_bars, !map_map, <- !app_assoc. split; [reflexivity|].
  apply Forall2_map_r. exact F2.
Qed.

(* ---- the page tree ---- *)
Section Show.
Context (show : obj -> bytes).
Fixpoint kids_lines (level : nat) (n : Z) (l : list ptree) : bytes :=
  match l with [] => [] | k :: r => tree_text show level n k ++ kids_lines level (n + Z.of_nat (length (leaves k))) r end.
Lemma tree_node level n o nd kids : tree_text show level n (Node o nd kids) = node_text show level o (length kids) ++ kids_lines (S level) n kids.
Proof.
  unfold node_text, indent, LF. cbn [tree_text]. rewrite <- !app_assoc. do 5 f_equal. f_equal. f_equal. revert n. induction kids as [|k r IH]; intro n; [reflexivity|]. cbn [kids_lines]. now rewrite <- IH.
Qed.
Lemma leaves_count o nd kids : Z.of_nat (length (leaves (Node o nd kids))) = fold_right (fun k m => Z.of_nat (length (leaves k)) + m) 0 kids.
Proof. rewrite leaves_node, map_length. induction kids as [|k r IH]; [reflexivity|]. cbn [flat_map fold_right]. rewrite app_length, Nat2Z.inj_add. f_equal. exact IH. Qed.
Lemma kids_print f level kids : Forall (fun t => forall d n accu, coherent d -> holds d t -> (depth t < f)%nat ->
    exists d1, hierarchy show f level d (tref t) n accu = Ok (accu ++ tree_text show (S level) n t, n + Z.of_nat (length (leaves t)), d1) /\ read_only d d1) kids ->
  Forall (fun t => (depth t < f)%nat) kids -> forall d n accu, coherent d -> Forall (holds d) kids ->
  exists d1, kids_text (hierarchy show f level) d n accu (map tref kids) = Ok (accu ++ kids_lines (S level) n kids, n + fold_right (fun k m => Z.of_nat (length (leaves k)) + m) 0 kids, d1) /\ read_only d d1.
Proof.
  induction kids as [|k r IH]; intros FA FD d n accu C FH.
  - exists d. split; [|now apply read_only_refl]. cbn. rewrite app_nil_r. do 3 f_equal. lia.
  - destruct (Forall_inv FA d n accu C (Forall_inv FH) (Forall_inv FD)) as (d1 & E & R). cbn [map kids_text]. rewrite E. cbn [bind].
    destruct (IH (Forall_inv_tail FA) (Forall_inv_tail FD) d1 (n + Z.of_nat (length (leaves k))) (accu ++ tree_text show (S level) n k) (ro_coherent _ _ R)) as (d2 & E2 & R2).
    { apply Forall_forall. intros t I. eapply holds_ro; [exact R|]. pose proof (Forall_inv_tail FH) as Q. rewrite Forall_forall in Q. auto. }
    exists d2. split; [|eapply read_only_trans; eauto]. rewrite E2. cbn [kids_lines fold_right]. rewrite <- app_assoc. do 3 f_equal. lia.
Qed.
Lemma tree_print t : forall f level d n accu, coherent d -> holds d t -> (depth t < f)%nat ->
  exists d1, hierarchy show f level d (tref t) n accu = Ok (accu ++ tree_text show (S level) n t, n + Z.of_nat (length (leaves t)), d1) /\ read_only d d1.
Proof.
  revert t. apply (ptree_rect2 (fun t => forall f level d n accu, coherent d -> holds d t -> (depth t < f)%nat ->
  exists d1, hierarchy show f level d (tref t) n accu = Ok (accu ++ tree_text show (S level) n t, n + Z.of_nat (length (leaves t)), d1) /\ read_only d d1)).
  - intros o p f level d n accu C H D. inversion H as [o' k p' P T|]; subst. destruct f as [|f]; [lia|]. cbn [hierarchy tref]. rewrite (truthy_ref _ _ _ _ P).
    destruct (points_read d o k _ C P) as (d1 & G & R). rewrite G. cbn [bind item]. rewrite T. cbn [of_opt bind]. unfold str_is. replace (beqb K_Page K_Pages) with false by reflexivity. rewrite beqb_refl. cbn [item_opt bind].
    exists d1. split; [reflexivity|auto].
  - intros o nd kids IH f level d n accu C H D. inversion H as [|o' k nd' kids' P T K FH]; subst. destruct f as [|f]; [lia|]. destruct (points_read d o k _ C P) as (dn & G & R).
    assert (DK : Forall (fun t => (depth t < f)%nat) kids). { apply Forall_forall. intros q I. pose proof (depth_kid o nd kids q I). lia. }
    destruct (kids_print f (S level) kids) with (d := dn) (n := n) (accu := accu ++ node_text show (S level) o (length kids)) as (d1 & E & R1); auto.
    + eapply Forall_impl; [|exact IH]. cbn beta. intros q Hq d' m a C' H' D'. apply Hq; auto.
    + exact (ro_coherent _ _ R).
    + rewrite Forall_forall in *. intros q I. eapply holds_ro; eauto.
    + cbn [hierarchy tref]. rewrite (truthy_ref _ _ _ _ P), G. cbn [bind item]. rewrite T. cbn [of_opt bind]. unfold str_is. rewrite beqb_refl, K. cbn [of_opt bind]. rewrite map_length, E.
      exists d1. split; [|eapply read_only_trans; eauto]. rewrite leaves_count, tree_node, <- app_assoc. reflexivity.
Qed.
Lemma hierarchy_spec f d t : coherent d -> well_formed d t -> (depth t < f)%nat ->
  exists d1, pprint_page_hierarchy show f d = Ok (B "Page count = " ++ show (PInt (Z.of_nat (length (leaves t)))) ++ [10] ++ tree_text show 1 0 t ++ [10], d1) /\ read_only d d1.
Proof.
  intros C ((c & cat & CA & _ & _ & PG & H & (o & nd & kids & ->)) & SO & _) D. destruct f as [|f]; [lia|]. inversion H as [|o' k nd' kids' P T K FH]; subst. cbn [tref] in PG.
  assert (CT : dget K_Count nd = Some (PInt (Z.of_nat (length (leaves (Node o nd kids)))))) by (inversion SO; auto).
  destruct (catalog_read d c cat C CA) as (g & dc & EC & RC). destruct (points_read dc o k _ (ro_coherent _ _ RC) (points_ro _ _ _ _ _ RC P)) as (dn & G & R).
  pose proof (read_only_trans _ _ _ RC R) as RR.
  assert (DK : Forall (fun t => (depth t < f)%nat) kids). { apply Forall_forall. intros q I. pose proof (depth_kid o nd kids q I). lia. }
  destruct (kids_print f 1 kids) with (d := dn) (n := 0) (accu := ([] ++ B "Page count = " ++ show (PInt (Z.of_nat (length (leaves (Node o nd kids))))) ++ LF) ++ node_text show 1 o (length kids)) as (d1 & E & R1); auto.
  - apply Forall_forall. intros q I d' m a C' H' D'. apply tree_print; auto.
  - exact (ro_coherent _ _ R).
  - rewrite Forall_forall in *. intros q I. eapply holds_ro; eauto.
  - unfold pprint_page_hierarchy. cbn [hierarchy obj_truthy]. rewrite EC. cbn [bind item]. rewrite PG. cbn [of_opt bind]. rewrite G. cbn [bind item]. rewrite CT. cbn [of_opt bind get_object]. cbn [item]. rewrite T. cbn [of_opt bind]. unfold str_is. rewrite beqb_refl, K. cbn [of_opt bind]. rewrite map_length, E. cbn [bind].
    exists d1. split; [|eapply read_only_trans; eauto]. rewrite tree_node. unfold LF. cbn [app]. rewrite <- !app_assoc. reflexivity.
Qed.
End Show.
End WithZlib.
