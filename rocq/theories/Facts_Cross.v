(* Proofs about the cross map of the HTML view: C79 *)
From Coq Require Import String ZifyBool ZifyNat.
From Verif Require Import PyBase Model_Filters Model_Objects Model_Filestruct Model_Text Model_Graphics Model_Docstruct Model_Api Model_Display.
From Verif Require Import Spec_Objects Spec_Filestruct Spec_Display Facts_Base Facts_Refs Facts_Doc Facts_Commit Facts_Display.

(* ---------- the table ---------- *)
Lemma cget_cset k v k' l : cget k' (cset k v l) = if oapos_eqb k k' then Some v else cget k' l.
Proof.
  induction l as [|(p, c) l IH]; cbn [cset cget]; [reflexivity|]. destruct (oapos_eqb p k) eqn:E; cbn [cget].
  - apply oapos_eqb_eq in E. subst. destruct (oapos_eqb k k'); reflexivity.
  - rewrite IH. destruct (oapos_eqb p k') eqn:E2; [|reflexivity]. apply oapos_eqb_eq in E2. subst. destruct (oapos_eqb k k') eqn:E3; [|reflexivity]. apply oapos_eqb_eq in E3. subst.
    assert (oapos_eqb k' k' = true) by (apply oapos_eqb_eq; reflexivity). congruence.
Qed.
Lemma cset_keys k v l : cget k l <> None -> map fst (cset k v l) = map fst l.
Proof. induction l as [|(p, c) l IH]; cbn [cset cget map fst]; [congruence|]. destruct (oapos_eqb p k) eqn:E; cbn [map fst]; [reflexivity|]. intro N. f_equal. auto. Qed.
Lemma cget_in k l : cget k l <> None <-> In k (map fst l).
Proof.
  induction l as [|(p, c) l IH]; cbn [cget map fst In]; [tauto|]. destruct (oapos_eqb p k) eqn:E.
  - apply oapos_eqb_eq in E. split; [auto|congruence].
  - rewrite IH. split; [auto|]. intros [->|I]; [|auto]. assert (oapos_eqb k k = true) by (apply oapos_eqb_eq; reflexivity). congruence.
Qed.
Lemma ref_set_in x l : In x (ref_set l) <-> In x l.
Proof.
  induction l as [|a l IH]; cbn [ref_set In]; [tauto|]. rewrite filter_In, IH. split; [intuition|]. intros [->|I]; [auto|].
  destruct ((fst a =? fst x) && (snd a =? snd x)) eqn:E; [|right; split; [auto|reflexivity]]. left. apply andb_true_iff in E as [E1 E2]. apply Z.eqb_eq in E1, E2. destruct a, x. cbn in *. congruence.
Qed.
Definition row_at (row : list slot) (m : Z) (k : option apos) : Prop := exists e p, pyget row m = Ok (SDict e) /\ n_pos e = Some p /\ k = Some p.
Definition same_static (c c1 : crossent) : Prop := c_num c1 = c_num c /\ c_rel c1 = c_rel c /\ c_targets c1 = c_targets c.
Lemma add_users_spec row num pos : forall l ret ret1, add_users row num pos l ret = Ok ret1 ->
  map fst ret1 = map fst ret /\
  forall k c, cget k ret = Some c -> exists c1, cget k ret1 = Some c1 /\ same_static c c1 /\
    (forall x, In x (c_used c1) <-> In x (c_used c) \/ x = (num, pos) /\ exists g m, In (g, m) l /\ row_at row m k).
Proof.
  induction l as [|(g, n) l IH]; intros ret ret1 E; cbn [add_users] in E.
  { injection E as <-. split; [reflexivity|]. intros k c H. exists c. split; [auto|]. split; [repeat split|]. intro x. split; [auto|]. intros [I|(_ & g & m & [] & _)]; auto. }
  apply bind_ok in E as (s & ES & E). apply bind_ok in E as (e & EE & E). apply bind_ok in E as (p & EP & E). destruct (cget (Some p) ret) as [c0|] eqn:C0; [|discriminate].
  destruct s as [|e'|]; cbn [as_dict] in EE; try discriminate. injection EE as <-. destruct (n_pos e') as [p'|] eqn:NP; [|discriminate]. injection EP as ->.
  apply IH in E as (EK & E). rewrite EK, cset_keys by congruence. split; [reflexivity|]. intros k c H.
  assert (RA : forall m, row_at row m k -> m = n -> k = Some p). { intros m (e & q & A & Q & ->) ->. rewrite ES in A. injection A as <-. congruence. }
  destruct (oapos_eqb (Some p) k) eqn:EQ.
  - apply oapos_eqb_eq in EQ. subst k. rewrite C0 in H. injection H as ->.
    destruct (E (Some p) (mk_cross (c_num c) (c_rel c) (c_targets c) (c_used c ++ [(num, pos)]))) as (c1 & G & (S1 & S2 & S3) & U).
    { rewrite cget_cset. assert (X : oapos_eqb (Some p) (Some p) = true) by (apply oapos_eqb_eq; reflexivity). rewrite X. reflexivity. }
    exists c1. split; [auto|]. split; [repeat split; auto|]. intro x. rewrite U. cbn [c_used]. rewrite in_app_iff. cbn [In]. split.
    + intros [[I|[<-|[]]]|(-> & g' & m & I & R)]; [auto| |right; split; [auto|exists g', m; auto]]. right. split; [auto|]. exists g, n. split; [auto|]. exists e', p. auto.
    + intros [I|(-> & _)]; auto.
  - destruct (E k c) as (c1 & G & ST & U). { rewrite cget_cset, EQ. exact H. }
    exists c1. split; [auto|]. split; [auto|]. intro x. rewrite U. split; (intros [I|(-> & g' & m & I & R)]; [auto|]).
    + right. split; [auto|]. exists g', m. split; [right; exact I|exact R].
    + right. split; [auto|]. destruct I as [[= <- <-]|I]; [|exists g', m; auto]. exfalso. apply (RA n) in R; [|reflexivity]. subst k.
      assert (oapos_eqb (Some p) (Some p) = true) by (apply oapos_eqb_eq; reflexivity). congruence.
Qed.
(* what the section at position q adds to the entry at position k *)
Definition adds (index : list (list slot)) (cq : crossent) (k : option apos) : Prop :=
  exists n ver l g m row, c_rel cq = Some (n, ver) /\ Z.of_nat (length index) - 1 <= ver /\ c_targets cq = Some l /\ In (g, m) l /\ pyget index (-1) = Ok row /\ row_at row m k.
Lemma cross_users_spec index : forall keys ret ret1, cross_users keys index ret = Ok ret1 ->
  (forall k, In k keys -> In k (map fst ret)) ->
  forall k c, cget k ret = Some c -> exists c1, cget k ret1 = Some c1 /\ same_static c c1 /\
    (forall x, In x (c_used c1) <-> In x (c_used c) \/ exists q cq, In q keys /\ cget q ret = Some cq /\ x = (c_num cq, q) /\ adds index cq k).
Proof.
  induction keys as [|q keys IH]; intros ret ret1 E KS k c H; cbn [cross_users] in E.
  { injection E as <-. exists c. split; [auto|]. split; [repeat split|]. intro x. split; [auto|]. intros [I|(q & cq & [] & _)]; auto. }
  destruct (cget q ret) as [cq|] eqn:CQ; [|discriminate]. destruct (c_rel cq) as [(rn, ver)|] eqn:CR; [|discriminate]. destruct (ver <? Z.of_nat (length index) - 1) eqn:V.
  - destruct (IH _ _ E) with (k := k) (c := c) as (c1 & G & ST & U); [intros; apply KS; right; auto|auto|]. exists c1. split; [auto|]. split; [auto|]. intro x. rewrite U. split; (intros [I|(q' & cq' & I & C & X & A)]; [auto|right]).
    + exists q', cq'. split; [right|]; auto.
    + exists q', cq'. split; [|auto]. destruct I as [<-|I]; [|auto]. exfalso. rewrite CQ in C. injection C as <-. destruct A as (n & v & l & g & m & row & R & L & _). rewrite CR in R. injection R as <- <-. lia.
  - destruct (c_targets cq) as [l|] eqn:CT; [|discriminate]. apply bind_ok in E as (row & ER & E). apply bind_ok in E as (ret2 & EA & E). apply add_users_spec in EA as (EK & EA).
    assert (KS2 : forall x, In x keys -> In x (map fst ret2)) by (intros; rewrite EK; apply KS; right; auto).
    destruct (EA _ _ H) as (c2 & G2 & ST2 & U2). destruct (IH _ _ E KS2 _ _ G2) as (c1 & G & ST & U). exists c1. split; [auto|].
    split; [destruct ST as (? & ? & ?), ST2 as (? & ? & ?); repeat split; congruence|]. intro x. rewrite U, U2.
    assert (TR : forall q' cq2 k', cget q' ret2 = Some cq2 -> exists cq', cget q' ret = Some cq' /\ c_num cq' = c_num cq2 /\ (adds index cq' k' <-> adds index cq2 k')).
    { intros q' cq2 k' G'. destruct (cget q' ret) as [cq'|] eqn:G1; [|exfalso; apply (proj2 (cget_in q' ret)); [|exact G1]; rewrite <- EK; apply cget_in; congruence].
      destruct (EA _ _ G1) as (c3 & G3 & (S1 & S2 & S3) & _). rewrite G' in G3. injection G3 as <-. exists cq'. split; [auto|]. split; [auto|]. unfold adds. rewrite S2, S3. tauto. }
    split.
    + intros [[I|(-> & g & m & I & R)]|(q' & cq2 & I & C & -> & A)]; [auto| |].
      * right. exists q, cq. split; [left; auto|]. split; [auto|]. split; [auto|]. exists rn, ver, l, g, m, row. apply (proj1 (ref_set_in _ _)) in I. repeat split; auto. lia.
      * right. destruct (TR _ _ k C) as (cq' & C' & N' & A'). exists q', cq'. split; [right; auto|]. split; [auto|]. split; [congruence|]. apply A'. auto.
    + intros [I|(q' & cq' & I & C & -> & A)]; [auto|]. destruct I as [<-|I].
      * left. right. rewrite CQ in C. injection C as <-. split; [auto|]. destruct A as (n & v & l' & g & m & row' & R & L & T & I & ER' & RA). rewrite CT in T. injection T as <-. rewrite ER in ER'. injection ER' as <-. exists g, m. split; [|auto]. apply ref_set_in. auto.
      * right. destruct (EA _ _ C) as (cq2 & C2 & (S1 & S2 & S3) & _). exists q', cq2. split; [auto|]. split; [auto|]. split; [congruence|]. unfold adds in *. rewrite S2, S3. exact A.
Qed.
(* ---------- the sections ---------- *)
Definition relevance (index : list (list slot)) (a : article) : res (option (Z * Z)) :=
  match a with ArTable p _ _ => find_xref_table_pos_in_index (Z.of_nat p) index | ArObj p _ _ _ => find_abs_pos_in_index p index | _ => Ok None end.
Definition entry_of (index : list (list slot)) (a : article) (c : crossent) : Prop :=
  c_num c = section_num a /\ relevance index a = Ok (c_rel c) /\ c_targets c = deep_ref_detect (section_obj a) /\ c_used c = [].
Lemma shown_cons_other l q a b : shown_at l q a -> shown_at (b :: l) q a.
Proof. intros (l1 & l2 & -> & P & F). exists (b :: l1), l2. auto. Qed.
Lemma cross_entries_spec index : forall l ret ret1, cross_entries l index ret = Ok ret1 ->
  forall k c, cget k ret1 = Some c <->
    (exists a, shown_at l k a /\ entry_of index a c) \/ (Forall (fun b => section_pos b <> Some k) l /\ cget k ret = Some c).
Proof.
  assert (UNI : forall a c c', entry_of index a c -> entry_of index a c' -> c = c').
  { intros a [n r t u] [n' r' t' u'] (A & B & C & D) (A' & B' & C' & D'). cbn in *. congruence. }
  induction l as [|b l IH]; intros ret ret1 E k c.
  { cbn in E. injection E as <-. split; [right; auto|]. intros [(a & (l1 & l2 & X & _) & _)|(_ & H)]; [|auto]. destruct l1; discriminate. }
  assert (STEP : forall p c0, section_pos b = Some p -> entry_of index b c0 -> cross_entries l index (cset p c0 ret) = Ok ret1 ->
     (cget k ret1 = Some c <-> (exists a, shown_at (b :: l) k a /\ entry_of index a c) \/ (Forall (fun b => section_pos b <> Some k) (b :: l) /\ cget k ret = Some c))).
  { intros p c0 P EO E'. rewrite (IH _ _ E'). rewrite cget_cset. split.
    - intros [(a & SH & EA)|(F & G)]; [left; exists a; split; [apply shown_cons_other; auto|auto]|]. destruct (oapos_eqb p k) eqn:Q.
      + apply oapos_eqb_eq in Q. subst p. injection G as <-. left. exists b. split; [|auto]. exists [], l. auto.
      + right. split; [|auto]. constructor; [|auto]. rewrite P. intros [= ->]. assert (oapos_eqb k k = true) by (apply oapos_eqb_eq; reflexivity). congruence.
    - intros [(a & (l1 & l2 & X & PA & FA) & EA)|(F & G)].
      + destruct l1 as [|b' l1]; injection X as -> ->.
        * right. split; [auto|]. rewrite PA in P. injection P as ->. assert (Q : oapos_eqb p p = true) by (apply oapos_eqb_eq; reflexivity). rewrite Q. f_equal. eapply UNI; eauto.
        * left. exists a. split; [exists l1, l2; auto|auto].
      + inversion F as [|? ? F1 F2]; subst. right. split; [auto|]. destruct (oapos_eqb p k) eqn:Q; [|auto]. apply oapos_eqb_eq in Q. congruence. }
  assert (SKIP : section_pos b = None -> cross_entries l index ret = Ok ret1 ->
     (cget k ret1 = Some c <-> (exists a, shown_at (b :: l) k a /\ entry_of index a c) \/ (Forall (fun b => section_pos b <> Some k) (b :: l) /\ cget k ret = Some c))).
  { intros P E'. rewrite (IH _ _ E'). split.
    - intros [(a & SH & EA)|(F & G)]; [left; exists a; split; [apply shown_cons_other; auto|auto]|]. right. split; [constructor; [congruence|auto]|auto].
    - intros [(a & (l1 & l2 & X & PA & FA) & EA)|(F & G)].
      + destruct l1 as [|b' l1]; injection X as -> ->; [congruence|]. left. exists a. split; [exists l1, l2; auto|auto].
      + inversion F. right. auto. }
  destruct b as [pos v|pos t|pos emb num o|pos lines tr|pos lines]; cbn [cross_entries] in E; try (apply SKIP; [reflexivity|exact E]).
  - apply bind_ok in E as (rel & ER & E). eapply STEP; [reflexivity| |exact E]. repeat split. exact ER.
  - apply bind_ok in E as (rel & ER & E). eapply STEP; [reflexivity| |exact E]. repeat split. exact ER.
Qed.
Lemma pyget_cell {A} (l : list A) n x : 0 <= n -> (pyget l n = Ok x <-> cell l n x).
Proof.
  intro P. unfold pyget, pyidx, cell. destruct ((0 <=? n) && (n <? Z.of_nat (length l))) eqn:E.
  - unfold of_opt. destruct (nth_error l (Z.to_nat n)); split; try (intros [= ->]; auto); try discriminate; intros (_ & [= ->]); auto.
  - replace ((- Z.of_nat (length l) <=? n) && (n <? 0)) with false by lia. split; [discriminate|]. intros (_ & H). assert (Z.to_nat n < length l)%nat by (apply nth_error_Some; congruence). lia.
Qed.
Lemma pyget_end {A} (l : list A) x : pyget l (-1) = Ok x <-> exists r, l = r ++ [x].
Proof. split; [apply pyget_last_inv|intros (r & ->); apply pyget_last]. Qed.
Definition at_row (pos : option apos) (num : Z) (row : list slot) : Prop := exists e, cell row num (SDict e) /\ n_pos e = pos.
Lemma last_ver_step pos num found ver row r x : 1 <= num -> last_ver pos num found ver (row :: r) = Ok x ->
  (at_row pos num row /\ last_ver pos num (Some (num, ver)) (ver + 1) r = Ok x) \/ (~ at_row pos num row /\ last_ver pos num found (ver + 1) r = Ok x).
Proof.
  intros P E. cbn [last_ver] in E. destruct (Z.of_nat (length row) - 1 <? num) eqn:L.
  { right. split; [|auto]. intros (e & (_ & C) & _). assert (Z.to_nat num < length row)%nat by (apply nth_error_Some; congruence). lia. }
  apply bind_ok in E as (s & ES & E). apply pyget_cell in ES; [|lia]. assert (U : forall y, cell row num y -> y = s). { intros y (_ & C). destruct ES as (_ & C'). congruence. }
  destruct s as [|e|sl]; [| |discriminate].
  - right. split; [|auto]. intros (e & C & _). apply U in C. discriminate.
  - destruct (oapos_eqb (n_pos e) pos) eqn:Q.
    + apply oapos_eqb_eq in Q. left. split; [exists e; auto|auto].
    + right. split; [|auto]. intros (e' & C & N). apply U in C. injection C as ->. subst pos. assert (oapos_eqb (n_pos e) (n_pos e) = true) by (apply oapos_eqb_eq; reflexivity). congruence.
Qed.
Lemma last_ver_spec pos num : 1 <= num -> forall rows found ver n v, last_ver pos num found ver rows = Ok (Some (n, v)) ->
  (found = Some (n, v) /\ Forall (fun r => ~ at_row pos num r) rows) \/
  (n = num /\ exists r1 row r2, rows = r1 ++ row :: r2 /\ at_row pos num row /\ Forall (fun r => ~ at_row pos num r) r2 /\ v = ver + Z.of_nat (length r1)).
Proof.
  intros P. induction rows as [|row rows IH]; intros found ver n v E; [cbn in E; injection E as ->; auto|].
  apply last_ver_step in E as [(A & E)|(A & E)]; [| |auto].
  - apply IH in E as [(X & F)|(-> & r1 & row' & r2 & -> & A' & F & ->)].
    + injection X as <- <-. right. split; [auto|]. exists [], row, rows. cbn [app length]. repeat split; auto. lia.
    + right. split; [auto|]. exists (row :: r1), row', r2. cbn [app length]. repeat split; auto. lia.
  - apply IH in E as [(X & F)|(-> & r1 & row' & r2 & -> & A' & F & ->)].
    + left. split; [auto|constructor; auto].
    + right. split; [auto|]. exists (row :: r1), row', r2. cbn [app length]. repeat split; auto. lia.
Qed.
Lemma first_num_spec pos index : forall fuel num x, 1 <= num -> first_num fuel pos num index = Ok (Some x) -> exists k, 1 <= k /\ last_ver pos k None 0 index = Ok (Some x).
Proof.
  induction fuel as [|fuel IH]; intros num x P E; [discriminate|]. cbn [first_num] in E. apply bind_ok in E as (y & EY & E). destruct y as [y|]; [injection E as ->; eauto|]. eapply IH; [|exact E]. lia.
Qed.
Lemma abs_latest pos emb num o index n v : one_number index -> find_abs_pos_in_index pos index = Ok (Some (n, v)) ->
  (Z.of_nat (length index) - 1 <= v <-> latest index (ArObj pos emb num o)).
Proof.
  intros ONE E. unfold find_abs_pos_in_index in E. apply bind_ok in E as (row & ER & E). apply pyget_end in ER as (rows & ->). apply first_num_spec in E as (k & K & E); [|lia].
  apply last_ver_spec in E as [(X & _)|(-> & r1 & row' & r2 & EQ & A & F & ->)]; [discriminate| |auto]. rewrite EQ. rewrite app_length. cbn [length]. split.
  - intro L. assert (r2 = []) by (destruct r2; [auto|cbn [length] in L; lia]). subst r2. apply app_inj_tail in EQ as (<- & <-). exists rows, row. split; [auto|]. destruct A as (e & C & N). exists k, e. auto.
  - intros (rows' & row'' & EQ' & k' & e' & K' & C' & N'). destruct A as (e & C & N).
    assert (k' = k). { rewrite EQ in ONE. apply (ONE row'' row' k' k e' e); auto; [rewrite EQ'; apply in_or_app; right; left; auto|apply in_or_app; right; left; auto|congruence]. }
    subst k'. destruct r2 as [|z r2]; [cbn [length]; lia|]. exfalso. destruct (@exists_last _ (z :: r2)) as (r3 & y & E3); [discriminate|]. rewrite E3 in EQ'.
    change (row' :: r3 ++ [y]) with ((row' :: r3) ++ [y]) in EQ'. rewrite app_assoc in EQ'. apply app_inj_tail in EQ' as (_ & <-). rewrite E3 in F. apply Forall_app in F as (_ & F). inversion F as [|? ? F1 _]; subst. apply F1. exists e'. auto.
Qed.
Lemma any_xt_spec pos l : forall b, any_xt pos l = Ok b -> (b = true <-> exists e, In (SDict e) l /\ n_xt e = Some pos).
Proof.
  induction l as [|s l IH]; intros b E; cbn [any_xt] in E; [injection E as <-; split; [discriminate|intros (e & [] & _)]|].
  apply bind_ok in E as (x & EX & E). apply bind_ok in E as (b' & EB & E). apply IH in EB. destruct s as [|e0|]; cbn [slot_xt] in EX; try discriminate. injection EX as <-.
  assert (B0 : match n_xt e0 with Some y => y =? pos | None => false end = true <-> n_xt e0 = Some pos).
  { destruct (n_xt e0) as [y|]; [|split; discriminate]. rewrite Z.eqb_eq. split; congruence. }
  injection E as <-. rewrite orb_true_iff, B0, EB. split.
  - intros [N|(e & I & N)]; [exists e0; split; [left; auto|auto]|exists e; split; [right; auto|auto]].
  - intros (e & [[= ->]|I] & N); [auto|right; eauto].
Qed.
Definition table_row (pos : Z) (row : list slot) : Prop := exists e, cell row 0 (SDict e) /\ n_xt e = Some pos.
Lemma last_xt_spec pos : forall rows found ver n v, last_xt pos found ver rows = Ok (Some (n, v)) ->
  (found = Some (n, v) /\ Forall (fun r => ~ table_row pos r) rows) \/
  (exists r1 row r2, rows = r1 ++ row :: r2 /\ table_row pos row /\ Forall (fun r => ~ table_row pos r) r2 /\ v = ver + Z.of_nat (length r1)).
Proof.
  induction rows as [|row rows IH]; intros found ver n v E; [cbn in E; injection E as ->; auto|]. cbn [last_xt] in E. apply bind_ok in E as (s & ES & E).
  apply pyget_cell in ES; [|lia]. assert (U : forall y, cell row 0 y -> y = s). { intros y (_ & C). destruct ES as (_ & C'). congruence. }
  assert (NO : ~ table_row pos row -> last_xt pos found (ver + 1) rows = Ok (Some (n, v)) ->
    (found = Some (n, v) /\ Forall (fun r => ~ table_row pos r) (row :: rows)) \/ (exists r1 row' r2, row :: rows = r1 ++ row' :: r2 /\ table_row pos row' /\ Forall (fun r => ~ table_row pos r) r2 /\ v = ver + Z.of_nat (length r1))).
  { intros A E'. apply IH in E' as [(X & F)|(r1 & row' & r2 & -> & A' & F & ->)]; [left; split; [auto|constructor; auto]|]. right. exists (row :: r1), row', r2. cbn [app length]. repeat split; auto. lia. }
  destruct s as [|e|sl]; [apply NO; [|exact E]| |discriminate].
  - intros (e & C & _). apply U in C. discriminate.
  - cbn [slot_xt bind] in E. destruct (n_xt e) as [y|] eqn:NX; [destruct (y =? pos) eqn:Q|].
    + apply Z.eqb_eq in Q. subst y. right. apply IH in E as [(X & F)|(r1 & row' & r2 & -> & A' & F & ->)].
      * injection X as <- <-. exists [], row, rows. cbn [app length]. repeat split; auto; [exists e; auto|lia].
      * exists (row :: r1), row', r2. cbn [app length]. repeat split; auto. lia.
    + apply NO; [|exact E]. intros (e' & C & N). apply U in C. injection C as ->. rewrite NX in N. injection N as ->. lia.
    + apply NO; [|exact E]. intros (e' & C & N). apply U in C. injection C as ->. congruence.
Qed.
Lemma table_latest pos lines tr index n v : find_xref_table_pos_in_index (Z.of_nat pos) index = Ok (Some (n, v)) ->
  (Z.of_nat (length index) - 1 <= v <-> latest index (ArTable pos lines tr)).
Proof.
  unfold find_xref_table_pos_in_index. destruct index as [|row0 rows]; [discriminate|]. intro E. apply bind_ok in E as (s & ES & E). apply bind_ok in E as (b & EB & E). apply any_xt_spec in EB. apply pyget_cell in ES; [|lia].
  apply last_xt_spec in E as [(X & F)|(r1 & row & r2 & -> & A & F & ->)].
  - destruct b; [|discriminate]. injection X as <- <-. destruct (proj1 EB eq_refl) as (e & I & N). cbn [length]. destruct rows as [|row1 rows].
    + split; [|cbn; lia]. intros _. exists [], row0. split; [reflexivity|]. exists e. split; [auto|].
      destruct s as [|e0|sl]; [destruct I as [I|[]]; discriminate|destruct I as [[= ->]|[]]; auto|]. right. split; [auto|]. exists sl. auto.
    + split; [cbn [length]; lia|]. intros (rs & row & EQ & e' & N' & C). exfalso. destruct rs as [|r0 rs]; [discriminate|]. injection EQ as <- EQ.
      destruct C as [C|(Q & _)]; [|discriminate]. rewrite EQ in F. apply Forall_app in F as (_ & F). inversion F as [|? ? F1 _]; subst. apply F1. exists e'. auto.
  - cbn [length]. rewrite app_length. cbn [length]. split.
    + intro L. assert (r2 = []) by (destruct r2; [auto|cbn [length] in L; lia]). subst r2. exists (row0 :: r1), row. split; [reflexivity|]. destruct A as (e & C & N). exists e. auto.
    + intros (rs & row' & EQ & e' & N' & C). destruct r2 as [|z r2]; [cbn [length]; lia|]. exfalso. destruct rs as [|r0 rs]; [destruct r1; discriminate|]. injection EQ as <- EQ. destruct C as [C|(Q & _)]; [|discriminate].
      destruct (@exists_last _ (z :: r2)) as (r3 & y & E3); [discriminate|]. rewrite E3 in EQ, F. change (row :: r3 ++ [y]) with ((row :: r3) ++ [y]) in EQ. rewrite app_assoc in EQ. apply app_inj_tail in EQ as (_ & <-).
      apply Forall_app in F as (_ & F). inversion F as [|? ? F1 _]; subst. apply F1. exists e'. auto.
Qed.
Lemma detect_in o l g m : deep_ref_detect o = Some l -> (In (g, m) l <-> ref_in (g, m) o).
Proof.
  intro E. destruct (detect_refs o) as (l' & E' & H); [intros g' n' ->; discriminate|]. rewrite E in E'. injection E' as <-. apply H.
Qed.
Lemma entries_relevance index a k : forall l ret ret1, cross_entries l index ret = Ok ret1 -> shown_at l k a -> exists rel, relevance index a = Ok rel.
Proof.
  intros l ret ret1 E (l1 & l2 & -> & P & _). revert ret E. induction l1 as [|x l1 IH]; intros ret E.
  - cbn [app] in E. destruct a; try discriminate P; cbn [cross_entries] in E; apply bind_ok in E as (rel & ER & _); exists rel; exact ER.
  - cbn [app] in E. destruct x; cbn [cross_entries] in E; try (eapply IH; eauto; fail); apply bind_ok in E as (? & _ & E); eapply IH; eauto.
Qed.
Lemma shown_entry index l ret ret1 k a : cross_entries l index ret = Ok ret1 -> shown_at l k a -> exists c, cget k ret1 = Some c /\ entry_of index a c.
Proof.
  intros E SH. destruct (entries_relevance _ _ _ _ _ _ E SH) as (rel & R). exists (mk_cross (section_num a) rel (deep_ref_detect (section_obj a)) []).
  assert (EO : entry_of index a (mk_cross (section_num a) rel (deep_ref_detect (section_obj a)) [])) by (repeat split; exact R). split; [|exact EO]. apply (cross_entries_spec _ _ _ _ E). left. eauto.
Qed.
Lemma shown_one l k a a' : shown_at l k a -> shown_at l k a' -> a = a'.
Proof.
  intros (l1 & l2 & -> & P & F) (m1 & m2 & EQ & P' & F'). revert m1 EQ. induction l1 as [|x l1 IH]; intros m1 EQ.
  - destruct m1 as [|y m1]; injection EQ as -> ->; [auto|]. apply Forall_app in F as (_ & F). inversion F. congruence.
  - destruct m1 as [|y m1]; injection EQ as -> EQ; [|apply IH with m1; auto]. subst m2. apply Forall_app in F' as (_ & F'). inversion F'. congruence.
Qed.
Lemma users_ok index : forall keys ret ret1, cross_users keys index ret = Ok ret1 ->
  map fst ret1 = map fst ret /\ forall q cq, In q keys -> cget q ret = Some cq -> exists n v, c_rel cq = Some (n, v) /\ (Z.of_nat (length index) - 1 <= v -> c_targets cq <> None).
Proof.
  induction keys as [|k keys IH]; intros r r' H; cbn [cross_users] in H; [injection H as <-; split; [auto|intros q cq []]|]. destruct (cget k r) as [c|] eqn:CK; [|discriminate]. destruct (c_rel c) as [(a, v)|] eqn:CR; [|discriminate].
  destruct (v <? _) eqn:V.
  - apply IH in H as (K & H). split; [auto|]. intros q cq [<-|I] C; [|eapply H; eauto]. rewrite CK in C. injection C as <-. exists a, v. split; [auto|lia].
  - destruct (c_targets c) as [t|] eqn:CT; [|discriminate]. apply bind_ok in H as (row & _ & H). apply bind_ok in H as (r1 & HA & H). apply add_users_spec in HA as (HK & HA). apply IH in H as (K & H). split; [congruence|].
    intros q cq [<-|I] C; [rewrite CK in C; injection C as <-; exists a, v; split; [auto|congruence]|]. destruct (HA _ _ C) as (c1 & C1 & (S1 & S2 & S3) & _). rewrite <- S2, <- S3. eapply H; eauto.
Qed.
Lemma relevance_latest index a n v k : one_number index -> section_pos a = Some k -> relevance index a = Ok (Some (n, v)) -> (Z.of_nat (length index) - 1 <= v <-> latest index a).
Proof. intros ONE P R. destruct a; try discriminate P; cbn [relevance] in R; [eapply abs_latest; eauto|eapply table_latest; eauto]. Qed.
Theorem cross_used l index ret : cross_map_index l index = Ok ret -> one_number index ->
  (forall k, In k (map fst ret) <-> exists a, shown_at l k a) /\
  (forall k c n q, cget (Some k) ret = Some c -> (In (n, q) (c_used c) <-> uses l index n q k)).
Proof.
  unfold cross_map_index. intros E ONE. apply bind_ok in E as (ret0 & E0 & E).
  assert (SP := cross_entries_spec _ _ _ _ E0). assert (SU := cross_users_spec index _ _ _ E (fun k I => I)). apply users_ok in E as (KS & KO).
  split.
  - intro k. rewrite KS, <- cget_in. split.
    + intro N. destruct (cget k ret0) as [c|] eqn:C; [|congruence]. apply SP in C as [(a & SH & _)|(_ & X)]; [eauto|discriminate].
    + intros (a & SH). destruct (shown_entry _ _ _ _ _ _ E0 SH) as (c & C & _). congruence.
  - intros k c n q C. assert (C0 : exists c0, cget (Some k) ret0 = Some c0).
    { destruct (cget (Some k) ret0) as [c0|] eqn:C0; [eauto|]. exfalso. apply (proj2 (cget_in (Some k) ret0)); [|exact C0]. rewrite <- KS. apply cget_in. congruence. }
    destruct C0 as (c0 & C0). destruct (SU _ _ C0) as (c1 & C1 & _ & U). rewrite C in C1. injection C1 as <-. rewrite U.
    assert (C0' := C0). apply SP in C0' as [(a0 & _ & (_ & _ & _ & U0))|(_ & X)]; [|discriminate]. rewrite U0. split.
    + intros [[]|(q' & cq & I & CQ & X & A)]. injection X as -> ->. apply SP in CQ as [(a & SH & (N & R & T & _))|(_ & X)]; [|discriminate].
      destruct A as (rn & ver & tl & g & m & row & CR & LV & CT & IT & ER & (e & p & PG & NP & [= <-])). rewrite CR in R. rewrite CT in T.
      exists a, g, m. split; [auto|]. split; [auto|]. split.
      * assert (SH' := SH). destruct SH' as (l1 & l2 & _ & P & _). apply (relevance_latest _ _ _ _ _ ONE P R). auto.
      * split; [apply (detect_in _ tl); auto|]. apply pyget_end in ER as (rows & ->). exists rows, row, e. auto.
    + intros (a & g & m & SH & N & LA & RI & (rows & row & e & EQ & PG & NP)). right. destruct (shown_entry _ _ _ _ _ _ E0 SH) as (cq & CQ & (N' & R & T & _)).
      assert (KQ : In q (map fst ret0)) by (apply cget_in; congruence). destruct (KO _ _ KQ CQ) as (rn & v & CR & CT). rewrite CR in R.
      assert (SH' := SH). destruct SH' as (l1 & l2 & _ & P & _). apply (relevance_latest _ _ _ _ _ ONE P R) in LA. specialize (CT LA). destruct (c_targets cq) as [tl|] eqn:TL; [|congruence].
      exists q, cq. split; [auto|]. split; [auto|]. split; [congruence|]. exists rn, v, tl, g, m, row. split; [auto|]. split; [auto|]. split; [auto|]. split; [apply (detect_in (section_obj a)); auto|].
      split; [apply pyget_end; exists rows; exact EQ|]. exists e, k. auto.
Qed.

(* ---------- when the map can be built ---------- *)
Lemma last_ver_ok pos num : forall rows found ver, 1 <= num -> (forall row s, In row rows -> cell row num s -> s = SNone \/ is_dict s) ->
  exists x, last_ver pos num found ver rows = Ok x /\ ((found <> None \/ exists row, In row rows /\ at_row pos num row) -> x <> None).
Proof.
  induction rows as [|row rows IH]; intros found ver P SH; cbn [last_ver]; [exists found; split; [auto|]; intros [N|(r & [] & _)]; auto|].
  assert (SH' : forall r s, In r rows -> cell r num s -> s = SNone \/ is_dict s) by (intros; eapply SH; [right|]; eauto).
  destruct (Z.of_nat (length row) - 1 <? num) eqn:L.
  { destruct (IH found (ver + 1) P SH') as (x & E & N). exists x. split; [auto|]. intros [F|(r & [<-|I] & A)]; [auto| |apply N; right; eauto]. exfalso.
    destruct A as (e & (_ & C) & _). assert (Z.to_nat num < length row)%nat by (apply nth_error_Some; congruence). lia. }
  destruct (pyget_range row num) as (s & C); [lia|]. assert (E := proj2 (pyget_cell row num s ltac:(lia)) C). rewrite E. cbn [bind].
  assert (U : forall y, cell row num y -> y = s). { intros y (_ & C1). destruct C as (_ & C'). congruence. }
  destruct (SH row s (or_introl eq_refl) C) as [->|D].
  - destruct (IH found (ver + 1) P SH') as (x & EX & N). exists x. split; [auto|]. intros [F|(r & [<-|I] & A)]; [auto| |apply N; right; eauto]. exfalso. destruct A as (e & C1 & _). apply U in C1. discriminate.
  - destruct s as [|e|]; try contradiction. destruct (IH (if oapos_eqb (n_pos e) pos then Some (num, ver) else found) (ver + 1) P SH') as (x & EX & N). exists x. split; [auto|].
    intros [F|(r & [<-|I] & A)]; [|apply N; left|apply N; right; eauto].
    + apply N. left. destruct (oapos_eqb _ _); [discriminate|auto].
    + destruct A as (e' & C1 & NP). apply U in C1. injection C1 as ->. assert (X : oapos_eqb (n_pos e) pos = true) by (apply oapos_eqb_eq; auto). rewrite X. discriminate.
Qed.
Lemma first_num_ok pos index : (forall row n s, In row index -> 1 <= n -> cell row n s -> s = SNone \/ is_dict s) ->
  forall fuel num, 1 <= num -> exists x, first_num fuel pos num index = Ok x /\
    ((exists k row, num <= k < num + Z.of_nat fuel /\ In row index /\ at_row pos k row) -> x <> None).
Proof.
  intros SH. induction fuel as [|fuel IH]; intros num P; cbn [first_num]; [exists None; split; [auto|intros (k & row & L & _); lia]|].
  destruct (last_ver_ok pos num index None 0 P) as (x & E & N). { intros. eapply SH; eauto. }
  rewrite E. cbn [bind]. destruct x as [x|]; [exists (Some x); split; [auto|discriminate]|]. destruct (IH (num + 1)) as (y & EY & NY); [lia|]. exists y. split; [auto|]. intros (k & row & L & I & A).
  destruct (Z.eq_dec k num) as [->|]; [exfalso; apply N; [right; eauto|auto]|]. apply NY. exists k, row. split; [lia|auto].
Qed.
Lemma any_xt_ok pos l : Forall is_dict l -> exists b, any_xt pos l = Ok b.
Proof. induction 1 as [|s l H F (b & IH)]; cbn [any_xt]; [eauto|]. destruct s as [|e|]; try contradiction. cbn [slot_xt bind]. rewrite IH. cbn [bind]. eauto. Qed.
Lemma last_xt_ok pos : forall rows found ver, (forall row, In row rows -> exists s, cell row 0 s /\ (s = SNone \/ is_dict s)) ->
  exists x, last_xt pos found ver rows = Ok x /\ ((found <> None \/ exists row, In row rows /\ table_row pos row) -> x <> None).
Proof.
  induction rows as [|row rows IH]; intros found ver SH; cbn [last_xt]; [exists found; split; [auto|]; intros [N|(r & [] & _)]; auto|].
  assert (SH' : forall r, In r rows -> exists s, cell r 0 s /\ (s = SNone \/ is_dict s)) by (intros; apply SH; right; auto).
  destruct (SH row (or_introl eq_refl)) as (s & C & D). assert (E := proj2 (pyget_cell row 0 s ltac:(lia)) C). rewrite E. cbn [bind].
  assert (U : forall y, cell row 0 y -> y = s). { intros y (_ & C1). destruct C as (_ & C'). congruence. }
  destruct D as [->|D].
  - destruct (IH found (ver + 1) SH') as (x & EX & N). exists x. split; [auto|]. intros [F|(r & [<-|I] & A)]; [auto| |apply N; right; eauto]. exfalso. destruct A as (e & C1 & _). apply U in C1. discriminate.
  - destruct s as [|e|]; try contradiction. cbn [slot_xt bind].
    destruct (IH (match n_xt e with Some y => if y =? pos then Some (0, ver) else found | None => found end) (ver + 1) SH') as (x & EX & N). exists x. split; [auto|].
    intros [F|(r & [<-|I] & A)]; [|apply N; left|apply N; right; eauto].
    + apply N. left. destruct (n_xt e) as [y|]; [destruct (y =? pos); [discriminate|auto]|auto].
    + destruct A as (e' & C1 & NX). apply U in C1. injection C1 as ->. rewrite NX, Z.eqb_refl. discriminate.
Qed.
Lemma indexed_relevance index a k : plain_index index -> section_pos a = Some k -> indexed index a -> exists n v, relevance index a = Ok (Some (n, v)).
Proof.
  intros (NE & SH & (row0 & rows & s & EQ & C0 & D0) & ST) P I. destruct a as [| |pos emb num o|pos lines tr|]; try discriminate P; cbn [relevance].
  - destruct I as (row & last & m & e & IR & EL & LM & C & NP). unfold find_abs_pos_in_index. rewrite EL. cbn [bind]. destruct (first_num_ok pos index SH (length last - 1) 1) as (x & E & N); [lia|]. rewrite E.
    destruct x as [(n, v)|]; [eauto|]. exfalso. apply N; [|auto]. exists m, row. split; [lia|]. split; [auto|]. exists e. auto.
  - destruct I as (rs & row & rest & e & EQ' & NX & CC). unfold find_xref_table_pos_in_index. rewrite EQ. rewrite (proj2 (pyget_cell row0 0 s ltac:(lia)) C0). cbn [bind].
    set (l0 := match s with SNone => [SNone] | SDict _ => [s] | SList l => l end). assert (FD : Forall is_dict l0).
    { unfold l0. destruct D0 as [D0|(l & -> & F)]; [|auto]. destruct s; try contradiction. constructor; auto. }
    destruct (any_xt_ok (Z.of_nat pos) l0 FD) as (b & EB). rewrite EB. cbn [bind]. apply any_xt_spec in EB. rewrite EQ in ST. cbn [tl] in ST.
    destruct (last_xt_ok (Z.of_nat pos) rows (if b then Some (0, 0) else None) 1 ST) as (x & EX & N). rewrite EX. destruct x as [(n, v)|]; [eauto|]. exfalso. apply N; [|auto].
    rewrite EQ in EQ'. destruct rs as [|r0 rs]; injection EQ' as -> EQ'.
    + left. assert (b = true) by (apply EB; exists e; split; [|auto]; unfold l0; assert (U : forall y, cell row 0 y -> y = s) by (intros y (_ & Y); destruct C0 as (_ & Y'); congruence);
        destruct CC as [CC|(_ & l & CC & IL)]; apply U in CC; subst s; [left; auto|auto]). subst b. discriminate.
    + right. subst rows. exists row. split; [apply in_or_app; right; left; auto|]. destruct CC as [CC|(X & _)]; [|discriminate]. exists e. auto.
Qed.
Lemma entries_ok index : plain_index index -> forall l ret, Forall (fun a => section_pos a <> None -> indexed index a) l -> exists ret1, cross_entries l index ret = Ok ret1.
Proof.
  intros PI. induction l as [|a l IH]; intros ret F; cbn [cross_entries]; [eauto|]. inversion F as [|? ? Fa Fl]; subst. destruct a as [pos v|pos t|pos emb num o|pos lines tr|pos lines]; try (apply IH; auto).
  - destruct (indexed_relevance index (ArObj pos emb num o) _ PI eq_refl) as (n & v & R); [apply Fa; discriminate|]. cbn [relevance] in R. rewrite R. cbn [bind]. apply IH. auto.
  - destruct (indexed_relevance index (ArTable pos lines tr) _ PI eq_refl) as (n & v & R); [apply Fa; discriminate|]. cbn [relevance] in R. rewrite R. cbn [bind]. apply IH. auto.
Qed.
Lemma add_users_ok row num pos : forall l ret, (forall g m, In (g, m) l -> exists e p, pyget row m = Ok (SDict e) /\ n_pos e = Some p /\ In (Some p) (map fst ret)) -> exists ret1, add_users row num pos l ret = Ok ret1.
Proof.
  induction l as [|(g, m) l IH]; intros ret H; cbn [add_users]; [eauto|]. destruct (H g m (or_introl eq_refl)) as (e & p & E & NP & I). rewrite E. cbn [bind as_dict]. rewrite NP. cbn [bind].
  apply cget_in in I. destruct (cget (Some p) ret) as [c|] eqn:C; [|congruence]. apply IH. intros g' m' I'. destruct (H g' m' (or_intror I')) as (e' & p' & E' & NP' & I2). exists e', p'. rewrite cset_keys by congruence. auto.
Qed.
Lemma users_total index : forall keys ret, (forall k, In k keys -> exists c n v, cget k ret = Some c /\ c_rel c = Some (n, v) /\
    (Z.of_nat (length index) - 1 <= v -> exists l row, c_targets c = Some l /\ pyget index (-1) = Ok row /\ forall g m, In (g, m) l -> exists e p, pyget row m = Ok (SDict e) /\ n_pos e = Some p /\ In (Some p) (map fst ret))) ->
  exists ret1, cross_users keys index ret = Ok ret1.
Proof.
  induction keys as [|k keys IH]; intros ret H; cbn [cross_users]; [eauto|]. destruct (H k (or_introl eq_refl)) as (c & n & v & C & R & T). rewrite C, R. destruct (v <? _) eqn:V.
  { apply IH. intros. apply H. right. auto. }
  destruct T as (l & row & CT & ER & TT); [lia|]. rewrite CT, ER. cbn [bind]. destruct (add_users_ok row (c_num c) k (ref_set l) ret) as (ret2 & E2). { intros g m I. apply (proj1 (ref_set_in _ _)) in I. apply TT with g. auto. }
  rewrite E2. cbn [bind]. apply add_users_spec in E2 as (EK & EA). apply IH. intros k' I. destruct (H k' (or_intror I)) as (c' & n' & v' & C' & R' & T'). destruct (EA _ _ C') as (c2 & C2 & (S1 & S2 & S3) & _).
  exists c2, n', v'. rewrite S2, S3, EK. auto.
Qed.
Theorem cross_total l index : plain_index index -> one_number index -> Forall (fun a => section_pos a <> None -> indexed index a) l ->
  (forall a q, shown_at l q a -> latest index a -> (forall g n, section_obj a <> PRef g n) /\
     forall g m, ref_in (g, m) (section_obj a) -> exists k b, now_at index m k /\ shown_at l (Some k) b) ->
  exists ret, cross_map_index l index = Ok ret.
Proof.
  intros PI ONE F RS. unfold cross_map_index. destruct (entries_ok index PI l [] F) as (ret0 & E0). rewrite E0. cbn [bind]. apply users_total. intros k IK. apply cget_in in IK. destruct (cget k ret0) as [c|] eqn:C; [|congruence].
  assert (C' := C). apply (cross_entries_spec _ _ _ _ E0) in C' as [(a & SH & (N & R & T & _))|(_ & X)]; [|discriminate].
  assert (SH' := SH). destruct SH' as (l1 & l2 & EL & P & _). assert (I : indexed index a). { rewrite Forall_forall in F. apply F; [rewrite EL; apply in_or_app; right; left; auto|congruence]. }
  destruct (indexed_relevance _ _ _ PI P I) as (n & v & R'). rewrite R in R'. injection R' as CR. exists c, n, v. split; [auto|]. split; [auto|]. intro LV. rewrite CR in R. apply (relevance_latest _ _ _ _ _ ONE P R) in LV.
  destruct (RS _ _ SH LV) as (NR & RR). destruct (detect_refs _ NR) as (tl & ET & TI). exists tl. assert (NE : index <> []) by apply PI. destruct (exists_last NE) as (rows & row & EQ). exists row. split; [congruence|]. split; [apply pyget_end; eauto|].
  intros g m IM. apply TI in IM. destruct (RR _ _ IM) as (kk & b & (rows' & row' & e & EQ' & PG & NP) & SB). rewrite EQ in EQ'. apply app_inj_tail in EQ' as (<- & <-). exists e, kk. split; [auto|]. split; [auto|].
  apply cget_in. destruct (shown_entry _ _ _ _ _ _ E0 SB) as (cb & CB & _). congruence.
Qed.

(* ---------- deciding the conditions on given files ---------- *)
Definition tag_here (s : bytes) : bool :=
  existsb (fun t => starts t s || existsb (fun n => starts (firstn n t ++ cut_mark) s) (seq 1 (length t))) template_tags.
Lemma starts_length p t : starts p t = true -> p = firstn (length p) t /\ (length p <= length t)%nat.
Proof.
  unfold starts. intro E. apply beqb_eq in E. split; [auto|]. assert (L := f_equal (@length Z) E). rewrite firstn_length in L. lia.
Qed.
Lemma tag_needed page a b : from_template page -> page = a ++ 60 :: b -> tag_here (60 :: b) = true.
Proof.
  intros F E. destruct (F _ _ E) as (t & I & H). unfold tag_here. apply existsb_exists. exists t. split; [auto|]. apply orb_true_iff. destruct H as [H|(p & N & P & H)]; [auto|]. right. apply existsb_exists.
  apply starts_length in P as (P & L). exists (length p). split; [apply in_seq; destruct p; [congruence|cbn [length] in *; lia]|]. rewrite <- P. exact H.
Qed.
Lemma not_template page n : nth_error page n = Some 60 -> tag_here (skipn n page) = false -> ~ from_template page.
Proof.
  intros E H F. apply nth_error_split in E as (a & b & E & L). assert (S1 : skipn n page = 60 :: b) by (rewrite E, <- L, skipn_app, skipn_all, Nat.sub_diag; reflexivity). rewrite S1 in H. apply tag_needed with (b := b) (a := a) in F; [|auto]. congruence.
Qed.
Fixpoint row_pairs (i : Z) (row : list slot) : list (Z * option apos) :=
  match row with [] => [] | s :: r => match s with SDict e => if 1 <=? i then [(i, n_pos e)] else [] | _ => [] end ++ row_pairs (i + 1) r end.
Lemma row_pairs_in row : forall i n e, cell row n (SDict e) -> 1 <= i + n -> In (i + n, n_pos e) (row_pairs i row).
Proof.
  induction row as [|s row IH]; intros i n e (P & E) L; [destruct (Z.to_nat n); discriminate|]. cbn [row_pairs]. apply in_or_app. destruct (Z.eq_dec n 0) as [->|N].
  - cbn in E. injection E as ->. left. replace (1 <=? i) with true by lia. left. f_equal. lia.
  - right. replace (i + n) with (i + 1 + (n - 1)) by lia. apply IH; [|lia]. split; [lia|]. replace (Z.to_nat n) with (S (Z.to_nat (n - 1))) in E by lia. exact E.
Qed.
Definition one_numberb (index : list (list slot)) : bool :=
  let l := flat_map (row_pairs 0) index in forallb (fun x => forallb (fun y => negb (oapos_eqb (snd x) (snd y)) || (fst x =? fst y)) l) l.
Lemma one_numberb_ok index : one_numberb index = true -> one_number index.
Proof.
  unfold one_numberb. intros H r1 r2 n1 n2 e1 e2 I1 I2 C1 C2 P1 P2 E. rewrite forallb_forall in H. assert (A1 := row_pairs_in r1 0 n1 e1 C1 ltac:(lia)). assert (A2 := row_pairs_in r2 0 n2 e2 C2 ltac:(lia)).
  specialize (H (n1, n_pos e1)). rewrite forallb_forall in H. assert (B1 : In (n1, n_pos e1) (flat_map (row_pairs 0) index)) by (apply in_flat_map; exists r1; split; [auto|exact A1]).
  assert (B2 : In (n2, n_pos e2) (flat_map (row_pairs 0) index)) by (apply in_flat_map; exists r2; split; [auto|exact A2]). specialize (H B1 _ B2). cbn [fst snd] in H.
  rewrite E in H. assert (X : oapos_eqb (n_pos e2) (n_pos e2) = true) by (apply oapos_eqb_eq; auto). rewrite X in H. cbn in H. lia.
Qed.
Fixpoint refs_okb (index : list (list slot)) (l : list article) (rs : list ref) : bool :=
  match rs with
  | [] => true
  | (_, m) :: r => match pyget index (-1) with
                   | Ok row => match pyget row m with
                               | Ok (SDict e) => match n_pos e with Some p => existsb (fun a => match section_pos a with Some q => oapos_eqb q (Some p) | None => false end) l | None => false end
                               | _ => false
                               end
                   | _ => false
                   end && refs_okb index l r
  end.
Lemma last_shown l k : (exists a, In a l /\ section_pos a = Some k) -> exists a, shown_at l k a.
Proof.
  induction l as [|b l IH]; intros (a & I & P); [destruct I|]. destruct (Forall_dec (fun b => section_pos b <> Some k)) with (l := l) as [F|NF].
  { intro x. destruct (section_pos x) as [q|]; [|left; discriminate]. destruct (oapos_eqb q k) eqn:E; [right; apply oapos_eqb_eq in E; congruence|left; intros [= ->]; assert (oapos_eqb k k = true) by (apply oapos_eqb_eq; auto); congruence]. }
  - destruct I as [->|I]; [exists a; exists [], l; auto|]. exfalso. rewrite Forall_forall in F. apply (F a); auto.
  - assert (X : exists a, In a l /\ section_pos a = Some k).
    { apply neg_Forall_Exists_neg in NF. { apply Exists_exists in NF as (x & IX & NX). exists x. split; [auto|]. destruct (section_pos x) as [q|]; [|exfalso; apply NX; discriminate].
      destruct (oapos_eqb q k) eqn:E; [apply oapos_eqb_eq in E; congruence|exfalso; apply NX; intros [= ->]; assert (oapos_eqb k k = true) by (apply oapos_eqb_eq; auto); congruence]. }
      intro x. destruct (section_pos x) as [q|]; [|left; discriminate]. destruct (oapos_eqb q k) eqn:E; [right; apply oapos_eqb_eq in E; congruence|left; intros [= ->]; assert (oapos_eqb k k = true) by (apply oapos_eqb_eq; auto); congruence]. }
    destruct (IH X) as (a' & SH). exists a'. apply shown_cons_other. auto.
Qed.
Lemma refs_okb_ok index l rs : refs_okb index l rs = true -> forall g m, In (g, m) rs -> exists k b, now_at index m k /\ shown_at l (Some k) b.
Proof.
  induction rs as [|(g0, m0) rs IH]; intros H g m []; cbn [refs_okb] in H; apply andb_true_iff in H as (H & HR); [|eapply IH; eauto]. injection H0 as <- <-. destruct (pyget index (-1)) as [row| |] eqn:ER; try discriminate.
  destruct (pyget row m0) as [s| |] eqn:ES; try discriminate. destruct s as [|e|]; try discriminate. destruct (n_pos e) as [p|] eqn:NP; [|discriminate]. apply existsb_exists in H as (a & IA & PA).
  destruct (section_pos a) as [q|] eqn:SP; [|discriminate]. apply oapos_eqb_eq in PA. subst q. destruct (last_shown l (Some p)) as (b & SB); [exists a; auto|]. exists p, b. split; [|auto]. apply pyget_end in ER as (rows & ->). exists rows, row, e. auto.
Qed.
Definition good_objb (index : list (list slot)) (l : list article) (a : article) : bool :=
  match deep_ref_detect (section_obj a) with Some rs => refs_okb index l rs | None => false end.
Lemma good_objb_ok index l : forallb (good_objb index l) l = true -> forall a q, shown_at l q a -> latest index a -> (forall g n, section_obj a <> PRef g n) /\
  forall g m, ref_in (g, m) (section_obj a) -> exists k b, now_at index m k /\ shown_at l (Some k) b.
Proof.
  intros H a q (l1 & l2 & E & _) _. rewrite forallb_forall in H. assert (I : In a l) by (rewrite E; apply in_or_app; right; left; auto). specialize (H a I). unfold good_objb in H. destruct (deep_ref_detect (section_obj a)) as [rs|] eqn:D; [|discriminate].
  split; [intros g n X; rewrite X in D; discriminate|]. intros g m R. eapply refs_okb_ok; [exact H|]. apply (detect_in _ _ _ _ D). exact R.
Qed.
Lemma indexed_obj index last pos emb num o n (row : nat) : pyget index (-1) = Ok last -> 1 <= n < Z.of_nat (length last) ->
  (match nth_error index row with Some r => match nth_error r (Z.to_nat n) with Some (SDict e) => oapos_eqb (n_pos e) pos | _ => false end | None => false end) = true -> indexed index (ArObj pos emb num o).
Proof.
  intros L LN H. destruct (nth_error index row) as [r|] eqn:R; [|discriminate]. destruct (nth_error r (Z.to_nat n)) as [[|e|]|] eqn:C; try discriminate. exists r, last, n, e. split; [eapply nth_error_In; eauto|]. split; [auto|]. split; [lia|].
  split; [split; [lia|exact C]|]. apply oapos_eqb_eq. exact H.
Qed.
