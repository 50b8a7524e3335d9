(* Proofs about tokenize *)
From Coq Require Import String.
From Verif Require Import PyBase Model_Objects Model_Filestruct Model_Markdown Model_MdTokens Spec_Markdown Spec_MdTokens.
From Verif Require Import Facts_Base Facts_Markdown.
From Coq Require Import ZifyBool ZifyNat.

Lemma zfind_line md pre l : line_in md pre l -> line_end md (blen pre) = blen (pre ++ l).
Proof.
  intros [N (rest & -> & R)]. unfold line_end. destruct R as [-> | [r ->]].
  - rewrite app_nil_r. rewrite zfind_none by exact N. reflexivity.
  - replace (10 :: r) with ([10] ++ r) by reflexivity. rewrite (zfind_first 10 [] pre l r N). unfold blen. destruct (Z.of_nat _ =? -1) eqn:E; [lia|reflexivity].
Qed.
Lemma line_shift md pre l : line_in md pre l -> line_in md (pre ++ l) [].
Proof. intros [N (rest & -> & R)]. split; [intros []|]. exists rest. rewrite app_assoc. auto. Qed.
Lemma slice_mid pre l rest : slice (pre ++ l ++ rest) (blen pre) (blen (pre ++ l)) = l.
Proof.
  unfold slice, bound, sub, blen. replace (Z.of_nat (length pre) <? 0) with false by lia. replace (Z.of_nat (length (pre ++ l)) <? 0) with false by lia. rewrite !Nat2Z.id.
  rewrite !Nat.min_l by (rewrite !app_length; lia). rewrite skipn_app, skipn_all, Nat.sub_diag. cbn [skipn app]. rewrite app_length. replace (length pre + length l - length pre)%nat with (length l) by lia.
  rewrite firstn_app, firstn_all, Nat.sub_diag. cbn. now rewrite app_nil_r.
Qed.

Lemma inb_repeat x c n : inb x (repeat c (S n)) = (x =? c).
Proof. unfold inb. induction n as [|n IH]; [cbn; apply orb_false_r|]. change (existsb (Z.eqb x) (repeat c (S (S n)))) with ((x =? c) || existsb (Z.eqb x) (repeat c (S n))). rewrite IH. apply orb_diag. Qed.
Lemma hr_loop_some c : c <> 32 -> forall l n, hr_loop l (repeat c (S n)) = (if forallb (fun x => (x =? c) || (x =? 32)) l then Some (repeat c (S n + count_occ Z.eq_dec l c)) else None).
Proof.
  intros C. induction l as [|x l IH]; intros n; cbn [hr_loop forallb count_occ]; [rewrite Nat.add_0_r; reflexivity|]. cbn [repeat]. change (c :: repeat c n) with (repeat c (S n)).
  rewrite (inb_repeat x c n).
  destruct (Z.eq_dec x c) as [->|NE].
  - rewrite Z.eqb_refl, andb_false_r. replace (repeat c (S n) ++ [c]) with (repeat c (S (S n))) by exact (repeat_cons (S n) c). rewrite IH. cbn [orb andb]. replace (S (S n) + count_occ Z.eq_dec l c)%nat with (S n + S (count_occ Z.eq_dec l c))%nat by lia. reflexivity.
  - replace (x =? c) with false by lia. cbn [negb]. rewrite andb_true_r. cbn [orb]. destruct (x =? 32); cbn [negb andb]; [apply IH|reflexivity].
Qed.
Lemma hr_loop_spec l : match hr_loop l [] with Some toks => (3 <= length toks)%nat <-> hrule l | None => ~ hrule l end.
Proof.
  induction l as [|x l IH]; cbn [hr_loop].
  - split; [cbn; lia|]. intros (c & _ & _ & H). cbn in H. lia.
  - destruct (inb x [42; 95; 45]) eqn:M.
    + assert (X : In x (B "*_-")). { apply existsb_exists in M. destruct M as (y & I & E). apply Z.eqb_eq in E. subst y. exact I. }
      assert (X32 : x <> 32). { intros ->. vm_compute in M. discriminate. }
      pose proof (hr_loop_some x X32 l 0) as E. cbn [repeat] in E. rewrite E. clear E. destruct (forallb _ l) eqn:F.
      * rewrite repeat_length. rewrite forallb_forall in F. split.
        -- intro H. exists x. split; [exact X|]. split.
           ++ constructor; [auto|]. apply Forall_forall. intros y I. specialize (F y I). lia.
           ++ cbn [count_occ]. destruct (Z.eq_dec x x); [lia|contradiction].
        -- intros (c & Ic & A & H). pose proof (Forall_inv A) as [-> |Hx]; [|contradiction]. cbn [count_occ] in H. destruct (Z.eq_dec c c); [lia|contradiction].
      * intros (c & Ic & A & H). pose proof (Forall_inv A) as [-> |Hx]; [|contradiction]. apply Forall_inv_tail in A. rewrite <- not_true_iff_false in F. apply F. apply forallb_forall. rewrite Forall_forall in A. intros y I. specialize (A y I). lia.
    + destruct (x =? 32) eqn:S.
      * apply Z.eqb_eq in S. subst x. assert (E : hrule (32 :: l) <-> hrule l).
        { split; intros (c & Ic & A & H); exists c; (split; [exact Ic|]); (assert (c <> 32) by (intros ->; vm_compute in Ic; intuition discriminate)).
          - split; [exact (Forall_inv_tail A)|]. cbn [count_occ] in H. destruct (Z.eq_dec 32 c); [congruence|exact H].
          - split; [constructor; auto|]. cbn [count_occ]. destruct (Z.eq_dec 32 c); [congruence|exact H]. }
        destruct (hr_loop l []); rewrite E; exact IH.
      * intros (c & Ic & A & _). pose proof (Forall_inv A) as [-> |Hx]; [|lia]. rewrite <- not_true_iff_false in M. apply M. apply existsb_exists. exists c. split; [exact Ic|apply Z.eqb_refl].
Qed.
Theorem check_hr_spec md pre l : line_in md pre l -> exists b e, check_hr md (blen pre) = (b, e) /\ (b = true <-> hrule l) /\ (b = true -> e = blen (pre ++ l)).
Proof.
  intros H. unfold check_hr. rewrite (zfind_line md pre l H). replace (Z.max (blen pre) (blen (pre ++ l))) with (blen (pre ++ l)) by (unfold blen; rewrite app_length; lia).
  rewrite (zfind_line md (pre ++ l) [] (line_shift _ _ _ H)), app_nil_r. destruct H as [N (rest & -> & R)]. rewrite slice_mid. pose proof (hr_loop_spec l) as S. destruct (hr_loop l []) as [t|].
  - do 2 eexists. split; [reflexivity|]. rewrite Nat.leb_le. split; [exact S|auto].
  - do 2 eexists. split; [reflexivity|]. split; [split; [discriminate|contradiction]|discriminate].
Qed.

(* ---------- tokenize ---------- *)
Definition pair_free (toks : list bytes) : Prop := forall a x y b, toks = a ++ x :: y :: b -> is_word x -> is_word y -> False.
Record tstate (p tok : bytes) (line : list bytes) : Prop := {
  ts_concat : concat line ++ tok = p;
  ts_kinds : Forall tok_kind line;
  ts_pairs : pair_free line;
  ts_tok : is_word tok;
  ts_sep : line <> [] -> ~ is_word (last line [])
}.
Lemma sign_dec c : {sign_char c} + {~ sign_char c}.
Proof. apply (in_dec Z.eq_dec). Qed.
Lemma tok_kind_ne t : tok_kind t -> t <> [].
Proof. intros [c _|n N|w W _]; [discriminate| |exact W]. destruct n; [lia|discriminate]. Qed.
Lemma last_app {A} (l m : list A) d : m <> [] -> last (l ++ m) d = last m d.
Proof. intro H. destruct (exists_last H) as (m' & x & ->). rewrite app_assoc, !last_last. reflexivity. Qed.
Lemma last_concat (line : list bytes) : Forall (fun t => t <> []) line -> line <> [] -> last (concat line) 0 = last (last line []) 0.
Proof.
  intros F N. destruct (exists_last N) as (l & x & ->). rewrite last_last, concat_app. cbn [concat]. rewrite app_nil_r. apply last_app. rewrite Forall_forall in F. apply F, in_or_app. right. now left.
Qed.
Lemma pair_snoc l x : pair_free l -> (l <> [] -> is_word (last l []) -> is_word x -> False) -> pair_free (l ++ [x]).
Proof.
  intros P H a u v b E U V. destruct (list_eq_dec (list_eq_dec Z.eq_dec) b []) as [->|N].
  - assert (Q : a ++ [u; v] = (a ++ [u]) ++ [v]) by (rewrite <- app_assoc; reflexivity). pose proof (eq_trans E Q) as R. apply app_inj_tail in R. destruct R as [-> ->]. apply (H ltac:(destruct a; discriminate)); [rewrite last_last; exact U|exact V].
  - destruct (exists_last N) as (b' & y & ->). assert (Q : a ++ u :: v :: b' ++ [y] = (a ++ u :: v :: b') ++ [y]) by (rewrite <- app_assoc; reflexivity). pose proof (eq_trans E Q) as R. apply app_inj_tail in R. destruct R as [-> _]. eapply P; eauto.
Qed.
Lemma sign_not_word c : sign_char c -> ~ is_word [c].
Proof. intros S W. exact (Forall_inv W S). Qed.
Lemma quotes_not_word n : (1 <= n)%nat -> ~ is_word (repeat 96 n).
Proof. intros H W. destruct n; [lia|]. apply (Forall_inv W). vm_compute. tauto. Qed.

(* one character of an ordinary line *)
Lemma char_step p c q tok line : ordinary (p ++ c :: q) -> ~ In 10 (p ++ c :: q) -> tstate p tok line ->
  exists tok' line', tok_char tok line false c = Ok (tok', line', false) /\ tstate (p ++ [c]) tok' line' /\ beqb (last line' []) [10] = false.
Proof.
  intros O N [TC TK TP TT TS].
  assert (C10 : c <> 10) by (intros ->; apply N, in_or_app; right; now left).
  assert (C60 : c <> 60) by (intros ->; apply (or_tag _ O), in_or_app; right; now left).
  assert (C45 : c <> 45) by (intros ->; apply (or_dash _ O), in_or_app; right; now left).
  assert (HD : forall k, k = 35 \/ k = 32 -> is_empty line && all_of k tok = false).
  { intros k K. destruct line as [|t0 l0]; [|reflexivity]. cbn in TC. subst tok. destruct p as [|x p]; [reflexivity|]. cbn [app] in O. destruct (or_head _ O x (p ++ c :: q) eq_refl) as (H1 & H2 & _). cbn. replace (k =? x) with false by lia. reflexivity. }
  assert (NE : Forall (fun t : bytes => t <> []) line) by (eapply Forall_impl; [|exact TK]; exact tok_kind_ne).
  assert (L10 : forall l, Forall tok_kind l -> Forall (fun t => ~ In 10 t) l -> beqb (last l []) [10] = false).
  { intros l K F. destruct (beqb (last l []) [10]) eqn:E; [|reflexivity]. apply beqb_eq in E. destruct l as [|a l] using rev_ind; [discriminate|]. rewrite last_last in E. subst a. exfalso. rewrite Forall_forall in F. apply (F [10]); [apply in_or_app; right; now left|now left]. }
  assert (P10 : ~ In 10 (p ++ [c])). { intro I. apply N. apply in_app_or in I. apply in_or_app. destruct I as [I|[I|[]]]; [auto|]. right. now left. }
  assert (DONE : forall tok' line', tstate (p ++ [c]) tok' line' -> beqb (last line' []) [10] = false).
  { intros tok' line' [H1 H2 _ _ _]. apply L10; [exact H2|]. apply Forall_forall. intros t It I. apply P10. rewrite <- H1. apply in_or_app. left. apply in_concat. eauto. }
  enough (G : exists tok' line', tok_char tok line false c = Ok (tok', line', false) /\ tstate (p ++ [c]) tok' line') by (destruct G as (t' & l' & G1 & G2); exists t', l'; split; [exact G1|]; split; [exact G2|]; eapply DONE; exact G2).
  unfold tok_char. replace (c =? 60) with false by lia. cbn [orb].
  rewrite <- !andb_assoc. rewrite (HD 35), (HD 32) by auto. rewrite !andb_false_r. replace (c =? 45) with false by lia. cbn [andb].
  destruct ((c =? 96) && (negb (is_empty line) && (is_empty tok && (beqb (last line []) [96] || beqb (last line []) [96; 96])))) eqn:Q.
  { rewrite !andb_true_iff, orb_true_iff in Q. destruct Q as (Q1 & Q2 & Q3 & Q4). apply Z.eqb_eq in Q1. subst c. destruct tok; [|discriminate]. assert (line <> []) by (destruct line; [discriminate|discriminate]).
    destruct (exists_last H) as (l & x & ->). rewrite last_last in Q4. unfold extend_last. rewrite removelast_last, last_last. do 2 eexists. split; [reflexivity|].
    assert (X : exists n, (1 <= n <= 2)%nat /\ x = repeat 96 n) by (destruct Q4 as [E|E]; apply beqb_eq in E; subst x; [exists 1%nat|exists 2%nat]; split; try lia; reflexivity).
    destruct X as (n & N1 & ->). rewrite <- (repeat_cons n 96). apply Forall_app in TK. constructor.
    - rewrite app_nil_r, !concat_app in *. cbn [concat] in *. rewrite app_nil_r in *. rewrite <- TC, <- app_assoc, <- repeat_cons. reflexivity.
    - apply Forall_app. split; [apply TK|]. constructor; [|constructor]. apply (Tk_quotes (S n)). lia.
    - apply pair_snoc; [|intros _ _ W; exact (quotes_not_word (S n) ltac:(lia) W)]. intros a u v b E U V. eapply (TP a u v (b ++ [repeat 96 n])); [rewrite E, <- app_assoc; reflexivity|exact U|exact V].
    - exact TT.
    - intros _. rewrite last_last. apply (quotes_not_word (S n)). lia. }
  destruct (inb c [42; 95] && (negb (is_empty line) && (inb (last (last line []) 0) [42; 95] && is_empty tok))) eqn:M.
  { exfalso. rewrite !andb_true_iff in M. destruct M as (M1 & M2 & M3 & M4). destruct tok; [|discriminate]. rewrite app_nil_r in TC. assert (line <> []) by (destruct line; discriminate). rewrite <- (last_concat line NE H), TC in M3.
    assert (P : p <> []). { intros ->. destruct line as [|t r]; [congruence|]. cbn in TC. apply app_eq_nil in TC. apply (Forall_inv NE), TC. }
    destruct (exists_last P) as (p' & x & ->). rewrite last_last in M3. rewrite <- app_assoc in O. cbn [app] in O.
    apply existsb_exists in M1, M3. destruct M1 as (y & I1 & E1), M3 as (z1 & I3 & E3). apply Z.eqb_eq in E1, E3. subst y z1. eapply (or_emph _ O p' x c q); [reflexivity|exact I3|exact I1]. }
  assert (IM : inb c marks = true <-> sign_char c).
  { unfold inb. rewrite existsb_exists. split.
    - intros (y & I & E). apply Z.eqb_eq in E. subst y. vm_compute in I. unfold sign_char. vm_compute. intuition congruence.
    - intro S. exists c. split; [|apply Z.eqb_refl]. vm_compute in S. vm_compute. intuition congruence. }
  destruct (inb c marks) eqn:S.
  - do 2 eexists. split; [reflexivity|]. assert (SC : sign_char c) by (apply IM; reflexivity). assert (K1 : tok_kind [c]) by (constructor; exact SC). destruct tok as [|t0 tok].
    + cbn [truthy_b app]. constructor.
      * rewrite app_nil_r, concat_app. cbn [concat]. rewrite app_nil_r in *. now rewrite TC.
      * apply Forall_app. auto.
      * apply pair_snoc; [exact TP|]. intros _ _ W. exact (sign_not_word c SC W).
      * constructor.
      * intros _. rewrite last_last. exact (sign_not_word c SC).
    + cbn [truthy_b app]. change ([t0 :: tok; [c]]) with ([t0 :: tok] ++ [[c]]). rewrite app_assoc. constructor.
      * rewrite app_nil_r, !concat_app. cbn [concat]. rewrite !app_nil_r. now rewrite TC.
      * apply Forall_app. split; [|auto]. apply Forall_app. split; [exact TK|]. constructor; [|constructor]. apply Tk_word; [discriminate|exact TT].
      * apply pair_snoc; [|intros _ _ W; exact (sign_not_word c SC W)]. apply pair_snoc; [exact TP|]. intros L W _. exact (TS L W).
      * constructor.
      * intros _. rewrite last_last. exact (sign_not_word c SC).
  - do 2 eexists. split; [reflexivity|]. assert (SC : ~ sign_char c) by (rewrite <- IM; discriminate). constructor.
    + rewrite app_assoc. now rewrite TC.
    + exact TK.
    + exact TP.
    + apply Forall_app. auto.
    + exact TS.
Qed.

(* one turn of the loop at a place where no link definition or rule begins *)
Definition quiet (md : bytes) (i : Z) : Prop := check_link_id md i = Ok None /\ fst (check_hr md i) = false.
Lemma turn f md pre c q tok line res ls tok' line' html' : md = pre ++ c :: q ->
  (pre = [] \/ last pre 0 = 10 -> quiet md (blen pre)) -> tok_char tok line false c = Ok (tok', line', html') ->
  tok_loop (S f) md (blen pre) tok line false res ls = let (res', line'') := tok_line res line' in tok_loop f md (blen (pre ++ [c])) tok' line'' html' res' ls.
Proof.
  intros E Q T. cbn [tok_loop]. assert (L : blen pre < blen md) by (subst md; unfold blen; rewrite app_length; cbn; lia). replace (blen pre <? blen md) with true by lia. cbn [negb].
  unfold char_at. replace (nth_error md (Z.to_nat (blen pre))) with (Some c) by (subst md; unfold blen; rewrite Nat2Z.id, nth_error_app2, Nat.sub_diag; [reflexivity|lia]). cbn [of_opt bind].
  set (bol := (blen pre =? 0) || _). replace (blen (pre ++ [c])) with (blen pre + 1) by (unfold blen; rewrite app_length; cbn; lia).
  assert (B1 : bol = true -> quiet md (blen pre)).
  { intro H. apply Q. unfold bol in H. apply orb_true_iff in H. destruct H as [H|H]; [left; unfold blen in H; destruct pre; [reflexivity|cbn in H; lia]|].
    destruct (list_eq_dec Z.eq_dec pre []) as [->|NE]; [auto|]. right. destruct (exists_last NE) as (p' & x & ->). rewrite last_last. replace (Z.to_nat (blen (p' ++ [x]) - 1)) with (length p') in H by (unfold blen; rewrite app_length; cbn; lia).
    rewrite E, <- app_assoc, nth_error_app2, Nat.sub_diag in H by lia. cbn in H. lia. }
  destruct bol.
  - destruct (B1 eq_refl) as [K R]. rewrite K. cbn [bind]. destruct (check_hr md (blen pre)) as [hr e]. cbn in R. subst hr. rewrite T. cbn [bind]. reflexivity.
  - cbn [bind]. rewrite T. cbn [bind]. reflexivity.
Qed.
Lemma quiet_line md pre l c q : line_in md pre l -> ~ hrule l -> md = pre ++ c :: q -> c <> 32 -> c <> 91 -> quiet md (blen pre).
Proof.
  intros LI NH E C1 C2. split.
  - unfold check_link_id, char_at. replace (nth_error md (Z.to_nat (blen pre))) with (Some c) by (subst md; unfold blen; rewrite Nat2Z.id, nth_error_app2, Nat.sub_diag; [reflexivity|lia]). cbn [of_opt bind].
    unfold inb. cbn [existsb]. replace (c =? 32) with false by lia. replace (c =? 91) with false by lia. reflexivity.
  - destruct (check_hr_spec md pre l LI) as (b & e & H & I & _). rewrite H. cbn. destruct b; [|reflexivity]. exfalso. apply NH, I. reflexivity.
Qed.
(* the characters of an ordinary line *)
Lemma chars_run pre l r (P : pre = [] \/ last pre 0 = 10) : ordinary l -> ~ In 10 l -> forall q p f tok line res ls, l = p ++ q -> tstate p tok line ->
  exists tok' line', tok_loop (length q + f) (pre ++ l ++ 10 :: r) (blen (pre ++ p)) tok line false res ls = tok_loop f (pre ++ l ++ 10 :: r) (blen (pre ++ l)) tok' line' false res ls /\ tstate l tok' line'.
Proof.
  intros O N. induction q as [|c q IH]; intros p f tok line res ls E TS.
  - rewrite app_nil_r in E. subst p. exists tok, line. auto.
  - destruct (char_step p c q tok line ltac:(rewrite <- E; exact O) ltac:(rewrite <- E; exact N) TS) as (t' & l' & T & TS' & B10). cbn [length Nat.add].
    rewrite (turn _ _ (pre ++ p) c (q ++ 10 :: r) tok line res ls t' l' false); [|rewrite E, <- !app_assoc; reflexivity| |exact T].
    + unfold tok_line. rewrite B10, andb_false_r. rewrite <- app_assoc. apply IH; [rewrite E, <- app_assoc; reflexivity|exact TS'].
    + intros H. destruct p as [|x p].
      * rewrite app_nil_r in *. cbn [app] in E. destruct (or_head _ O c q E) as (C1 & _ & C3). apply (quiet_line _ pre l c (q ++ 10 :: r)); [|apply O|rewrite E; reflexivity|exact C1|exact C3]. split; [exact N|]. exists (10 :: r). eauto.
      * exfalso. destruct H as [H|H]; [destruct pre; discriminate|]. rewrite last_app in H by discriminate. apply N. rewrite E. apply in_or_app. left. rewrite <- H. destruct (exists_last (l := x :: p) ltac:(discriminate)) as (m & y & ->). rewrite last_last. apply in_or_app. right. now left.
Qed.
Lemma line_run pre l r res ls f (P : pre = [] \/ last pre 0 = 10) : ordinary l -> ~ In 10 l ->
  exists toks, tok_loop (length l + 1 + f) (pre ++ l ++ 10 :: r) (blen pre) [] [] false res ls = tok_loop f (pre ++ l ++ 10 :: r) (blen (pre ++ l ++ [10])) [] [] false (res ++ [toks]) ls /\ tokens_of l toks.
Proof.
  intros O N. rewrite <- Nat.add_assoc. assert (T0 : tstate [] [] []).
  { constructor; [reflexivity|constructor| |constructor|congruence]. intros a x y b E. destruct a; discriminate. }
  destruct (chars_run pre l r P O N l [] (1 + f)%nat [] [] res ls eq_refl T0) as (t & ln & E & [TC TK TP TT TS]). rewrite app_nil_r in E. rewrite E. clear E. cbn [Nat.add].
  assert (NE : Forall (fun t : bytes => t <> []) ln) by (eapply Forall_impl; [|exact TK]; exact tok_kind_ne).
  set (ln' := ln ++ (if truthy_b t then [t] else [])). assert (T : tok_char t ln false 10 = Ok ([], ln' ++ [[10]], false)).
  { unfold tok_char. cbn [Z.eqb Pos.eqb orb negb andb]. assert (HD : forall k, k = 35 \/ k = 32 -> is_empty ln && all_of k t = false).
    { intros k K. destruct ln as [|a b]; [|reflexivity]. cbn in TC. subst t. destruct l as [|x m]; [reflexivity|]. destruct (or_head _ O x m eq_refl) as (H1 & H2 & _). cbn. replace (k =? x) with false by lia. reflexivity. }
    rewrite (HD 35), (HD 32) by auto. cbn. unfold ln'. rewrite <- app_assoc. reflexivity. }
  rewrite (turn _ _ (pre ++ l) 10 r t ln res ls [] (ln' ++ [[10]]) false); [|rewrite <- app_assoc; reflexivity| |exact T].
  - assert (C : concat ln' = l). { unfold ln'. rewrite concat_app, <- TC. f_equal. destruct t; [reflexivity|]. cbn [truthy_b concat]. apply app_nil_r. }
    assert (K : Forall tok_kind ln'). { unfold ln'. apply Forall_app. split; [exact TK|]. destruct t; [constructor|]. constructor; [|constructor]. apply Tk_word; [discriminate|exact TT]. }
    assert (PF : pair_free ln'). { unfold ln'. destruct t; cbn [truthy_b]; [now rewrite app_nil_r|]. apply pair_snoc; [exact TP|]. intros L W _. exact (TS L W). }
    assert (K' : Forall (fun t : bytes => t <> []) ln') by (eapply Forall_impl; [|exact K]; exact tok_kind_ne). clearbody ln'.
    assert (A : forall k, k = 61 \/ k = 45 -> negb (is_empty ln') && all_of k (last ln' []) = false).
    { intros k Hk. destruct (list_eq_dec (list_eq_dec Z.eq_dec) ln' []) as [X|X]; [rewrite X; reflexivity|]. rewrite andb_false_iff. right. destruct (all_of k (last ln' [])) eqn:AO; [|reflexivity]. exfalso.
      unfold all_of in AO. apply andb_true_iff in AO. destruct AO as [A1 A2]. pose proof (last_concat ln' K' X) as LC. rewrite C in LC. rewrite forallb_forall in A2.
      assert (KL : last l 0 = k). { rewrite LC. destruct (list_eq_dec Z.eq_dec (last ln' []) []) as [Y|Y]; [rewrite Y in A1; discriminate|]. destruct (exists_last Y) as (m & y & Y2). rewrite Y2 in *. rewrite last_last. specialize (A2 y ltac:(apply in_or_app; right; now left)). lia. }
      destruct Hk as [-> | ->]; [exact (or_last _ O KL)|]. destruct (list_eq_dec Z.eq_dec l []) as [Y|Y]; [rewrite Y in KL; cbn in KL; lia|]. destruct (exists_last Y) as (m & y & Y2). apply (or_dash _ O). rewrite Y2 in *. rewrite last_last in KL. subst y. apply in_or_app. right. now left. }
    exists (if is_empty ln' then [[]] else ln'). split.
    + unfold tok_line. rewrite last_last, removelast_last. replace (is_empty (ln' ++ [[10]])) with false by (destruct ln'; reflexivity). cbn [negb andb]. rewrite beqb_refl. rewrite (A 61), (A 45) by auto. rewrite <- app_assoc. reflexivity.
    + destruct ln' as [|a b]; cbn [is_empty]; [left; split; [symmetry; exact C|reflexivity]|]. right. split; [discriminate|]. split; [exact C|]. split; [exact K|exact PF].
  - intros H. destruct l as [|x l].
    + rewrite app_nil_r. apply (quiet_line _ pre [] 10 r); [|apply O|reflexivity|lia|lia]. split; [exact N|]. exists (10 :: r). eauto.
    + exfalso. destruct H as [H|H]; [destruct pre; discriminate|]. rewrite last_app in H by discriminate. apply N. rewrite <- H. destruct (exists_last (l := x :: l) ltac:(discriminate)) as (m & y & ->). rewrite last_last. apply in_or_app. right. now left.
Qed.
Lemma lines_run : forall lines pre res f (P : pre = [] \/ last pre 0 = 10), Forall (fun l => ordinary l /\ ~ In 10 l) lines ->
  exists toks, tok_loop (length (lines_text lines) + S f) (pre ++ lines_text lines) (blen pre) [] [] false res [] = Ok (res ++ toks ++ [[[]]], []) /\ Forall2 tokens_of lines toks.
Proof.
  induction lines as [|l lines IH]; intros pre res f P F.
  - exists []. cbn [lines_text flat_map length Nat.add]. rewrite app_nil_r. cbn [tok_loop]. rewrite Z.ltb_irrefl. cbn. split; [reflexivity|constructor].
  - destruct (Forall_inv F) as [O N]. unfold lines_text. cbn [flat_map]. fold (lines_text lines). rewrite app_length. cbn [length]. rewrite app_length. cbn [length].
    rewrite <- (app_assoc l [10]). cbn [app].
    destruct (line_run pre l (lines_text lines) res [] (length (lines_text lines) + S f) P O N) as (t & E & T). rewrite <- !Nat.add_assoc in *. rewrite E.
    replace (pre ++ l ++ 10 :: lines_text lines) with ((pre ++ l ++ [10]) ++ lines_text lines) by (rewrite <- !app_assoc; reflexivity).
    destruct (IH (pre ++ l ++ [10]) (res ++ [t]) f) as (ts & E2 & F2); [right; rewrite !app_assoc, last_last; reflexivity|exact (Forall_inv_tail F)|]. rewrite E2. exists (t :: ts). rewrite <- !app_assoc. split; [reflexivity|constructor; auto].
Qed.
Theorem tokenize_spec lines : Forall (fun l => ordinary l /\ ~ In 10 l) lines ->
  exists toks, tokenize (lines_text lines) = Ok ([[[]]; [[]]] ++ toks ++ [[[]]], []) /\ Forall2 tokens_of lines toks.
Proof. intro F. unfold tokenize. destruct (lines_run lines [] [[[]]; [[]]] 0 (or_introl eq_refl) F) as (t & E & T). rewrite Nat.add_1_r in E. cbn [app] in E |- *. exists t. auto. Qed.

(* ---------- tokenize ends ---------- *)
Lemma line_end_range md i : 0 <= i <= blen md -> i <= line_end md i <= blen md.
Proof.
  intros H. unfold line_end. destruct (zfind_spec [10] md i ltac:(lia)) as [[E _]|(k & E & K & S & _)]; rewrite E.
  - cbn. lia.
  - destruct S as (a & b & -> & L). unfold blen in *. rewrite !app_length in *. cbn [length] in *. destruct (Z.of_nat k =? -1) eqn:X; lia.
Qed.
Lemma word_loop_range : forall l i acc w j, word_loop l i acc = (w, j) -> i <= j <= i + blen l.
Proof.
  unfold blen. induction l as [|c l IH]; intros i acc w j E; cbn [word_loop length] in *; [injection E as _ <-; lia|].
  destruct (is_blank c); [destruct acc|]; [apply IH in E; lia|injection E as _ <-; lia|apply IH in E; lia].
Qed.
Lemma slice_len md a b : 0 <= a -> a <= b -> b <= blen md -> blen (slice md a b) = b - a.
Proof.
  intros A AB BM. unfold slice, bound, sub, blen in *. replace (a <? 0) with false by lia. replace (b <? 0) with false by lia. rewrite firstn_length, skipn_length. lia.
Qed.
Lemma slice_empty md a b : 0 <= b -> b <= a -> slice md a b = [].
Proof. intros A AB. unfold slice, bound, sub, blen in *. replace (a <? 0) with false by lia. replace (b <? 0) with false by lia. replace (_ - _)%nat with 0%nat by lia. reflexivity. Qed.
Lemma str_between_range md a b w j : 0 <= a <= blen md -> 0 <= b <= blen md -> str_between md a b = (w, j) -> a <= j <= blen md.
Proof.
  intros A BR E. apply word_loop_range in E. destruct (Z_le_gt_dec a b) as [L|L].
  - rewrite slice_len in E by lia. lia.
  - rewrite slice_empty in E by lia. unfold blen in *. cbn in E. lia.
Qed.
Lemma zfind_range md i : 0 <= i -> -1 <= zfind [10] md i < blen md.
Proof.
  intros H. destruct (zfind_spec [10] md i H) as [[E _]|(k & E & K & S & _)]; rewrite E.
  - unfold blen. lia.
  - destruct S as (a & b & -> & L). unfold blen. rewrite !app_length. cbn [length]. lia.
Qed.
Lemma second_end_range md i : 0 <= i -> 0 <= second_end md i <= blen md.
Proof. intro H. unfold second_end. pose proof (zfind_range md i H). pose proof (line_end_range md (zfind [10] md i + 1) ltac:(lia)). lia. Qed.
Lemma find_from_nil_range c : forall l i k, find_from [c] l i = Some k -> (i <= k < i + length l)%nat.
Proof.
  induction l as [|x l IH]; intros i k; cbn [find_from].
  - unfold starts. cbn. discriminate.
  - destruct (starts [c] (x :: l)); [intro E; injection E as <-; cbn [length]; lia|]. intro E. apply IH in E. cbn [length]. lia.
Qed.
Lemma zfind_in_range c md i j : 0 <= i -> zfind_in c md i j <> -1 -> i <= zfind_in c md i j < blen md.
Proof.
  intros I. unfold zfind_in. destruct (find_from [c] (slice md i j) 0) as [k|] eqn:F; [|congruence]. intros _. apply find_from_nil_range in F. unfold slice, sub in F. rewrite firstn_length, skipn_length in F. unfold bound in F at 1 2 3. replace (i <? 0) with false in F by lia. unfold blen in *. lia.
Qed.
Lemma char_at_range md i c : 0 <= i -> char_at md i = Ok c -> i < blen md.
Proof. unfold char_at. destruct (nth_error md (Z.to_nat i)) eqn:E; [|discriminate]. intros I _. assert (nth_error md (Z.to_nat i) <> None) by congruence. apply nth_error_Some in H. unfold blen. lia. Qed.
Lemma check_link_range md i id u t e : 0 <= i -> check_link_id md i = Ok (Some (id, u, t, e)) -> i < e <= blen md.
Proof.
  intros I. unfold check_link_id. destruct (char_at md i) as [c0| |] eqn:C0; cbn [bind]; try discriminate. destruct (negb (inb c0 [32; 91])); [discriminate|].
  destruct ((zfind_in 91 md i (i + 4) =? -1) || _) eqn:Q1; [discriminate|]. apply orb_false_iff in Q1. destruct Q1 as [Q1 _]. pose proof (zfind_in_range 91 md i (i + 4) I ltac:(lia)) as R1. set (a := zfind_in 91 md i (i + 4)) in *. clearbody a.
  destruct (zfind_in 93 md (a + 1) (line_end md (a + 1)) =? -1) eqn:Q2; [discriminate|]. pose proof (zfind_in_range 93 md (a + 1) (line_end md (a + 1)) ltac:(lia) ltac:(lia)) as R2. set (b := zfind_in 93 md (a + 1) (line_end md (a + 1))) in *. clearbody b.
  destruct (char_at md (b + 1)) as [c1| |] eqn:C1; cbn [bind]; try discriminate. destruct (negb (c1 =? 58)); [discriminate|].
  destruct (char_at md (b + 1 + 1)) as [c2| |] eqn:C2; cbn [bind]; try discriminate. destruct (negb (is_blank c2)); [discriminate|]. apply char_at_range in C2; [|lia].
  destruct (str_between md (b + 1 + 1) (second_end md (b + 1 + 1))) as [url i1] eqn:S1. apply str_between_range in S1; [|lia|apply second_end_range; lia].
  destruct (str_between md i1 (second_end md i1)) as [ti i2] eqn:S2. apply str_between_range in S2; [|lia|apply second_end_range; lia].
  pose proof (line_end_range md i2 ltac:(lia)) as R3. destruct ti as [|x ti]; [|destruct (unquoted [34; 40] [34; 41] (x :: ti)); [|discriminate]]; intro E; injection E as <- <- <- <-; lia.
Qed.
Lemma check_hr_range md i e : 0 <= i <= blen md -> check_hr md i = (true, e) -> i < e <= blen md.
Proof.
  intros I. unfold check_hr. pose proof (line_end_range md i I) as R. destruct (hr_loop (slice md i (line_end md i)) []) as [t|] eqn:H; [|discriminate]. intro E.
  assert (T : (3 <=? length t)%nat = true /\ line_end md (Z.max i (line_end md i)) = e) by (injection E as E1 E2; split; [exact E1|exact E2]). destruct T as [T <-]. apply Nat.leb_le in T.
  rewrite Z.max_r by lia. pose proof (line_end_range md (line_end md i) ltac:(lia)). enough (line_end md i <> i) by lia. intro X. rewrite X in H. rewrite slice_empty in H by lia. cbn in H. injection H as <-. cbn in T. lia.
Qed.
Lemma tok_char_ends tok line html c : tok_char tok line html c <> Loop.
Proof. unfold tok_char. repeat match goal with |- context [if ?b then _ else _] => destruct b; try discriminate end. Qed.
Lemma check_link_ends md i : check_link_id md i <> Loop.
Proof.
  unfold check_link_id, char_at. destruct (nth_error md (Z.to_nat i)); cbn [of_opt bind]; [|discriminate]. repeat match goal with |- context [if ?b then _ else _] => destruct b; try discriminate end.
  destruct (nth_error md _); cbn [of_opt bind]; [|discriminate]. destruct (negb _); [discriminate|]. destruct (nth_error md _); cbn [of_opt bind]; [|discriminate]. destruct (negb _); [discriminate|].
  destruct (str_between md _ _) as [u i1]. destruct (str_between md _ _) as [t i2]. destruct t; [discriminate|]. destruct (unquoted _ _ _); discriminate.
Qed.
Theorem tok_loop_ends md : forall f i tok line html res ls, 0 <= i <= blen md -> blen md - i < Z.of_nat f -> tok_loop f md i tok line html res ls <> Loop.
Proof.
  induction f as [|f IH]; intros i tok line html res ls I F; [lia|]. cbn [tok_loop]. destruct (negb (i <? blen md)) eqn:L; [discriminate|]. destruct (char_at md i) as [c| |] eqn:C; cbn [bind]; try discriminate; [|unfold char_at in C; destruct (nth_error md (Z.to_nat i)); discriminate].
  set (bol := (i =? 0) || _). clearbody bol. destruct (if bol then check_link_id md i else Ok None) as [k| |] eqn:K; cbn [bind]; try discriminate; [|destruct bol; [exfalso; exact (check_link_ends md i K)|discriminate]].
  assert (STEP : (let '(hr, e) := if bol then check_hr md i else (false, -1) in if hr then tok_loop f md e tok line html (res ++ [[T_hr]]) ls else let* (tok', line', html') := tok_char tok line html c in let (res', line'') := tok_line res line' in tok_loop f md (i + 1) tok' line'' html' res' ls) <> Loop).
  { destruct (if bol then check_hr md i else (false, -1)) as [hr e] eqn:H. destruct hr.
    - destruct bol; [|discriminate]. pose proof (check_hr_range md i e I H). apply IH; lia.
    - destruct (tok_char tok line html c) as [[[t' l'] h']| |] eqn:T; cbn [bind]; try discriminate; [|exfalso; exact (tok_char_ends _ _ _ _ T)]. destruct (tok_line res l') as [r' l'']. apply IH; lia. }
  destruct k as [[[[id u] t] e]|]; [|exact STEP]. destruct id as [|x id]; [exact STEP|]. destruct bol; [|discriminate]. pose proof (check_link_range md i _ _ _ _ ltac:(lia) K). apply IH; lia.
Qed.
Theorem tokenize_ends md : tokenize md <> Loop.
Proof. unfold tokenize. apply tok_loop_ends; unfold blen; lia. Qed.
