(* What is read in a file stays when something is appended: a criterion that can be computed. *)
From Coq Require Import String.
From Verif Require Import PyBase Model_Filters Model_Objects Model_Filestruct Model_Docstruct Model_Api.
From Verif Require Import Spec_Objects Spec_Filestruct Spec_Docstruct Spec_Api Spec_Save Spec_Packed Spec_Foreign.
From Verif Require Import Facts_Base Facts_Token Facts_Parse Facts_Obj Facts_Ser Facts_Doc Facts_Chain Facts_PackCheck Facts_Foreign.
From Coq Require Import ZifyBool ZifyNat.

Lemma sub_stays (a b : bytes) i j : (j <= length a)%nat -> sub (a ++ b) i j = sub a i j.
Proof.
  intro L. unfold sub. destruct (le_lt_dec i (length a)) as [LE|GT].
  - rewrite skipn_app, firstn_app, skipn_length. replace (j - i - (length a - i))%nat with 0%nat by lia. rewrite firstn_O. apply app_nil_r.
  - replace (j - i)%nat with 0%nat by lia. reflexivity.
Qed.

(* ---------- tokens ---------- *)
Lemma ntok_none_end rest : forall se n tia h cur i h' j, se <> STbd -> ntok se n tia h cur i rest = (h', j, None) -> j = (i + length rest)%nat.
Proof.
  induction rest as [rest IH] using list_len_ind. intros se n tia h cur i h' j NS E. destruct rest as [|c r]; [cbn in E; injection E as <- <-; cbn; lia|].
  assert (I1 : forall n tia, ntok se n tia h cur (S i) r = (h', j, None) -> j = (i + length (c :: r))%nat).
  { intros n0 tia0 Q. apply IH in Q; auto. cbn [length]. lia. }
  assert (I2 : forall y r2 n tia, r = y :: r2 -> ntok se n tia h cur (S (S i)) r2 = (h', j, None) -> j = (i + length (c :: r))%nat).
  { intros y r2 n0 tia0 -> Q. apply IH in Q; auto; cbn [length]; lia. }
  rewrite ntok_cons in E. cbv beta match zeta in E.
  destruct se; try congruence;
  repeat match type of E with
  | (if ?b then _ else _) = _ => destruct b eqn:?
  | match ?l with [] => _ | _ :: _ => _ end = _ => destruct l eqn:?
  end; try discriminate; eauto;
  repeat match goal with H : _ && false || _ && false = true |- _ => rewrite !andb_false_r in H; discriminate end.
Qed.
Lemma ntok_none_stable x rest : forall n h cur i h' j, (j < i + length rest)%nat -> ntok STbd n false h cur i rest = (h', j, None) -> ntok STbd n false h (cur ++ x) i (rest ++ x) = (h', j, None).
Proof.
  induction rest as [|c r IH]; intros n h cur i h' j L E; [cbn in *; injection E as <- <-; lia|]. cbn [app]. rewrite ntok_cons in *. cbv beta match zeta in *.
  destruct (c =? 93); [exact E|]. destruct ((c =? 62) && match r with d :: _ => d =? 62 | [] => false end) eqn:C2.
  { destruct r as [|d r]; [rewrite andb_false_r in C2; discriminate|]. cbn [app]. rewrite C2. exact E. }
  match type of E with ntok ?y _ _ _ _ _ _ = _ => set (s1 := y) in E end.
  assert (R0 : s1 = STbd).
  { assert (DS : s1 = STbd \/ s1 <> STbd) by (destruct s1; auto; right; discriminate). destruct DS as [|NE]; auto. exfalso. apply ntok_none_end in E; auto. cbn [length] in L. lia. }
  rewrite R0 in E. assert (R1 : r <> []). { intros ->. cbn in E. injection E as <- <-. cbn in L. lia. }
  destruct r as [|d r]; [congruence|]. cbn [app]. rewrite C2. unfold s1 in R0. clear s1.
  destruct ((c =? 60) && (d =? 60)); [discriminate|]. destruct (c =? 91); [discriminate|]. destruct (c =? 47); [discriminate|].
  destruct (starts W_stream (c :: d :: r)) eqn:S1; [discriminate|]. destruct (inb c VALUE_START); [discriminate|]. destruct (inb c ALPHA) eqn:AL; [discriminate|].
  assert (S2 : starts W_stream (c :: d :: r ++ x) = false).
  { destruct (starts W_stream (c :: d :: r ++ x)) eqn:S2; auto. exfalso. apply starts_iff in S2 as (b & S2). assert (c = 115) by (cbn in S2; congruence). subst c. discriminate. }
  rewrite S2. destruct (c =? 40); [discriminate|]. destruct (c =? 60); [discriminate|]. destruct (c =? 37); [discriminate|].
  change (c :: d :: r ++ x) with ((c :: d :: r) ++ x). change (d :: r ++ x) with ((d :: r) ++ x). apply IH; auto. cbn [length] in *. lia.
Qed.

Definition token_stays (t : bytes) (i : nat) : bool :=
  Nat.leb i (length t) && match next_token t i with (_, _, Some _) => true | (_, j, None) => Nat.ltb j (length t) end.
Lemma token_stays_ok t i x : token_stays t i = true -> next_token (t ++ x) i = next_token t i.
Proof.
  intro H. apply andb_true_iff in H as [L H]. apply Nat.leb_le in L. destruct (next_token t i) as [[h j] [k|]] eqn:E; [now apply next_token_stable|]. apply Nat.ltb_lt in H.
  unfold next_token in *. rewrite skipn_app. replace (i - length t)%nat with 0%nat by lia. cbn [skipn]. apply ntok_none_stable; auto. rewrite skipn_length. lia.
Qed.
Lemma token_end t i h j k : token_stays t i = true -> next_token t i = (h, j, k) -> (i <= h)%nat /\ (h <= j)%nat /\ (j <= length t)%nat.
Proof. intros H E. apply andb_true_iff in H as [L _]. apply Nat.leb_le in L. destruct (ntb _ _ _ _ _ E L) as (A & A1 & A2 & _). auto. Qed.

Section WithZlib.
Context {ZL : Zlib}.

(* ---------- objects ---------- *)
Fixpoint items_stay (t : bytes) (j1 : nat) (fuel i : nat) : bool :=
  match fuel with
  | O => false
  | S f => if Nat.ltb i (j1 - 1) then token_stays t i && (let '(_, i', _) := next_token t i in items_stay t j1 f i') else true
  end.
Lemma items_stay_ok p isd t j1 x : forall f i, items_stay t j1 f i = true -> items_loop p isd (t ++ x) j1 f i = items_loop p isd t j1 f i.
Proof.
  induction f as [|f IH]; intros i H; [discriminate|]. cbn [items_stay] in H. rewrite !items_S. destruct (Nat.ltb i (j1 - 1)); auto.
  apply andb_true_iff in H as [T H]. rewrite (token_stays_ok t i x T). destruct (next_token t i) as [[h i'] tk] eqn:E. destruct (token_end _ _ _ _ _ T E) as (_ & _ & L).
  rewrite (IH i' H). rewrite sub_stays by auto. reflexivity.
Qed.
Definition parse_stays (t : bytes) (i : nat) : bool :=
  token_stays t i &&
  let '(h1, j1, t1) := next_token t i in
  match t1 with
  | Some TDict => token_stays t j1 && items_stay t j1 (S (length t)) (i + 2)
  | Some TArray => items_stay t j1 (S (length t)) (i + 1)
  | _ => true
  end.
Lemma parse_stays_ok t i x : parse_stays t i = true -> parse_obj (t ++ x) i = parse_obj t i.
Proof.
  intro H. apply andb_true_iff in H as [T H]. unfold parse_obj. rewrite (pobj_fuel t i (S (length t)) (S (length (t ++ x)))) by (rewrite ?app_length; lia).
  assert (MO : forall j1 f k, items_stay t j1 f k = true -> items_stay t j1 (S f) k = true).
  { intros j1 f. induction f as [|f IH]; intros k Q; [discriminate|]. cbn [items_stay] in Q. change (items_stay t j1 (S (S f)) k) with (if Nat.ltb k (j1 - 1) then token_stays t k && (let '(_, i', _) := next_token t k in items_stay t j1 (S f) i') else true).
    destruct (Nat.ltb k (j1 - 1)); auto. apply andb_true_iff in Q as [Q1 Q2]. rewrite Q1. destruct (next_token t k) as [[h i'] tk]. cbn [andb]. auto. }
  assert (MX : forall j1 n f k, items_stay t j1 f k = true -> items_stay t j1 (n + f) k = true) by (intros j1; induction n; intros; cbn [plus]; auto).
  assert (FU : forall q isd j1 k, (j1 <= length t)%nat -> items_stay t j1 (S (length t)) k = true -> items_loop q isd (t ++ x) j1 (S (length (t ++ x))) k = items_loop q isd t j1 (S (length (t))) k).
  { intros q isd j1 k LJ IS. rewrite items_stay_ok.
    - apply (items_fuel q isd t j1 LJ (length t)); rewrite ?app_length; lia.
    - replace (S (length (t ++ x))) with (length x + S (length t))%nat by (rewrite app_length; lia). auto. }
  rewrite !pobj_S, (token_stays_ok t i x T). destruct (next_token t i) as [[h1 j1] t1] eqn:N1. destruct (token_end _ _ _ _ _ T N1) as (_ & _ & LJ).
  assert (FV : forall q isd k, items_loop q isd t j1 (S (length t)) k = items_loop q isd t j1 (S (length t)) k) by auto.
  rewrite !(sub_stays t x h1 j1) by auto. destruct t1 as [[]|]; auto.
  - apply andb_true_iff in H as [T2 IS]. rewrite (token_stays_ok t j1 x T2). destruct (next_token t j1) as [[h2 j2] t2] eqn:N2. destruct (token_end _ _ _ _ _ T2 N2) as (_ & _ & LJ2).
    rewrite !(sub_stays t x h2 j2) by auto. rewrite (FU _ _ _ _ LJ IS). reflexivity.
  - rewrite (FU _ _ _ _ LJ H). reflexivity.
Qed.

Definition object_stays (t : bytes) (p : nat) : bool :=
  token_stays t p && let '(_, j1, _) := next_token t p in
  token_stays t j1 && let '(_, j2, _) := next_token t j1 in
  token_stays t j2 && let '(_, j3, _) := next_token t j2 in
  token_stays t j3 && let '(i4, _, _) := next_token t j3 in parse_stays t i4.
Lemma object_stays_ok t p x : object_stays t p = true -> object_read (t ++ x) p = object_read t p.
Proof.
  unfold object_stays, object_read. intro H. apply andb_true_iff in H as [T H]. rewrite (token_stays_ok t p x T). destruct (next_token t p) as [[? j1] ?].
  apply andb_true_iff in H as [T1 H]. rewrite (token_stays_ok t j1 x T1). destruct (next_token t j1) as [[? j2] ?].
  apply andb_true_iff in H as [T2 H]. rewrite (token_stays_ok t j2 x T2). destruct (next_token t j2) as [[? j3] ?].
  apply andb_true_iff in H as [T3 H]. rewrite (token_stays_ok t j3 x T3). destruct (next_token t j3) as [[i4 ?] ?]. apply parse_stays_ok. auto.
Qed.

(* ---------- sections ---------- *)
Lemma nline_some x rest : forall s cur i e, nline (Some s) cur rest = Some (i, e) -> nline (Some s) cur (rest ++ x) = Some (i, e) /\ i = s /\ (cur <= e < cur + length rest)%nat.
Proof.
  induction rest as [|c r IH]; intros s cur i e E; [discriminate|]. cbn [nline app length] in *.
  destruct (inb c EOL); [injection E as <- <-; split; auto; split; [auto|lia]|]. destruct (IH _ _ _ _ E) as (A1 & A2 & A3). split; auto. split; [auto|lia].
Qed.
Lemma nline_none x rest : forall cur i e, nline None cur rest = Some (i, e) -> nline None cur (rest ++ x) = Some (i, e) /\ (cur <= i < e)%nat /\ (e < cur + length rest)%nat.
Proof.
  induction rest as [|c r IH]; intros cur i e E; [discriminate|]. cbn [nline app length] in *. destruct (inb c EOL).
  - destruct (IH _ _ _ E) as (A1 & A2 & A3). split; auto. split; lia.
  - destruct (nline_some x _ _ _ _ _ E) as (A1 & -> & A3). split; auto. split; lia.
Qed.
Lemma next_line_stays t x i b e : next_line t i = Some (b, e) -> next_line (t ++ x) i = Some (b, e) /\ (b < e < length t)%nat.
Proof.
  unfold next_line. intro E. destruct (Nat.le_gt_cases (length t) i) as [Q|Q]; [rewrite skipn_all2 in E by auto; discriminate|].
  destruct (nline_none x _ _ _ _ E) as (A1 & A2 & A3). rewrite skipn_length in A3. split; [|lia]. rewrite skipn_app. replace (i - length t)%nat with 0%nat by lia. exact A1.
Qed.
Lemma lines_stay t x : forall f f' o ln r, (f <= f')%nat -> (forall b e, ln = Some (b, e) -> (b < e < length t)%nat) -> xref_lines f t o ln = Ok r ->
  xref_lines f' (t ++ x) o ln = Ok r /\ (snd r < length t)%nat.
Proof.
  induction f as [|f IH]; intros f' o ln r LF HL E; [discriminate|]. destruct f' as [|f']; [lia|]. cbn [xref_lines] in *. destruct ln as [[b e]|]; [|discriminate].
  specialize (HL b e eq_refl). rewrite !(sub_stays t x) by lia.
  assert (NX : forall o' r', xref_lines f t o' (next_line t e) = Ok r' -> xref_lines f' (t ++ x) o' (next_line (t ++ x) e) = Ok r' /\ (snd r' < length t)%nat).
  { intros o' r' Q. destruct (next_line t e) as [[b' e']|] eqn:NL.
    - destruct (next_line_stays t x e b' e' NL) as [A1 A2]. rewrite A1. apply IH; auto; [lia|]. intros b0 e1 Q0. injection Q0 as <- <-. auto.
    - exfalso. clear -Q. destruct f; discriminate. }
  destruct (sub t b (S b)) as [|c [|c' l']]; [injection E as <-; cbn [snd]; split; [auto|lia]| |injection E as <-; cbn [snd]; split; [auto|lia]].
  destruct ((48 <=? c) && (c <=? 57)); [|injection E as <-; cbn [snd]; split; [auto|lia]].
  destruct (split_ws (strip [32] (sub t b e))) as [|a [|a1 [|a2 [|a3 l]]]]; try (apply NX; exact E).
  - destruct (of_opt EValueError (py_int 10 a)) as [n| |]; cbn [bind] in *; try discriminate. destruct (of_opt EValueError (py_int 10 a1)) as [nb| |]; cbn [bind] in *; try discriminate.
    destruct (xref_lines f t (Some n) (next_line t e)) as [[l0 e1]| |] eqn:Q; cbn [bind] in E; try discriminate. injection E as <-. destruct (NX _ _ Q) as [-> L]. cbn [bind snd] in *. auto.
  - destruct (of_opt EValueError (py_int 10 a)) as [n| |]; cbn [bind] in *; try discriminate. destruct (of_opt EValueError (py_int 10 a1)) as [nb| |]; cbn [bind] in *; try discriminate.
    destruct o as [m|]; [|discriminate]. destruct (xref_lines f t (Some (m + 1)) (next_line t e)) as [[l0 e1]| |] eqn:Q; cbn [bind] in E; try discriminate. injection E as <-. destruct (NX _ _ Q) as [-> L]. cbn [bind snd] in *. auto.
Qed.

Definition table_stays (t : bytes) (a : nat) : bool :=
  Nat.leb (a + 4) (length t) &&
  match xref_lines (S (length t)) t None (next_line t (a + 4)) with
  | Ok (_, el) => token_stays t el && let '(bl, _, _) := next_token t el in parse_stays t bl
  | _ => false
  end &&
  match find W_trailer t a with
  | Some tp => token_stays t tp && let '(_, j1, _) := next_token t tp in token_stays t j1
  | None => false
  end.
Definition stream_stays (t : bytes) (a : nat) : bool :=
  Nat.leb (a + 4) (length t) && token_stays t a && let '(i1, j1, _) := next_token t a in parse_stays t i1 && object_stays t a.
Definition section_stays (t : bytes) (a : nat) : bool :=
  if beqb (sub t a (a + 4)) W_xref then table_stays t a else stream_stays t a.
Lemma section_stays_ok t a x last sx r : section_stays t a = true -> (a < length t)%nat -> Z.of_nat a - 1 <= last -> Z.of_nat a - 1 <= sx ->
  read_section (PvSingle t) (Z.of_nat a) last sx = Ok r -> exists xi tr, r = (xi, tr, t) /\ read_section (PvSingle (t ++ x)) (Z.of_nat a) last sx = Ok (xi, tr, t ++ x).
Proof.
  intros H LA LL LS E. unfold read_section in *. destruct (single_at t a (last - Z.of_nat a) LA ltac:(lia)) as (n1 & R1). destruct (single_at (t ++ x) a (last - Z.of_nat a)) as (n1' & R1'); [rewrite app_length; lia|lia|].
  rewrite R1 in E. rewrite R1'. cbn [bind] in *. unfold section_stays in H.
  assert (S4 : sub (t ++ x) a (a + 4) = sub t a (a + 4)).
  { apply sub_stays. destruct (beqb _ _); [unfold table_stays in H; apply andb_true_iff in H as [H _]; apply andb_true_iff in H as [H _]|unfold stream_stays in H; apply andb_true_iff in H as [H _]; apply andb_true_iff in H as [H _]]; apply Nat.leb_le in H; auto. }
  rewrite S4. destruct (beqb (sub t a (a + 4)) W_xref) eqn:TB.
  - unfold table_stays in H. apply andb_true_iff in H as [H H3]. apply andb_true_iff in H as [H1 H2].
    destruct (find W_trailer t a) as [tp|] eqn:FT; [|discriminate]. apply andb_true_iff in H3 as [T1 T2].
    assert (FT' : find W_trailer (t ++ x) a = Some tp) by (apply find_grow; [discriminate|lia|auto]). rewrite FT'. cbn [znat] in *. replace (Z.of_nat tp <? 0) with false in * by lia. rewrite Nat2Z.id in *.
    assert (PT : parse_xref_table (t ++ x) a = parse_xref_table t a).
    { unfold parse_xref_table, parse_xref_table_raw. rewrite S4, TB. cbn [negb]. destruct (xref_lines (S (length t)) t None (next_line t (a + 4))) as [[l el]| |] eqn:XL; try discriminate.
      apply andb_true_iff in H2 as [T3 T4]. destruct (next_line t (a + 4)) as [[b e]|] eqn:NL; [|discriminate XL]. destruct (next_line_stays t x _ _ _ NL) as [-> A2].
      destruct (lines_stay t x (S (length t)) (S (length (t ++ x))) None (Some (b, e)) (l, el)) as [-> _]; [rewrite app_length; lia|intros b0 e1 Q0; injection Q0 as <- <-; auto|auto|].
      cbn [bind]. rewrite (token_stays_ok t el x T3). destruct (next_token t el) as [[bl bf] ?]. rewrite (parse_stays_ok t bl x T4). destruct (parse_obj t bl); cbn [bind]; auto. rewrite FT, FT'. reflexivity. }
    rewrite PT. destruct (parse_xref_table t a) as [xi| |]; cbn [bind] in *; try discriminate. rewrite (token_stays_ok t tp x T1). destruct (next_token t tp) as [[? j1] ?]. rewrite (token_stays_ok t j1 x T2).
    destruct (next_token t j1) as [[i2 j2] ?] eqn:N2. destruct (token_end _ _ _ _ _ T2 N2) as (_ & _ & L2). rewrite sub_stays by auto. destruct (parse_obj (sub t i2 j2) 0) as [tr| |]; cbn [bind] in *; try discriminate.
    destruct tr; try discriminate. injection E as <-. eexists _, _. split; reflexivity.
  - unfold stream_stays in H. apply andb_true_iff in H as [H1 H2]. apply andb_true_iff in H1 as [_ T1].
    destruct (single_at t a (sx - Z.of_nat a) LA ltac:(lia)) as (n2 & R2). destruct (single_at (t ++ x) a (sx - Z.of_nat a)) as (n2' & R2'); [rewrite app_length; lia|lia|].
    rewrite R2 in E. rewrite R2'. cbn [bind] in *. unfold object_stays in H2. rewrite (token_stays_ok t a x T1). destruct (next_token t a) as [[i1 j1] ?].
    apply andb_true_iff in H2 as [P1 H2]. apply andb_true_iff in H2 as [_ H2]. rewrite (parse_stays_ok t i1 x P1). destruct (parse_obj t i1) as [num| |]; cbn [bind] in *; try discriminate.
    apply andb_true_iff in H2 as [T2 H2]. rewrite (token_stays_ok t j1 x T2). destruct (next_token t j1) as [[? j2] ?].
    apply andb_true_iff in H2 as [T3 H2]. rewrite (token_stays_ok t j2 x T3). destruct (next_token t j2) as [[? j3] ?].
    apply andb_true_iff in H2 as [T4 H2]. rewrite (token_stays_ok t j3 x T4). destruct (next_token t j3) as [[i4 ?] ?]. rewrite (parse_stays_ok t i4 x H2).
    destruct (parse_obj t i4) as [v| |]; cbn [bind] in *; try discriminate. destruct num; try discriminate. destruct v; try discriminate.
    destruct (parse_xref_stream _ _ _ _) as [xi| |]; cbn [bind] in *; try discriminate. injection E as <-. eexists _, _. split; reflexivity.
Qed.

(* the sections from position prev, with no /XRefStm *)
Fixpoint chain_stays (fuel : nat) (t : bytes) (prev : Z) : option (list (list ient)) :=
  if prev =? 0 then Some []
  else match fuel with
  | O => None
  | S f =>
      if (prev <? 0) || negb (section_stays t (Z.to_nat prev)) || negb (prev <? Z.of_nat (length t)) then None
      else match find W_startxref t (Z.to_nat prev), find W_EOF t (Z.to_nat prev) with
      | Some sx, Some ep =>
          match read_section (PvSingle t) prev (Z.of_nat ep) (Z.of_nat sx) with
          | Ok (xi, tr, _) =>
              if dhas K_XRefStm tr then None
              else match int_entry K_Prev tr with
                   | Ok q => match chain_stays f t q with
                             | Some rest => Some (close_section xi false (Z.of_nat sx) (Z.of_nat ep) :: rest)
                             | None => None
                             end
                   | _ => None
                   end
          | _ => None
          end
      | _, _ => None
      end
  end.
Lemma chain_stays_ok t x : forall f prev cs, chain_stays f t prev = Some cs -> xref_chain f (PvSingle (t ++ x)) (t ++ x) prev 0 = Ok cs.
Proof.
  induction f as [|f IH]; intros prev cs E.
  - cbn [chain_stays xref_chain] in *. destruct (prev =? 0); [injection E as <-; reflexivity|discriminate].
  - cbn [chain_stays] in E. change (xref_chain (S f) (PvSingle (t ++ x)) (t ++ x) prev 0) with
      (if (prev =? 0) && (0 =? 0) then Ok [] else
       if prev <? 0 then Exc EUnsupported
       else let sx := znat (find W_startxref (t ++ x) (Z.to_nat prev)) in
       let ep := znat (find W_EOF (t ++ x) (Z.to_nat prev)) in
       let* (xi, tr, t') := read_section (PvSingle (t ++ x)) prev ep sx in
       let* (hasstm, stm2, prev2) := (if 0 =? 0 then let* s0 := int_entry K_XRefStm tr in let* q := int_entry K_Prev tr in Ok (dhas K_XRefStm tr, s0, q) else Ok (false, 0, 0)) in
       let* rest := xref_chain f (PvSingle (t ++ x)) t' prev2 stm2 in
       Ok (close_section xi hasstm sx ep :: rest)).
    destruct (prev =? 0) eqn:Z0; [injection E as <-; reflexivity|]. cbn [andb]. destruct (prev <? 0) eqn:N0; [discriminate|]. cbn [orb] in E.
    destruct (section_stays t (Z.to_nat prev)) eqn:SS; [|discriminate]. cbn [orb negb] in E. destruct (prev <? Z.of_nat (length t)) eqn:PL; [|discriminate]. cbn [negb] in E.
    destruct (find W_startxref t (Z.to_nat prev)) as [sx|] eqn:F1; [|discriminate]. destruct (find W_EOF t (Z.to_nat prev)) as [ep|] eqn:F2; [|discriminate].
    rewrite (find_grow W_startxref t x _ sx), (find_grow W_EOF t x _ ep) by (first [exact F1|exact F2|discriminate|lia]). cbn [znat].
    destruct (read_section (PvSingle t) prev (Z.of_nat ep) (Z.of_nat sx)) as [r| |] eqn:RS; try discriminate.
    assert (G1 : (Z.to_nat prev <= sx)%nat) by (unfold find in F1; destruct (Nat.ltb _ _); [discriminate|]; apply find_from_ge in F1; lia).
    assert (G2 : (Z.to_nat prev <= ep)%nat) by (unfold find in F2; destruct (Nat.ltb _ _); [discriminate|]; apply find_from_ge in F2; lia).
    destruct (section_stays_ok t (Z.to_nat prev) x (Z.of_nat ep) (Z.of_nat sx) r SS ltac:(lia) ltac:(lia) ltac:(lia)) as (xi & tr & -> & RS'); [rewrite Z2Nat.id by lia; auto|]. rewrite Z2Nat.id in RS' by lia. rewrite RS'. cbn [bind].
    destruct (dhas K_XRefStm tr) eqn:DX; [discriminate|]. assert (int_entry K_XRefStm tr = Ok 0) as -> by (unfold int_entry; unfold dhas in DX; destruct (dget K_XRefStm tr); [discriminate|reflexivity]). cbn [bind].
    destruct (int_entry K_Prev tr) as [q| |]; try discriminate. cbn [bind]. destruct (chain_stays f t q) as [rest|] eqn:CS; [|discriminate]. change (0 =? 0) with true. cbn iota. cbn [bind]. rewrite (IH q rest CS). cbn [bind]. injection E as <-. reflexivity.
Qed.

(* ---------- the whole file ---------- *)
Fixpoint increasingb (prev : Z) (secs : list (list ient)) : bool :=
  match secs with
  | [] => true
  | (t :: _) :: r => match n_pos t with Some (AInt p) => negb (n_stm t) && (prev <? p) && increasingb p r | _ => false end
  | _ => false
  end.
Lemma increasingb_ok : forall secs prev, increasingb prev secs = true -> increasing prev secs.
Proof.
  induction secs as [|[|t es] r IH]; intros prev H; cbn in *; auto; [discriminate|]. destruct (n_pos t) as [[p| |]|] eqn:P; try discriminate. apply andb_true_iff in H as [H H3]. apply andb_true_iff in H as [H1 H2].
  exists t, es, p. split; auto. split; auto. split; [destruct (n_stm t); [discriminate|auto]|]. split; [lia|auto].
Qed.
Definition noneb {A} (o : option A) : bool := match o with None => true | _ => false end.
Lemma noneb_ok {A} (o : option A) : noneb o = true -> o = None.
Proof. destruct o; [discriminate|auto]. Qed.
Definition entryb (F : bytes) (e : ient) : bool :=
  noneb (n_next e) && negb (n_del e) &&
  match n_env e, n_pos e with
  | None, Some (AInt p) => (0 <=? p) && (p <? blen F)
  | Some v, Some (ATup v' _) => v =? v'
  | _, _ => false
  end.
Lemma entryb_ok F e : entryb F e = true -> n_next e = None /\ n_del e = false /\
    ((exists p, direct_at e p /\ 0 <= p < blen F) \/ exists env off, n_env e = Some env /\ n_pos e = Some (ATup env off)).
Proof.
  unfold entryb, direct_at. intro H. apply andb_true_iff in H as [H H3]. apply andb_true_iff in H as [H1 H2]. split; [now apply noneb_ok|]. split; [destruct (n_del e); [discriminate|auto]|].
  destruct (n_env e) as [v|], (n_pos e) as [[p|p|v' off]|]; try discriminate; [right; exists v, off; split; auto; repeat f_equal; lia|left; exists p; split; auto; lia].
Qed.
Definition headb (s : list ient) : bool := match s with t :: _ => (n_num t =? 0) && noneb (n_env t) | [] => false end.
Definition top_num (cs : list (list ient)) : Z := fold_right Z.max 0 (flat_map (fun s => flat_map (fun e => if noneb (n_env e) then [n_num e] else []) (tl s)) cs).
Definition numberb (m : Z) (e : ient) : bool := ((n_num e =? -1) && noneb (n_env e)) || ((1 <=? n_num e) && (n_num e <=? m)).
Lemma max_in l : 0 < fold_right Z.max 0 l -> In (fold_right Z.max 0 l) l.
Proof. induction l as [|a l IH]; cbn; [lia|]. intro H. destruct (Z.max_spec a (fold_right Z.max 0 l)) as [[A ->]|[A ->]]; [right; apply IH; lia|left; auto]. Qed.
(* the objects of streams, among the entries of the sections up to theirs *)
Fixpoint insideb (seen : list ient) (secs : list (list ient)) : bool :=
  match secs with
  | [] => true
  | s :: r =>
      let seen' := seen ++ tl s in
      forallb (fun e => match n_env e with
                        | None => true
                        | Some v => (0 <? v) && existsb (fun e' => n_num e' =? v) seen' && forallb (fun e' => negb (n_num e' =? v) || noneb (n_env e')) seen'
                        end) (tl s) && insideb seen' r
  end.
Lemma insideb_ok : forall secs seen, insideb seen secs = true -> forall j s e env, nth_error secs j = Some s -> In e (tl s) -> n_env e = Some env ->
  0 < env /\ (exists e', (In e' seen \/ exists i s', (i <= j)%nat /\ nth_error secs i = Some s' /\ In e' (tl s')) /\ n_num e' = env) /\
  forall e', (In e' seen \/ exists i s', (i <= j)%nat /\ nth_error secs i = Some s' /\ In e' (tl s')) -> n_num e' = env -> n_env e' = None.
Proof.
  induction secs as [|s0 r IH]; intros seen H j s e env J I EV; [destruct j; discriminate|]. cbn [insideb] in H. apply andb_true_iff in H as [H1 H2]. destruct j as [|j]; cbn [nth_error] in J.
  - injection J as <-. rewrite forallb_forall in H1. specialize (H1 e I). rewrite EV in H1. apply andb_true_iff in H1 as [H1 H3]. apply andb_true_iff in H1 as [H0 H1]. split; [lia|].
    assert (EQ : forall e', In e' (seen ++ tl s0) <-> (In e' seen \/ exists i s', (i <= 0)%nat /\ nth_error (s0 :: r) i = Some s' /\ In e' (tl s'))).
    { intro e'. rewrite in_app_iff. split; intros [Q|Q]; auto; [right; exists 0%nat, s0; auto|]. destruct Q as (i & s' & Li & Ni & Q). assert (i = 0%nat) by lia. subst i. injection Ni as <-. auto. }
    split.
    + apply existsb_exists in H1 as (e' & I' & Q). exists e'. split; [apply EQ; auto|lia].
    + intros e' I' N'. apply EQ in I'. rewrite forallb_forall in H3. specialize (H3 e' I'). apply orb_true_iff in H3 as [H3|H3]; [|now apply noneb_ok]. exfalso. rewrite N', Z.eqb_refl in H3. discriminate.
  - destruct (IH _ H2 j s e env J I EV) as (A1 & (e' & A2 & A3) & A4).
    assert (EQ : forall e', (In e' (seen ++ tl s0) \/ exists i s', (i <= j)%nat /\ nth_error r i = Some s' /\ In e' (tl s')) <-> (In e' seen \/ exists i s', (i <= S j)%nat /\ nth_error (s0 :: r) i = Some s' /\ In e' (tl s'))).
    { intro x. rewrite in_app_iff. split.
      - intros [[Q|Q]|(i & s' & Q1 & Q2 & Q3)]; auto; [right; exists 0%nat, s0; split; [lia|auto]|right; exists (S i), s'; split; [lia|auto]].
      - intros [Q|([|i] & s' & Q1 & Q2 & Q3)]; auto; [injection Q2 as <-; auto|right; exists i, s'; split; [lia|auto]]. }
    split; auto. split; [exists e'; split; auto; apply EQ; auto|]. intros x Q. apply A4, EQ. auto.
Qed.
Definition sectionedb (F : bytes) (cs : list (list ient)) : bool :=
  increasingb 0 (rev cs) && forallb (forallb (entryb F)) cs && forallb headb cs && forallb (fun s => forallb (numberb (top_num cs)) (tl s)) cs &&
  forallb (fun s => existsb (fun e => n_num e =? -1) (tl s)) cs && insideb [] (rev cs).
Lemma sectionedb_ok F cs : sectionedb F cs = true -> sectioned F cs.
Proof.
  unfold sectionedb. intro H. repeat (apply andb_true_iff in H as [H ?]). rewrite !forallb_forall in *.
  match goal with H : insideb _ _ = true |- _ => pose proof (insideb_ok _ _ H) as IN end.
  constructor.
  - apply increasingb_ok. auto.
  - intros s e I E. apply entryb_ok. match goal with H : forall x, In x cs -> forallb (entryb F) x = true |- _ => specialize (H s I); rewrite forallb_forall in H; auto end.
  - intros s I. match goal with H : forall x, In x cs -> headb x = true |- _ => specialize (H s I); rename H into Q end. destruct s as [|t es]; [discriminate|]. cbn in Q. apply andb_true_iff in Q as [Q1 Q2]. exists t, es. split; auto. split; [lia|now apply noneb_ok].
  - intros s e I E. match goal with H : forall x, In x cs -> forallb (numberb _) _ = true |- _ => specialize (H s I); rewrite forallb_forall in H; specialize (H e E); rename H into Q end.
    apply orb_true_iff in Q as [Q|Q]; apply andb_true_iff in Q as [Q1 Q2]; [left; split; [lia|now apply noneb_ok]|right; split; [lia|]].
    assert (M : 0 < top_num cs) by lia. unfold top_num in M, Q2. apply max_in in M. set (m := fold_right _ _ _) in *. apply in_flat_map in M as (s' & I' & M). apply in_flat_map in M as (e' & E' & M). destruct (noneb (n_env e')) eqn:NV; [|destruct M]. destruct M as [M|[]].
    exists s', e'. split; auto. split; auto. split; [now apply noneb_ok|lia].
  - intros s I. match goal with H : forall x, In x cs -> existsb _ _ = true |- _ => specialize (H s I); apply existsb_exists in H as (e & E & Q) end. exists e. split; [auto|lia].
  - intros j s e env J I EV. destruct (IN j s e env J I EV) as (A1 & (e' & [[]|(i & s' & B1 & B2 & B3)] & A3) & _). split; auto. exists i, s', e'. auto.
  - intros j s e env i s' e' J I EV L I' E' N'. destruct (IN j s e env J I EV) as (_ & _ & A). apply A; auto. right. exists i, s'. auto.
Qed.

Fixpoint same_list (l l' : list ient) : bool :=
  match l, l' with [], [] => true | e :: r, e' :: r' => ient_eqb e e' && same_list r r' | _, _ => false end.
Lemma same_list_ok : forall l l', same_list l l' = true -> l = l'.
Proof. induction l as [|e l IH]; intros [|e' l'] H; cbn in H; try discriminate; auto. apply andb_true_iff in H as [H1 H2]. apply ient_eqb_eq in H1. f_equal; auto. Qed.
Fixpoint alike_all (cs cs' : list (list ient)) : bool :=
  match cs, cs' with
  | [], [] => true
  | (h :: es) :: r, (h' :: es') :: r' => oz_eq (n_xsn h) (n_xsn h') && same_list (filter (fun e => 0 <? n_num e) es) (filter (fun e => 0 <? n_num e) es') && alike_all r r'
  | _, _ => false
  end.
Lemma alike_all_ok : forall cs cs', alike_all cs cs' = true -> Forall2 alike cs cs'.
Proof.
  induction cs as [|[|h es] r IH]; intros [|[|h' es'] r'] H; cbn in H; try discriminate; constructor.
  - apply andb_true_iff in H as [H _]. apply andb_true_iff in H as [H1 H2]. split; [apply same_list_ok; auto|]. exists h, es, h', es'. split; auto. split; auto.
    unfold oz_eq, oz_eqb in H1. destruct (n_xsn h), (n_xsn h'); try discriminate; auto. f_equal. lia.
  - apply IH. apply andb_true_iff in H. apply H.
Qed.
Definition endb (F : bytes) (c : list ient) : bool :=
  match filter (fun e => n_num e =? -1) (tl c) with
  | [e] => match n_pos e with
           | Some (AInt p) => (0 <=? p) && beqb (sub F (Z.to_nat p) (Z.to_nat p + 5)) (B "%%EOF") && forallb (fun z => inb z EOL) (skipn (Z.to_nat p + 5) F) && (p + 5 <=? blen F)
           | _ => false
           end
  | _ => false
  end.
Definition newsb (h : ient) (es : list ient) (older : list (list ient)) : bool :=
  existsb (fun e => (0 <? n_num e) && negb (oz_eq (n_xsn h) (Some (n_num e))) &&
    forallb (fun s => forallb (fun e' => negb (n_num e' =? n_num e) || match n_pos e', n_pos e with Some a, Some b => negb (apos_eqb a b) | None, None => false | _, _ => true end) (tl s)) older) es.
(* a file that is read as a list of sections, now and when something is appended *)
Definition durable (f : nat) (F : bytes) : bool :=
  match xref_chrono f (PvSingle F) with
  | Ok ((h :: es) :: older) =>
      let cs := (h :: es) :: older in
      match section_pos (h :: es), n_pos h with
      | Some x, Some (AInt p) =>
          match chain_stays (S f) F x, trailer_read F (Z.to_nat p) with
          | Some cs', Ok t =>
              sectionedb F cs && (0 <? x) && (wfb (PDict t) && noneb (dget K_XRefStm t)) && endb F (h :: es) && newsb h es older &&
              (alike_all cs cs' && sectionedb F cs') &&
              forallb (fun s => forallb (fun e => negb (0 <? n_num e) || match n_env e, n_pos e with None, Some (AInt p) => object_stays F (Z.to_nat p) | _, _ => true end) (tl s)) cs
          | _, _ => false
          end
      | _, _ => false
      end
  | _ => false
  end.
Lemma durable_ok f F : durable f F = true -> exists cs cs' x t, xref_chrono f (PvSingle F) = Ok cs /\ lasting f F cs cs' x t.
Proof.
  unfold durable. destruct (xref_chrono f (PvSingle F)) as [[|[|h es] older]| |] eqn:CH; try discriminate. destruct (section_pos (h :: es)) as [x|] eqn:SP; [|discriminate].
  destruct (n_pos h) as [[p| |]|] eqn:NP; try discriminate. destruct (chain_stays (S f) F x) as [cs'|] eqn:CS; [|discriminate]. destruct (trailer_read F (Z.to_nat p)) as [t| |] eqn:TR; try discriminate.
  intro H. apply andb_true_iff in H as [H H7]. apply andb_true_iff in H as [H H6]. apply andb_true_iff in H as [H H5]. apply andb_true_iff in H as [H H4]. apply andb_true_iff in H as [H H3]. apply andb_true_iff in H as [H1 H2].
  apply andb_true_iff in H6 as [H6 H6']. apply andb_true_iff in H3 as [H3 H3']. set (cs := (h :: es) :: older) in *. exists cs, cs', x, t. split; auto. constructor.
  - constructor; auto.
    + apply sectionedb_ok. auto.
    + split; [lia|]. exists h, es, older, p. auto.
    + split; [apply wfb_ok; auto|now apply noneb_ok].
    + unfold endb in H4. destruct (filter (fun e => n_num e =? -1) (tl (h :: es))) as [|e [|? ?]] eqn:FE; try discriminate. destruct (n_pos e) as [[q| |]|] eqn:PE; try discriminate.
      apply andb_true_iff in H4 as [H4 H8]. apply andb_true_iff in H4 as [H4 H9]. apply andb_true_iff in H4 as [H10 H4]. apply beqb_eq in H4.
      assert (LQ : blen (firstn (Z.to_nat q) F) = q) by (unfold blen in *; rewrite firstn_length; lia).
      exists (firstn (Z.to_nat q) F), (skipn (Z.to_nat q + 5) F), (h :: es), older. split.
      * rewrite <- H4. unfold sub. replace (Z.to_nat q + 5 - Z.to_nat q)%nat with 5%nat by lia. rewrite <- (firstn_skipn (Z.to_nat q) F) at 1. f_equal. rewrite <- (firstn_skipn 5 (skipn (Z.to_nat q) F)) at 1. f_equal. rewrite skipn_skipn. f_equal. lia.
      * split; [apply Forall_forall; intros z I; rewrite forallb_forall in H9; specialize (H9 z I); unfold inb, EOL in H9; cbn in H9; unfold eol; lia|]. split; auto. intros e' I N. assert (J : In e' (filter (fun e => n_num e =? -1) (tl (h :: es)))) by (apply filter_In; split; [auto|lia]).
        rewrite FE in J. destruct J as [<-|[]]. rewrite LQ. auto.
    + unfold newsb in H5. apply existsb_exists in H5 as (e & I & Q). apply andb_true_iff in Q as [Q Q3]. apply andb_true_iff in Q as [Q1 Q2]. exists h, es, older, e. split; auto. split; auto. split; [lia|]. split.
      * intro X. rewrite X in Q2. cbn in Q2. rewrite Z.eqb_refl in Q2. discriminate.
      * intros s e' IS IE N E. rewrite forallb_forall in Q3. specialize (Q3 s IS). rewrite forallb_forall in Q3. specialize (Q3 e' IE). rewrite E, N, Z.eqb_refl in Q3. cbn [negb orb] in Q3.
        destruct (n_pos e) as [a|]; [|discriminate]. assert (R : apos_eqb a a = true) by (destruct a; cbn; lia). rewrite R in Q3. discriminate.
  - split; [apply alike_all_ok; auto|apply sectionedb_ok; auto].
  - intro X. apply chain_stays_ok. auto.
  - intros s e q X IS IE N [D1 D2]. rewrite forallb_forall in H7. specialize (H7 s IS). rewrite forallb_forall in H7. specialize (H7 e IE). rewrite D1, D2 in H7. apply orb_true_iff in H7 as [H7|H7]; [lia|]. apply object_stays_ok. auto.
Qed.

(* a document with no object in a stream *)
Lemma coherent_direct d : (forall row n e, open_row d row -> cell row n (SDict e) -> n_env e = None) -> coherent d.
Proof. intros H row p O P n e c C D EV. rewrite (H row n e O C) in EV. discriminate. Qed.
Definition directb (d : doc) : bool :=
  match rev (d_index d) with row :: _ => forallb (fun s => match s with SDict e => noneb (n_env e) | _ => true end) row | [] => true end.
Lemma direct_coherent d : directb d = true -> coherent d.
Proof.
  unfold directb. intro H. apply coherent_direct. intros row n e [l O] [_ C]. rewrite O, rev_app_distr in H. cbn [rev app] in H. rewrite forallb_forall in H. apply noneb_ok. exact (H (SDict e) (nth_error_In _ _ C)).
Qed.
(* the number of the first xref stream can be used again *)
Definition one_filterb (t : dict) : bool :=
  match dget K_DecodeParms t with Some v => obj_truthy v | None => true end &&
  match dget K_Filter t with
  | None => true
  | Some (PStr n) | Some (PList [PStr n]) => existsb (beqb n) [B "/FlateDecode"; B "/ASCIIHexDecode"; B "/ASCII85Decode"]
  | _ => false
  end.
Lemma one_filterb_ok t : one_filterb t = true -> one_filter t.
Proof.
  intro H. apply andb_true_iff in H as [H1 H2]. split; [destruct (dget K_DecodeParms t); eauto|].
  assert (EX : forall n, existsb (beqb n) [B "/FlateDecode"; B "/ASCIIHexDecode"; B "/ASCII85Decode"] = true -> In n [B "/FlateDecode"; B "/ASCIIHexDecode"; B "/ASCII85Decode"]).
  { intros n Q. apply existsb_exists in Q as (y & I & Q). apply beqb_eq in Q. subst y. exact I. }
  destruct (dget K_Filter t) as [[| | | |n| | |[|[| | | |n| | | | |] [|]]| |]|]; try discriminate; auto; right; exists n; auto.
Qed.
Definition reusableb (F : bytes) (cs : list (list ient)) (t : dict) : bool :=
  match oldest_xsn cs with
  | None => true
  | Some k => (0 <? k) && (100 <=? blen F) && one_filterb t && existsb (fun s => existsb (fun e => n_num e =? k) (tl s)) cs &&
      forallb (fun s => forallb (fun e => match n_env e with Some c => negb (c =? k) && negb (n_num e =? k) | None => true end) (tl s)) cs
  end.
Lemma reusableb_ok F cs t : reusableb F cs t = true -> reusable F cs t.
Proof.
  unfold reusableb. intros H k E. rewrite E in H. apply andb_true_iff in H as [H H5]. apply andb_true_iff in H as [H H4]. apply andb_true_iff in H as [H H3]. apply andb_true_iff in H as [H1 H2].
  split; [lia|]. split; [lia|]. split; [now apply one_filterb_ok|]. split.
  - apply existsb_exists in H4 as (s & I & H4). apply existsb_exists in H4 as (e & J & H4). exists s, e. split; auto. split; [auto|lia].
  - intros s e I J. rewrite forallb_forall in H5. specialize (H5 s I). rewrite forallb_forall in H5. specialize (H5 e J). destruct (n_env e) as [c|]; [|split; [discriminate|auto]].
    split; [intro Q; injection Q as ->; lia|intro; lia].
Qed.
(* objects that can be written, and updates *)
Definition savableb (o : obj) : bool :=
  (topb o || match o with PStream _ _ (Some en) => soundb' o && cleanb en | _ => false end) && negb (is_objstm o).
Lemma savableb_ok o : savableb o = true -> savable o.
Proof.
  unfold savableb. intro H. apply andb_true_iff in H as [H H2]. apply negb_true_iff in H2. split; auto. apply orb_true_iff in H as [H|H]; [apply st_val, topb_ok; auto|].
  destruct o as [| | | | | | | | |x s [en|]]; try discriminate. apply andb_true_iff in H as [H H3]. apply soundb_ok' in H as (x' & c & en' & E & W & FB & SF & D). inversion E; subst x' s en'. apply cleanb_ok in H3 as (N1 & N2 & N3).
  apply st_stream; auto. intros y Q. destruct SF as (_ & [F1|[F1|[F1|F1]]]); rewrite F1 in Q; discriminate.
Qed.
Definition updatesb (d : doc) (n : Z) (o : obj) : bool :=
  (0 <? n) && (savableb o && match first_xsn d with Ok (Some k) => negb (k =? n) | _ => true end) &&
  match rev (d_index d) with
  | row :: _ =>
      match nth_error row (Z.to_nat n) with Some (SDict e) => (n_gen e =? 0) && noneb (n_env e) | _ => false end &&
      forallb (fun s => match s with SDict e => match n_env e with Some k => negb (k =? n) | None => true end | _ => true end) row
  | [] => false
  end.
Lemma updatesb_ok d0 d n o d1 : revised d0 d -> updatesb d n o = true -> update_object d n o = Ok d1 -> revised d0 d1.
Proof.
  unfold updatesb. intros R H U. apply andb_true_iff in H as [H H3]. apply andb_true_iff in H as [H1 H2]. apply andb_true_iff in H2 as [H2 H6]. destruct (rev (d_index d)) as [|row r] eqn:Q; [discriminate|]. apply andb_true_iff in H3 as [H3 H4].
  destruct (nth_error row (Z.to_nat n)) as [[|e|]|] eqn:N; try discriminate. apply andb_true_iff in H3 as [H3 H5].
  eapply (Re_update d0 d n o row e d1); auto; [lia|intro X; rewrite X in H6; lia|now apply savableb_ok| |split; [lia|auto]|lia|now apply noneb_ok|].
  - exists (rev r). rewrite <- (rev_involutive (d_index d)), Q. reflexivity.
  - intros k ek [_ C] E. rewrite forallb_forall in H4. specialize (H4 (SDict ek) (nth_error_In _ _ C)). cbn in H4. rewrite E, Z.eqb_refl in H4. discriminate.
Qed.
End WithZlib.
