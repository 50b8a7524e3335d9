(* Lemmas on the tokenizer (model of objects.py:50-172) *)
From Coq Require Import ZifyBool ZifyNat.
From Verif Require Import PyBase Model_Filters Model_Objects Facts_Base.

Lemma list_len_ind {A} (P : list A -> Prop) :
  (forall l, (forall l', (length l' < length l)%nat -> P l') -> P l) -> forall l, P l.
Proof.
  intros H l. assert (G : forall n l, (length l <= n)%nat -> P l).
  { induction n; intros l' L; apply H; intros; [lia|]. apply IHn. lia. }
  apply (G (length l)); auto.
Qed.

(* one step of the scanning loop *)
Lemma ntok_cons se n tia h cur i c r1 :
  ntok se n tia h cur i (c :: r1)
  = ltac:(let t := eval cbn [ntok] in (ntok se n tia h cur i (c :: r1)) in exact t).
Proof. reflexivity. Qed.
Ltac nstep := rewrite ntok_cons; cbv beta match zeta.
Ltac nstep_in E := rewrite ntok_cons in E; cbv beta match zeta in E.

(* the result of ntok moves with the position *)
Definition shift3 (k : nat) (x : nat * nat * option tok) : nat * nat * option tok :=
  match x with (h, j, t) => ((k + h)%nat, (k + j)%nat, t) end.

Lemma ntok_shift k rest : forall se n tia h cur i,
  ntok se n tia (k + h) cur (k + i) rest = shift3 k (ntok se n tia h cur i rest).
Proof.
  induction rest as [rest IH] using list_len_ind. intros se n tia h cur i.
  destruct rest as [|c r]; [reflexivity|].
  assert (E1 : forall se n tia h cur, ntok se n tia (k + h) cur (S (k + i)) r = shift3 k (ntok se n tia h cur (S i) r)).
  { intros. rewrite <- IH by (cbn; lia). f_equal; lia. }
  assert (E2 : forall x r2 se n tia h cur, r = x :: r2 -> ntok se n tia (k + h) cur (S (S (k + i))) r2 = shift3 k (ntok se n tia h cur (S (S i)) r2)).
  { intros. subst. rewrite <- IH by (cbn; lia). f_equal; lia. }
  assert (D : (k + i - (k + h) = i - h)%nat) by lia.
  assert (Z : forall h x, ((k + h)%nat, S (k + i), x) = shift3 k (h, S i, x)) by (intros; cbn; f_equal; f_equal; lia).
  assert (Z2 : forall h x, ((k + h)%nat, S (S (k + i)), x) = shift3 k (h, S (S i), x)) by (intros; cbn; f_equal; f_equal; lia).
  assert (Z3 : forall h m x, ((k + h)%nat, (k + i + m)%nat, x) = shift3 k (h, (i + m)%nat, x)) by (intros; cbn; rewrite Nat.add_assoc; auto).
  destruct se; cbn [ntok]; rewrite ?D, ?Z, ?Z2;
    repeat match goal with |- context [if ?b then _ else _] => destruct b eqn:? end;
    try (rewrite <- E1; reflexivity);
    try (cbn [shift3]; repeat f_equal; lia);
    try reflexivity; try apply E1; try apply Z3;
    destruct r; try (cbn [shift3]; repeat f_equal; lia); try (eapply E2; reflexivity).
Qed.

Lemma ntok_shift0 se n tia cur i rest :
  ntok se n tia i cur i rest = shift3 i (ntok se n tia 0 cur 0 rest).
Proof. rewrite <- ntok_shift, Nat.add_0_r. auto. Qed.

(* what next_token returns depends only on text[i:], shifted by i *)
Theorem next_token_local t i :
  next_token t i = shift3 i (next_token (skipn i t) 0).
Proof. unfold next_token. rewrite skipn_O. apply ntok_shift0. Qed.

Theorem next_token_app p t i :
  next_token (p ++ t) (length p + i) = shift3 (length p) (next_token t i).
Proof.
  unfold next_token. rewrite skipn_app_plus. rewrite <- ntok_shift. auto.
Qed.

(* ---------- bounds ---------- *)
Lemma starts_length p r : starts p r = true -> (length p <= length r)%nat.
Proof. rewrite starts_iff. intros [r' ->]. rewrite app_length. lia. Qed.

Lemma ntok_bounds rest : forall se n tia h cur i h' j k,
  (h <= i)%nat -> (se <> STbd -> (h < i)%nat) ->
  ntok se n tia h cur i rest = (h', j, k) ->
  (h <= h' <= j)%nat /\ (i <= j <= i + length rest)%nat /\ (k <> None -> (h' < j)%nat) /\
  (se <> STbd -> h' = h) /\
  (se = STbd -> h' = h \/ (i <= h')%nat).
Proof.
  induction rest as [rest IH] using list_len_ind. intros se n tia h cur i h' j k Hh Hs E.
  destruct rest as [|c r].
  { cbn in E. inversion E; subst. cbn. repeat split; try lia; try congruence; auto. }
  assert (I1 : forall se' n tia h0 cur, (h0 <= i)%nat -> (h0 = h \/ (h0 = i /\ se = STbd)) -> ntok se' n tia h0 cur (S i) r = (h', j, k) ->
    (h0 <= h' <= j)%nat /\ (i <= j <= i + length (c :: r))%nat /\ (k <> None -> (h' < j)%nat) /\
    (se' <> STbd -> h' = h0) /\ (se' = STbd -> h' = h0 \/ (S i <= h')%nat)).
  { intros se' n' tia' h0 cur' L0 _ E'. eapply IH in E'; cbn; try lia.
    split; [lia|]. split; [cbn; lia|]. tauto. }
  assert (I2 : forall x r2 n tia cur, r = x :: r2 -> se <> STbd -> ntok se n tia h cur (S (S i)) r2 = (h', j, k) ->
    (h <= h' <= j)%nat /\ (i <= j <= i + length (c :: r))%nat /\ (k <> None -> (h' < j)%nat) /\
    (se <> STbd -> h' = h) /\ (se = STbd -> h' = h \/ (i <= h')%nat)).
  { intros x r2 n' tia' cur' -> N E'. eapply IH in E'; cbn; try lia.
    split; [lia|]. split; [cbn; lia|]. split; [tauto|]. split; [tauto|]. intros; congruence. }
  destruct se; cbn [ntok] in E.
  { (* STbd *)
    destruct (c =? 93). { inversion E; subst. cbn. repeat split; try lia; try congruence; auto. }
    match type of E with (if ?b then _ else _) = _ => destruct b eqn:B end.
    { inversion E; subst. destruct r; [rewrite andb_false_r in B; discriminate|].
      cbn. repeat split; try lia; try congruence; auto. }
    apply I1 in E; auto.
    split; [lia|]. split; [cbn in *; lia|]. split; [tauto|]. split; [congruence|]. intros _.
    match type of E with context [?s <> STbd] => destruct s end;
    right; destruct E as (E1 & E2 & E3 & E4 & E5);
    try (rewrite E4 by discriminate; lia); destruct E5; auto; lia. }
  all: specialize (Hs ltac:(discriminate)).
  all: repeat match type of E with
         | (if ?b then _ else _) = _ => destruct b eqn:?
         | match ?l with [] => _ | _ :: _ => _ end = _ => destruct l eqn:?
         end.
  all: try (inversion E; subst; cbn;
            repeat match goal with
              | H : (_ && false) = true |- _ => rewrite andb_false_r in H; discriminate
              | H : ((_ && false) || (_ && false)) = true |- _ => rewrite !andb_false_r in H; discriminate
              | H : starts _ _ = true |- _ => apply starts_length in H; cbn in H
              end;
            repeat split; try lia; try congruence; auto; fail).
  all: try (eapply I2; [reflexivity|discriminate|exact E]).
  all: try (apply I1 in E; [|lia|auto]; destruct E as (E1 & E2 & E3 & E4 & E5);
            split; [lia|]; split; [auto|]; split; [auto|]; split; [auto|]; congruence).
  all: destruct r; [rewrite ?andb_false_r in *; cbn in *; discriminate|].
  all: inversion E; subst; cbn; repeat split; try lia; try congruence; auto.
Qed.

Theorem next_token_bounds t i h j k :
  (i <= length t)%nat -> next_token t i = (h, j, k) ->
  (i <= h)%nat /\ (h <= j)%nat /\ (j <= length t)%nat /\ (k <> None -> (h < j)%nat).
Proof.
  intros L E. unfold next_token in E. apply ntok_bounds in E; try lia; [|congruence].
  rewrite skipn_length in E. intuition lia.
Qed.

(* progress: a call consumes something, unless it stands on ']' or at the end *)
Theorem next_token_progress t i h j k :
  (i < length t)%nat -> nth i t 0 <> 93 -> next_token t i = (h, j, k) -> (i < j)%nat.
Proof.
  intros L N E. unfold next_token in E.
  destruct (skipn i t) as [|c r] eqn:S.
  { apply (f_equal (@length Z)) in S. rewrite skipn_length in S. cbn in S. lia. }
  assert (C : nth i t 0 = c).
  { rewrite <- (firstn_skipn i t), S, app_nth2; rewrite firstn_length; [|lia].
    replace (i - Nat.min i (length t))%nat with 0%nat by lia. auto. }
  rewrite C in N. cbn [ntok] in E. replace (c =? 93) with false in E by lia.
  match type of E with (if ?b then _ else _) = _ => destruct b end.
  - inversion E; lia.
  - apply ntok_bounds in E; lia.
Qed.

(* the stuck case is exactly a closing bracket *)
Theorem next_token_stuck t i :
  (i < length t)%nat -> nth i t 0 = 93 -> next_token t i = (i, i, None).
Proof.
  intros L N. unfold next_token.
  destruct (skipn i t) as [|c r] eqn:S.
  { apply (f_equal (@length Z)) in S. rewrite skipn_length in S. cbn in S. lia. }
  assert (C : nth i t 0 = c).
  { rewrite <- (firstn_skipn i t), S, app_nth2; rewrite firstn_length; [|lia].
    replace (i - Nat.min i (length t))%nat with 0%nat by lia. auto. }
  rewrite C in N. subst. reflexivity.
Qed.

(* ---------- a found token does not change when bytes are appended ---------- *)
Lemma ntok_stream_short p n m tia h cur i :
  In p [EOL ++ W_endstream; 10 :: W_endstream; 13 :: W_endstream; W_endstream] ->
  (m < length p)%nat -> snd (ntok SStream n tia h cur i (firstn m p)) = None.
Proof.
  intros I L. cbn in I.
  destruct I as [<-|[<-|[<-|[<-|[]]]]]; cbn in L;
  do 11 (destruct m as [|m]; [first [exfalso; lia | reflexivity]|]); exfalso; lia.
Qed.

Lemma ntok_name_none se n tia h cur i rest :
  se = SKeyword -> Forall (fun c => is_sep c = false) rest ->
  snd (ntok se n tia h cur i rest) = None.
Proof.
  intros -> H. revert i. induction H; intros i; auto. cbn [ntok]. rewrite H. auto.
Qed.

Lemma ntok_stable x rest : forall se n tia h cur i h' j k,
  0 < n -> (h <= i)%nat -> (se = STbd \/ (i - h + length rest = length cur)%nat) ->
  ntok se n tia h cur i rest = (h', j, Some k) ->
  ntok se n tia h (cur ++ x) i (rest ++ x) = (h', j, Some k).
Proof.
  induction rest as [rest IH] using list_len_ind. intros se n tia h cur i h' j k Hn Hh Hl E.
  destruct rest as [|c r]; [discriminate|].
  assert (I1 : forall n tia, 0 < n -> se <> STbd -> ntok se n tia h cur (S i) r = (h', j, Some k) ->
            ntok se n tia h (cur ++ x) (S i) (r ++ x) = (h', j, Some k)).
  { intros n0 tia0 N0 N E'. destruct Hl as [|Hl]; [congruence|]. cbn [length] in Hl.
    apply IH; cbn [length]; auto; try lia; right; lia. }
  assert (I2 : forall y r2 n tia, r = y :: r2 -> 0 < n -> se <> STbd -> ntok se n tia h cur (S (S i)) r2 = (h', j, Some k) ->
            ntok se n tia h (cur ++ x) (S (S i)) (r2 ++ x) = (h', j, Some k)).
  { intros y r2 n0 tia0 -> N0 N E'. destruct Hl as [|Hl]; [congruence|]. cbn [length] in Hl.
    apply IH; cbn [length]; auto; try lia; right; lia. }
  assert (F : se <> STbd -> firstn (i - h) (cur ++ x) = firstn (i - h) cur).
  { intros N. destruct Hl as [|Hl]; [congruence|].
    rewrite firstn_app. replace (i - h - length cur)%nat with 0%nat by lia. rewrite firstn_O, app_nil_r. auto. }
  destruct r as [|d r].
  { (* last byte: only a state that stops right here can have found a token *)
    destruct se; cbn [ntok app] in E |- *; rewrite ?andb_false_r in E; cbn [orb] in E.
    all: repeat match type of E with
         | (if ?b then _ else _) = _ => destruct b eqn:?
         end; try discriminate.
    all: repeat match goal with
         | H : starts _ [_] = true |- _ => apply starts_length in H; cbn in H; lia
         end.
    all: rewrite ?F by discriminate; try exact E; try lia.
    - destruct (c =? 92) eqn:C; cbn [andb orb]; auto.
      exfalso. destruct (c =? 40) eqn:?, (c =? 41) eqn:?; lia.
    - replace (c =? 92) with false by lia. cbn [andb orb]. auto. }
  cbn [app]. destruct se; nstep_in E; nstep; rewrite ?F by discriminate.
  - (* STbd *)
    destruct (c =? 93); [discriminate|].
    destruct ((c =? 62) && (d =? 62)); [discriminate|].
    destruct (starts W_stream (c :: d :: r)) eqn:S1.
    + change (c :: d :: r ++ x) with ((c :: d :: r) ++ x).
      rewrite (starts_app_mono _ _ x S1).
      apply (IH (d :: r)); auto; cbn [length]; lia.
    + destruct (starts W_stream (c :: d :: r ++ x)) eqn:S2.
      * change (c :: d :: r ++ x) with ((c :: d :: r) ++ x) in S2.
        destruct (starts_app_new _ _ _ S1 S2) as [P L].
        exfalso. cbn [length W_stream] in L.
        assert (c = 115) by (cbn in P; congruence). subst c.
        assert (K : Forall (fun c => is_sep c = false) (d :: r)).
        { assert (Q : Forall (fun c => is_sep c = false) W_stream) by (repeat constructor).
          rewrite <- (firstn_skipn (length (115 :: d :: r)) W_stream) in Q.
          apply Forall_app in Q as [Q _]. rewrite <- P in Q. inversion Q; auto. }
        cbn [Z.eqb Pos.eqb andb] in E.
        replace (inb 115 VALUE_START) with false in E by reflexivity.
        replace (inb 115 ALPHA) with true in E by reflexivity.
        pose proof (ntok_name_none SKeyword n tia i (115 :: d :: r) (S i) (d :: r) eq_refl K) as Q.
        pose proof (eq_trans (eq_sym Q) (f_equal snd E)). discriminate.
      * change (c :: d :: r ++ x) with ((c :: d :: r) ++ x).
        apply (IH (d :: r)); auto; cbn [length]; lia.
  - (* SDict *)
    match type of E with (if ?b then _ else _) = _ => destruct b eqn:? end.
    + match type of E with (if ?b then _ else _) = _ => destruct b eqn:? end; auto.
      apply (I2 d); auto; try discriminate.
      match goal with |- 0 < (if ?b then _ else _) => destruct b end; lia.
    + destruct (n =? 0); auto. exact (I1 n tia Hn ltac:(discriminate) E).
  - destruct (is_sep c); auto. exact (I1 n tia Hn ltac:(discriminate) E).
  - destruct (inb c EOL); auto. exact (I1 n tia Hn ltac:(discriminate) E).
  - match type of E with (if ?b then _ else _) = _ => destruct b eqn:? end.
    + destruct (n =? 0); auto. apply (I2 d); auto; discriminate.
    + match type of E with (if ?b then _ else _) = _ => destruct b eqn:? end; auto.
      refine (I1 _ tia _ ltac:(discriminate) E). destruct (c =? 40), (c =? 41); lia.
  - match type of E with (if ?b then _ else _) = _ => destruct b eqn:? end.
    + apply (I2 d); auto; discriminate.
    + destruct (c =? 62); auto. exact (I1 n tia Hn ltac:(discriminate) E).
  - destruct (is_sep c); auto. exact (I1 n tia Hn ltac:(discriminate) E).
  - destruct (is_sep c); auto. exact (I1 n tia Hn ltac:(discriminate) E).
  - (* SStream *)
    assert (Q : forall p, In p [EOL ++ W_endstream; 10 :: W_endstream; 13 :: W_endstream; W_endstream] ->
                starts p (c :: d :: r ++ x) = starts p (c :: d :: r)).
    { intros p I. change (c :: d :: r ++ x) with ((c :: d :: r) ++ x).
      destruct (starts p (c :: d :: r)) eqn:S1; [apply starts_app_mono; auto|].
      destruct (starts p ((c :: d :: r) ++ x)) eqn:S2; auto.
      destruct (starts_app_new _ _ _ S1 S2) as [P L].
      exfalso. pose proof (ntok_stream_short p n (length (c :: d :: r)) tia h cur i I L) as Q.
      rewrite <- P in Q. pose proof (eq_trans (eq_sym Q) (f_equal snd E)). discriminate. }
    rewrite !Q by (cbn; tauto).
    repeat match type of E with (if ?b then _ else _) = _ => destruct b; [assumption|] end.
    apply (I1 n tia); auto; discriminate.
  - (* SArray *)
    match type of E with (if ?b then _ else _) = _ => destruct b eqn:? end; auto.
    refine (I1 _ _ _ ltac:(discriminate) E).
    destruct ((c =? 40) || (c =? 41)), (negb tia && (c =? 91)), (negb tia && (c =? 93)); lia.
Qed.

Theorem next_token_stable t x i h j k :
  (i <= length t)%nat ->
  next_token t i = (h, j, Some k) -> next_token (t ++ x) i = (h, j, Some k).
Proof.
  intros L E. unfold next_token in *. rewrite skipn_app.
  replace (i - length t)%nat with 0%nat by lia. rewrite skipn_O.
  apply ntok_stable; auto; lia.
Qed.
