(* Serialized values read back by the parser *)
From Coq Require Import ZifyBool ZifyNat.
From Verif Require Import PyBase Model_Filters Model_Objects Spec_Objects Facts_Base Facts_Token Facts_Obj.

Ltac p3 := apply (f_equal2 pair); [apply (f_equal2 pair); lia | reflexivity].

(* ---------- characters ---------- *)
Lemma is_sep_iff c : is_sep c = true <-> white c \/ delim c.
Proof.
  unfold is_sep. rewrite inb_In. cbn. unfold white, delim. lia.
Qed.
Lemma regular_not_sep c : regular c -> is_sep c = false.
Proof.
  intros (_ & H1 & H2). destruct (is_sep c) eqn:E; auto. apply is_sep_iff in E. tauto.
Qed.
Lemma is_sep_false c : is_sep c = false -> ~ white c /\ ~ delim c.
Proof. intros H. split; intros W; rewrite (proj2 (is_sep_iff c)) in H; auto; discriminate. Qed.

Lemma no_stream c r : c <> 115 -> starts W_stream (c :: r) = false.
Proof. intros H. apply starts_cons_neq. congruence. Qed.

(* the first byte of [rest] is a separator *)
Definition sepstart (rest : bytes) : Prop := exists c r, rest = c :: r /\ is_sep c = true.

(* [v], followed by a separator, is exactly one token of kind k *)
Definition tok1 (v : bytes) (k : tok) : Prop :=
  forall rest h cur i, sepstart rest ->
    ntok STbd 1 false h cur i (v ++ rest) = (i, (i + length v)%nat, Some k).
(* same, whatever follows *)
Definition tok1any (v : bytes) (k : tok) : Prop :=
  forall rest h cur i, ntok STbd 1 false h cur i (v ++ rest) = (i, (i + length v)%nat, Some k).
(* scanning an array, resp. a dictionary, goes through [v] unaffected *)
Definition narr (v : bytes) : Prop :=
  forall rest n h cur i, 0 < n ->
    ntok SArray n false h cur i (v ++ rest) = ntok SArray n false h cur (i + length v) rest.
Definition ndict (v : bytes) : Prop :=
  forall rest n tia h cur i, 0 < n ->
    ntok SDict n tia h cur i (v ++ 32 :: rest) = ntok SDict n tia h cur (i + length v) (32 :: rest).

(* ---------- scanning lemmas ---------- *)
Lemma scan_name w : forall rest n tia h cur i,
  Forall (fun c => is_sep c = false) w -> sepstart rest ->
  ntok SName n tia h cur i (w ++ rest) = (h, (i + length w)%nat, Some TName).
Proof.
  induction w as [|c w IH]; intros rest n tia h cur i H (d & r & -> & SP).
  - cbn [app length]. nstep. rewrite SP. p3.
  - inversion H; subst. cbn [app length]. nstep. rewrite H2. rewrite IH by (auto; exists d, r; auto).
    p3.
Qed.

Lemma scan_value w : forall rest n tia h cur i,
  Forall (fun c => is_sep c = false) w -> sepstart rest ->
  ntok SValue n tia h cur i (w ++ rest)
  = (h, (i + length w)%nat, Some (if inb 46 (firstn (i + length w - h) cur) then TReal else TInteger)).
Proof.
  induction w as [|c w IH]; intros rest n tia h cur i H (d & r & -> & SP).
  - cbn [app length]. nstep. rewrite SP, Nat.add_0_r. auto.
  - inversion H; subst. cbn [app length]. nstep. rewrite H2. rewrite IH by (auto; exists d, r; auto).
    replace (i + S (length w))%nat with (S i + length w)%nat by lia. auto.
Qed.

Lemma scan_keyword w : forall rest n tia h cur i,
  Forall (fun c => is_sep c = false) w -> sepstart rest ->
  ntok SKeyword n tia h cur i (w ++ rest)
  = (h, (i + length w)%nat, Some (if beqb W_true (firstn (i + length w - h) cur) then TTrue
                                   else if beqb W_false (firstn (i + length w - h) cur) then TFalse else TKeyword)).
Proof.
  induction w as [|c w IH]; intros rest n tia h cur i H (d & r & -> & SP).
  - cbn [app length]. nstep. rewrite SP, Nat.add_0_r. auto.
  - inversion H; subst. cbn [app length]. nstep. rewrite H2. rewrite IH by (auto; exists d, r; auto).
    replace (i + S (length w))%nat with (S i + length w)%nat by lia. auto.
Qed.

Lemma tok1_name w : Forall (fun c => is_sep c = false) w -> tok1 (47 :: w) TName.
Proof.
  intros H rest h cur i SP. cbn [app length]. nstep. cbn [Z.eqb Pos.eqb andb].
  rewrite scan_name by auto. p3.
Qed.

Lemma tok1_value c w : In c VALUE_START -> Forall (fun c => is_sep c = false) w ->
  tok1 (c :: w) (if inb 46 (c :: w) then TReal else TInteger).
Proof.
  intros I H rest h cur i SP. cbn [app length]. nstep.
  assert (N : c =? 93 = false /\ c =? 62 = false /\ c =? 60 = false /\ c =? 91 = false /\ c =? 47 = false /\ c <> 115).
  { cbn in I. repeat split; lia. }
  destruct N as (-> & -> & -> & -> & -> & N). cbn [andb].
  rewrite no_stream by auto.
  rewrite (proj2 (inb_In c VALUE_START) I).
  rewrite scan_value by auto.
  replace (S i + length w - i)%nat with (length (c :: w)) by (cbn [length]; lia).
  change (c :: w ++ rest) with ((c :: w) ++ rest). rewrite firstn_app_len.
  p3.
Qed.

Lemma ALPHA_iff c : In c ALPHA <-> letter c.
Proof. unfold letter. cbn. lia. Qed.

Lemma tok1_keyword c w : letter c -> Forall (fun c => is_sep c = false) w ->
  ~ prefix_of W_stream (c :: w) ->
  tok1 (c :: w) (if beqb W_true (c :: w) then TTrue else if beqb W_false (c :: w) then TFalse else TKeyword).
Proof.
  intros L H NS rest h cur i SP. cbn [app length]. nstep.
  assert (N : c =? 93 = false /\ c =? 62 = false /\ c =? 60 = false /\ c =? 91 = false /\ c =? 47 = false).
  { unfold letter in L. repeat split; lia. }
  destruct N as (-> & -> & -> & -> & ->). cbn [andb].
  assert (V : inb c VALUE_START = false).
  { apply inb_not_In. cbn. unfold letter in L. lia. }
  assert (A : inb c ALPHA = true) by (apply inb_In, ALPHA_iff; auto).
  assert (ST : starts W_stream (c :: w ++ rest) = false).
  { destruct (starts W_stream (c :: w)) eqn:E.
    - exfalso. apply NS. apply starts_iff in E. auto.
    - destruct (starts W_stream (c :: w ++ rest)) eqn:E2; auto.
      change (c :: w ++ rest) with ((c :: w) ++ rest) in E2.
      destruct (starts_app_new _ _ _ E E2) as [P PL].
      apply starts_iff in E2 as [y E2]. destruct SP as (d & r & -> & SP).
      exfalso.
      assert (D : nth_error W_stream (length (c :: w)) = Some d).
      { assert (Q : nth_error ((c :: w) ++ d :: r) (length (c :: w)) = Some d).
        { rewrite nth_error_app2 by lia. rewrite Nat.sub_diag. auto. }
        rewrite E2 in Q. rewrite nth_error_app1 in Q; auto. }
      apply nth_error_In in D. cbn in D.
      repeat destruct D as [<-|D]; try discriminate; auto. }
  rewrite ST, V, A.
  rewrite scan_keyword by auto.
  replace (S i + length w - i)%nat with (length (c :: w)) by (cbn [length]; lia).
  change (c :: w ++ rest) with ((c :: w) ++ rest). rewrite firstn_app_len.
  p3.
Qed.

(* literal strings *)
Lemma scan_lit s : litbody s -> forall rest n tia h cur i, 0 < n ->
  ntok SLstr n tia h cur i (s ++ rest) = ntok SLstr n tia h cur (i + length s) rest.
Proof.
  induction 1 as [|c s H1 H2 H3 HS IH|c s H1 H2 HS IH|c s HC HS IH|s1 s2 HS1 IH1 HS2 IH2];
    intros rest n tia h cur i Hn.
  - cbn. f_equal; lia.
  - cbn [app length]. nstep. replace (c =? 92) with false by lia. cbn [andb orb].
    replace (c =? 40) with false by lia. replace (c =? 41) with false by lia.
    replace (n =? 0) with false by lia. rewrite IH by auto. f_equal; lia.
  - cbn [app length]. nstep. cbn [Z.eqb Pos.eqb andb orb].
    replace (c =? 40) with false by lia. replace (c =? 41) with false by lia. cbn [orb].
    replace (n =? 0) with false by lia.
    change (c :: s ++ rest) with ((c :: s) ++ rest). rewrite IH by auto. f_equal. cbn [length]; lia.
  - cbn [app length]. nstep. cbn [Z.eqb Pos.eqb andb orb].
    replace ((c =? 40) || (c =? 41)) with true by lia.
    replace (n =? 0) with false by lia. rewrite IH by auto. f_equal; lia.
  - cbn [app length]. rewrite app_length, <- app_assoc. cbn [app length]. nstep. cbn [Z.eqb Pos.eqb andb orb].
    replace (n + 1 =? 0) with false by lia. rewrite IH1 by lia. nstep. cbn [Z.eqb Pos.eqb andb orb].
    replace (n + 1 - 1) with n by lia. replace (n =? 0) with false by lia.
    rewrite IH2 by lia. f_equal. lia.
Qed.

Lemma tok1any_lit s : lit_tok s -> tok1any s TString.
Proof.
  intros (b & -> & H) rest h cur i. cbn [app length]. rewrite app_length, <- app_assoc.
  nstep. cbn [Z.eqb Pos.eqb andb].
  rewrite no_stream by discriminate.
  replace (inb 40 VALUE_START) with false by reflexivity. replace (inb 40 ALPHA) with false by reflexivity.
  rewrite scan_lit by (auto; lia). cbn [app length]. nstep. cbn. p3.
Qed.

(* hexadecimal strings *)
Lemma scan_hex s : Forall (fun c => c <> 62 /\ c <> 92) s -> forall rest n tia h cur i,
  ntok SHstr n tia h cur i (s ++ 62 :: rest) = (h, S (i + length s)%nat, Some TString).
Proof.
  induction 1 as [|c s [H1 H2] HS IH]; intros rest n tia h cur i.
  - cbn [app length]. nstep. cbn [Z.eqb Pos.eqb andb orb]. p3.
  - cbn [app length]. nstep. replace (c =? 92) with false by lia. cbn [andb orb].
    replace (c =? 62) with false by lia. rewrite IH. p3.
Qed.

Lemma hexwhite_props c : hexdigit c \/ white c ->
  c <> 62 /\ c <> 92 /\ c <> 60 /\ c <> 40 /\ c <> 41 /\ c <> 91 /\ c <> 93.
Proof. unfold hexdigit, decdigit, white. lia. Qed.

Lemma tok1any_hex s : hex_tok s -> tok1any s TString.
Proof.
  intros (b & -> & H) rest h cur i. cbn [app length]. rewrite app_length, <- app_assoc.
  nstep. cbn [Z.eqb Pos.eqb andb].
  assert (D : match b ++ [62] ++ rest with [] => false | d :: _ => d =? 60 end = false).
  { destruct b as [|x b]; auto. cbn. inversion H; subst. apply hexwhite_props in H2. lia. }
  rewrite D. rewrite no_stream by discriminate.
  replace (inb 60 VALUE_START) with false by reflexivity. replace (inb 60 ALPHA) with false by reflexivity.
  cbn [app]. rewrite scan_hex.
  - cbn [length]. p3.
  - eapply Forall_impl; [|exact H]. intros a Q. apply hexwhite_props in Q. tauto.
Qed.

(* ---------- neutral segments ---------- *)
Lemma narr_app a b : narr a -> narr b -> narr (a ++ b).
Proof.
  intros Ha Hb rest n h cur i Hn. rewrite <- app_assoc, Ha, Hb, app_length by auto. f_equal. lia.
Qed.

Lemma narr_nil : narr [].
Proof. intros rest n h cur i Hn. cbn. f_equal; lia. Qed.

Lemma narr_plain s : Forall (fun c => c <> 40 /\ c <> 41 /\ c <> 91 /\ c <> 93) s -> narr s.
Proof.
  induction 1 as [|c s (H1 & H2 & H3 & H4) HS IH]; [apply narr_nil|].
  intros rest n h cur i Hn. cbn [app length]. nstep.
  replace (c =? 40) with false by lia. replace (c =? 41) with false by lia.
  replace (c =? 91) with false by lia. replace (c =? 93) with false by lia. cbn [orb negb andb].
  replace (n =? 0) with false by lia. rewrite IH by auto. f_equal. lia.
Qed.

Lemma narr_bracket s : narr s -> narr (91 :: s ++ [93]).
Proof.
  intros H rest n h cur i Hn. cbn [app length]. rewrite app_length, <- app_assoc.
  nstep. cbn [Z.eqb Pos.eqb orb negb andb]. replace (n + 1 =? 0) with false by lia.
  rewrite H by lia. cbn [app length]. nstep. cbn [Z.eqb Pos.eqb orb negb andb].
  replace (n + 1 - 1) with n by lia. replace (n =? 0) with false by lia. f_equal. lia.
Qed.

(* parentheses without brackets, whatever text_in_array *)
Lemma scan_arr_nobracket s : Forall (fun c => c <> 91 /\ c <> 93) s -> forall rest n tia h cur i, 0 < n ->
  exists tia', ntok SArray n tia h cur i (s ++ rest) = ntok SArray n tia' h cur (i + length s) rest.
Proof.
  induction 1 as [|c s (H1 & H2) HS IH]; intros rest n tia h cur i Hn.
  - exists tia. cbn. f_equal; lia.
  - destruct (IH rest n (if c =? 40 then true else if c =? 41 then false else tia) h cur (S i) Hn) as [t E].
    exists t. cbn [app length]. nstep.
    replace (c =? 91) with false by lia. replace (c =? 93) with false by lia.
    rewrite !andb_false_r. 
    replace (if (c =? 40) || (c =? 41) then n else n) with n by (destruct ((c =? 40) || (c =? 41)); auto).
    replace (n =? 0) with false by lia. rewrite E. f_equal; lia.
Qed.

Lemma scan_arr_intext s : Forall (fun c => c <> 40 /\ c <> 41) s -> forall rest n h cur i, 0 < n ->
  ntok SArray n true h cur i (s ++ rest) = ntok SArray n true h cur (i + length s) rest.
Proof.
  induction 1 as [|c s (H1 & H2) HS IH]; intros rest n h cur i Hn.
  - cbn. f_equal; lia.
  - cbn [app length]. nstep. cbn [negb andb].
    replace (c =? 40) with false by lia. replace (c =? 41) with false by lia. cbn [orb].
    replace (n =? 0) with false by lia. rewrite IH by auto. f_equal; lia.
Qed.

Lemma narr_lit s : lit_tok s -> embeddable s -> narr s.
Proof.
  intros (b & -> & HB) (_ & _ & [H|(b' & E & H)]) rest n h cur i Hn.
  - inversion H; subst. apply Forall_app in H3 as [H3 _].
    cbn [app length]. rewrite app_length, <- app_assoc. nstep. cbn [Z.eqb Pos.eqb orb].
    replace (n =? 0) with false by lia.
    destruct (scan_arr_nobracket b H3 ([41] ++ rest) n true h cur (S i) Hn) as [t ->].
    cbn [app length]. nstep. cbn [Z.eqb Pos.eqb orb]. replace (n =? 0) with false by lia. f_equal; lia.
  - assert (b' = b). { injection E as E. apply app_inj_tail in E as [E _]. auto. } subst b'.
    cbn [app length]. rewrite app_length, <- app_assoc. nstep. cbn [Z.eqb Pos.eqb orb].
    replace (n =? 0) with false by lia. rewrite scan_arr_intext by auto.
    cbn [app length]. nstep. cbn [Z.eqb Pos.eqb orb]. replace (n =? 0) with false by lia. f_equal; lia.
Qed.

Lemma narr_hex s : hex_tok s -> narr s.
Proof.
  intros (b & -> & H). apply narr_plain. constructor; [lia|]. apply Forall_app; split.
  - eapply Forall_impl; [|exact H]. intros a Q. apply hexwhite_props in Q. tauto.
  - constructor; auto. lia.
Qed.

(* dictionaries: two equal angle brackets in a row do not occur *)
Fixpoint nodbl (s : bytes) : bool :=
  match s with
  | c :: r => match r with
              | d :: _ => negb ((c =? 60) && (d =? 60) || (c =? 62) && (d =? 62)) && nodbl r
              | [] => true
              end
  | [] => true
  end.

Lemma nodbl_occurs s : ~ occurs [60; 60] s -> ~ occurs [62; 62] s -> nodbl s = true.
Proof.
  induction s as [|c r IH]; intros H1 H2; auto. destruct r as [|d r]; auto.
  change (nodbl (c :: d :: r)) with (negb ((c =? 60) && (d =? 60) || (c =? 62) && (d =? 62)) && nodbl (d :: r)).
  rewrite IH.
  - rewrite andb_true_r. destruct ((c =? 60) && (d =? 60) || (c =? 62) && (d =? 62)) eqn:E; auto. exfalso.
    assert (K : c = 60 /\ d = 60 \/ c = 62 /\ d = 62) by lia. destruct K as [[-> ->]|[-> ->]].
    + apply H1. exists [], r. auto.
    + apply H2. exists [], r. auto.
  - intros (a & b & E). apply H1. exists (c :: a), b. rewrite E. auto.
  - intros (a & b & E). apply H2. exists (c :: a), b. rewrite E. auto.
Qed.

Lemma ndict_nodbl s : nodbl s = true -> ndict s.
Proof.
  induction s as [|c r IH]; intros H rest n tia h cur i Hn.
  - cbn [app length]. f_equal; lia.
  - cbn [app length].
    assert (D : (c =? 60) && match r ++ 32 :: rest with [] => false | d :: _ => d =? 60 end = false /\
                (c =? 62) && match r ++ 32 :: rest with [] => false | d :: _ => d =? 62 end = false /\ nodbl r = true).
    { destruct r as [|d r]; [cbn; rewrite !andb_false_r; auto|].
      change (nodbl (c :: d :: r)) with (negb ((c =? 60) && (d =? 60) || (c =? 62) && (d =? 62)) && nodbl (d :: r)) in H.
      apply andb_prop in H as [H1 H2]. cbn [app]. split; [lia|]. split; [lia|auto]. }
    destruct D as (D1 & D2 & D3). nstep. rewrite D1, D2. cbn [orb].
    replace (n =? 0) with false by lia. rewrite IH by auto. f_equal. lia.
Qed.

Lemma nodbl_plain s : Forall (fun c => c <> 60 /\ c <> 62) s -> nodbl s = true.
Proof.
  induction 1 as [|c s (H1 & H2) HS IH]; auto. destruct s as [|d s]; auto.
  change (nodbl (c :: d :: s)) with (negb ((c =? 60) && (d =? 60) || (c =? 62) && (d =? 62)) && nodbl (d :: s)).
  rewrite IH, andb_true_r. lia.
Qed.

Lemma ndict_plain s : Forall (fun c => c <> 60 /\ c <> 62) s -> ndict s.
Proof. intros. apply ndict_nodbl, nodbl_plain; auto. Qed.

(* a ++ " " ++ b *)
Lemma ndict_sp a b : ndict a -> ndict b -> ndict (a ++ [32] ++ b).
Proof.
  intros Ha Hb rest n tia h cur i Hn. rewrite <- app_assoc. cbn [app]. rewrite Ha by auto.
  nstep. cbn [Z.eqb Pos.eqb andb orb]. replace (n =? 0) with false by lia. rewrite Hb by auto.
  rewrite app_length. cbn [length]. f_equal. lia.
Qed.

Lemma ndict_nil : ndict [].
Proof. intros rest n tia h cur i Hn. cbn [app length]. f_equal; lia. Qed.

Lemma ndict_spaces k : ndict (repeat 32 k).
Proof. apply ndict_plain. apply Forall_forall. intros x I. apply repeat_spec in I. lia. Qed.

Lemma nodbl_hex s : hex_tok s -> nodbl s = true.
Proof.
  intros (b & -> & H). 
  assert (K : forall b, Forall (fun c => c <> 60 /\ c <> 62) b -> nodbl (b ++ [62]) = true).
  { clear. induction 1 as [|c s (H1 & H2) HS IH]; auto. cbn [app].
    destruct (s ++ [62]) as [|d r] eqn:E; auto.
    change (nodbl (c :: d :: r)) with (negb ((c =? 60) && (d =? 60) || (c =? 62) && (d =? 62)) && nodbl (d :: r)).
    rewrite IH, andb_true_r. lia. }
  assert (F : Forall (fun c => c <> 60 /\ c <> 62) b).
  { eapply Forall_impl; [|exact H]. intros a Q. apply hexwhite_props in Q. tauto. }
  destruct b as [|d b]; auto.
  change (60 :: (d :: b) ++ [62]) with (60 :: d :: (b ++ [62])).
  change (nodbl (60 :: d :: b ++ [62])) with (negb ((60 =? 60) && (d =? 60) || (60 =? 62) && (d =? 62)) && nodbl (d :: b ++ [62])).
  specialize (K _ F). cbn [app] in K. rewrite K. inversion F; subst. lia.
Qed.

(* spaces *)
Lemma tbd_space rest h cur i : ntok STbd 1 false h cur i (32 :: rest) = ntok STbd 1 false i (32 :: rest) (S i) rest.
Proof. nstep. cbn [Z.eqb Pos.eqb andb]. rewrite no_stream by discriminate. reflexivity. Qed.

Lemma tok1_spaces v k d : tok1 v k -> forall rest h cur i, sepstart rest ->
  ntok STbd 1 false h cur i (repeat 32 d ++ v ++ rest) = ((i + d)%nat, (i + d + length v)%nat, Some k).
Proof.
  intros T. induction d; intros rest h cur i S; cbn [repeat app].
  - rewrite T by auto. p3.
  - rewrite tbd_space, IHd by auto. p3.
Qed.

(* "[ ... ]" and "<< ... >>" as tokens *)
Lemma tok1any_array b : narr b -> tok1any (91 :: b ++ [93]) TArray.
Proof.
  intros H rest h cur i. cbn [app length]. rewrite app_length, <- app_assoc. nstep. cbn [Z.eqb Pos.eqb andb].
  rewrite H by lia. cbn [app length]. nstep. cbn. p3.
Qed.

(* dictionary scanning through a segment that ends with a space, whatever follows *)
Definition nd32 (v : bytes) : Prop :=
  forall rest n tia h cur i, 0 < n ->
    ntok SDict n tia h cur i (v ++ rest) = ntok SDict n tia h cur (i + length v) rest.

Lemma nd32_nil : nd32 [].
Proof. intros rest n tia h cur i Hn. cbn [app length]. f_equal; lia. Qed.
Lemma nd32_app a b : nd32 a -> nd32 b -> nd32 (a ++ b).
Proof. intros Ha Hb rest n tia h cur i Hn. rewrite <- app_assoc, Ha, Hb, app_length by auto. f_equal. lia. Qed.
Lemma nd32_ndict v : ndict v -> nd32 (v ++ [32]).
Proof.
  intros H rest n tia h cur i Hn. rewrite <- app_assoc. cbn [app]. rewrite H by auto.
  nstep. cbn [Z.eqb Pos.eqb andb orb]. replace (n =? 0) with false by lia.
  rewrite app_length. cbn [length]. f_equal. lia.
Qed.
Lemma nd32_spaces k : nd32 (repeat 32 k).
Proof.
  induction k; [apply nd32_nil|]. change (repeat 32 (S k)) with ([] ++ [32] ++ repeat 32 k). rewrite app_assoc.
  apply nd32_app; auto. apply nd32_ndict, ndict_nil.
Qed.

Lemma ndict_dict b : nd32 b -> ndict ([60; 60] ++ (32 :: b) ++ [62; 62]).
Proof.
  intros H rest n tia h cur i Hn. cbn [app length]. rewrite app_length. cbn [length]. rewrite <- app_assoc. cbn [app].
  nstep. cbn [Z.eqb Pos.eqb andb orb]. replace (n + 1 =? 0) with false by lia.
  nstep. cbn [Z.eqb Pos.eqb andb orb]. replace (n + 1 =? 0) with false by lia.
  rewrite H by lia.
  nstep. cbn [Z.eqb Pos.eqb andb orb]. replace (n + 1 - 1) with n by lia. replace (n =? 0) with false by lia.
  f_equal. lia.
Qed.

Lemma tok1any_dict b : nd32 b -> tok1any ([60; 60] ++ (32 :: b) ++ [62; 62]) TDict.
Proof.
  intros H rest h cur i. cbn [app length]. rewrite app_length. cbn [length]. rewrite <- app_assoc. cbn [app].
  nstep. cbn [Z.eqb Pos.eqb andb orb].
  nstep. cbn [Z.eqb Pos.eqb andb orb].
  nstep. cbn [Z.eqb Pos.eqb andb orb].
  rewrite H by lia.
  nstep. cbn [Z.eqb Pos.eqb andb orb]. p3.
Qed.

(* ---------- reading items back ---------- *)
Section WithZlib.
Context {ZL : Zlib}.

(* chunk: S d spaces, then the text of one token *)
Definition chunk_text (c : nat * bytes) : bytes := repeat 32 (S (fst c)) ++ snd c.
Definition chunks_text (l : list (nat * bytes)) : bytes := flat_map chunk_text l.

(* [v] is one token, read as the value o *)
Definition reads (p : bytes -> res obj) (v : bytes) (o : obj) : Prop :=
  exists k, tok1 v k /\
    match k with
    | TDict | TArray => p v = Ok o
    | TComment => False
    | _ => dedicated_type v (Some k) = Ok o
    end.

Lemma next_token_chunk t i rest v d k : tok1 v k -> sepstart rest ->
  skipn i t = chunk_text (d, v) ++ rest ->
  next_token t i = ((i + S d)%nat, (i + S d + length v)%nat, Some k) /\
  sub t (i + S d) (i + S d + length v) = v /\
  skipn (i + S d + length v) t = rest.
Proof.
  intros T SS E. unfold chunk_text in E. cbn [fst snd] in E. rewrite <- !app_assoc in E.
  assert (L : S d = length (repeat 32 (S d))) by (rewrite repeat_length; auto).
  split; [|split].
  - unfold next_token. rewrite E. apply tok1_spaces; auto.
  - unfold sub. replace (i + S d + length v - (i + S d))%nat with (length v) by lia.
    rewrite (Nat.add_comm i), <- skipn_skipn, E.
    rewrite L at 1. rewrite skipn_app_len. apply firstn_app_len.
  - replace (i + S d + length v)%nat with (length v + (S d + i))%nat by lia.
    rewrite <- !skipn_skipn, E.
    rewrite L at 1. rewrite skipn_app_len. apply skipn_app_len.
Qed.

Lemma tbd_spaces_stop e rest : forall h cur i,
  (exists r, rest = 93 :: r) -> ntok STbd 1 false h cur i (repeat 32 (S e) ++ rest) = ((i + e)%nat, (i + S e)%nat, None).
Proof.
  induction e; intros h cur i [r ->].
  - cbn [repeat app]. rewrite tbd_space. nstep. cbn [Z.eqb Pos.eqb andb]. p3.
  - change (repeat 32 (S (S e))) with (32 :: repeat 32 (S e)). cbn [app]. rewrite tbd_space.
    rewrite IHe by (exists r; auto). p3.
Qed.
Lemma tbd_spaces_stop_dict e rest : forall h cur i,
  (exists r, rest = 62 :: 62 :: r) -> ntok STbd 1 false h cur i (repeat 32 (S e) ++ rest) = ((i + e)%nat, S (i + S e)%nat, None).
Proof.
  induction e; intros h cur i [r ->].
  - cbn [repeat app]. rewrite tbd_space. nstep. cbn [Z.eqb Pos.eqb andb]. p3.
  - change (repeat 32 (S (S e))) with (32 :: repeat 32 (S e)). cbn [app]. rewrite tbd_space.
    rewrite IHe by (exists r; auto). p3.
Qed.

Lemma items_S p isd t j1 f i :
  items_loop p isd t j1 (S f) i
  = ltac:(let x := eval cbn [items_loop] in (items_loop p isd t j1 (S f) i) in exact x).
Proof. reflexivity. Qed.

Definition closing (isd : bool) : bytes := if isd then [62; 62] else [93].
Ltac ltb_lia := first [apply Nat.ltb_lt | apply Nat.ltb_ge]; unfold closing in *;
  repeat match goal with b : bool |- _ => destruct b end; cbn [length] in *; lia.

Lemma items_chunks p isd t j1 chunks : forall os i e rest fuel,
  Forall2 (fun c o => reads p (snd c) o) chunks os ->
  skipn i t = chunks_text chunks ++ repeat 32 (S e) ++ closing isd ++ rest ->
  j1 = (i + length (chunks_text chunks) + S e + length (closing isd))%nat ->
  (length chunks + 2 <= fuel)%nat ->
  items_loop p isd t j1 fuel i = Ok os.
Proof.
  induction chunks as [|[d v] chunks IH]; intros os i e rest fuel F E J L.
  - inversion F; subst os. destruct fuel as [|[|fuel]]; cbn [length] in L; try lia.
    cbn [chunks_text flat_map app length] in E, J. subst j1. rewrite items_S.
    replace (Nat.ltb i _) with true by (symmetry; ltb_lia).
    unfold next_token. rewrite E. unfold closing.
    destruct isd.
    + rewrite tbd_spaces_stop_dict by (exists rest; auto).
      rewrite items_S. replace (Nat.ltb _ _) with false by (symmetry; ltb_lia). auto.
    + rewrite tbd_spaces_stop by (exists rest; auto).
      rewrite items_S. replace (Nat.ltb _ _) with false by (symmetry; ltb_lia). auto.
  - inversion F as [|x o l' os' R F']; subst. cbn [snd] in R. destruct R as (k & T & R).
    cbn [chunks_text flat_map] in E. fold (chunks_text chunks) in E. rewrite <- app_assoc in E.
    assert (SS : sepstart (chunks_text chunks ++ repeat 32 (S e) ++ closing isd ++ rest)).
    { exists 32. destruct chunks as [|[d2 v2] chunks].
      - exists (repeat 32 e ++ closing isd ++ rest). auto.
      - eexists. split; [|reflexivity]. cbn [chunks_text flat_map chunk_text fst snd repeat app]. reflexivity. }
    destruct (next_token_chunk _ _ _ _ _ _ T SS E) as (N & S1 & S2).
    destruct fuel as [|fuel]; [cbn [length] in L; lia|]. rewrite items_S.
    assert (CL : length (chunks_text ((d, v) :: chunks)) = (S d + length v + length (chunks_text chunks))%nat).
    { unfold chunks_text. cbn [flat_map]. unfold chunk_text at 1. rewrite !app_length, repeat_length. auto. }
    rewrite CL in IH |- *.
    replace (Nat.ltb i _) with true by (symmetry; ltb_lia).
    rewrite N, S1.
    replace (Nat.ltb (i + S d + length v) _) with true by (symmetry; ltb_lia).
    rewrite andb_false_r.
    rewrite (IH os' _ e rest fuel F' S2); [|destruct isd; cbn [closing length]; lia|cbn [length] in L; lia].
    destruct k; try contradiction; rewrite R; reflexivity.
Qed.


(* ---------- the value read back ---------- *)
Fixpoint rv (o : obj) : obj :=
  match o with
  | PList l => PList (map rv l)
  | PDict d => PDict (rev (map (fun kv => match kv with (k, v) => (k, rv v) end) d))
  | PRef _ n => PRef 0 n
  | _ => o
  end.
Definition toksof (o : obj) : list obj :=
  match o with PRef g n => [PInt n; PInt g; PStr W_R] | _ => [rv o] end.

(* o is not the bare word R *)
Definition notR (o : obj) : Prop := is_R o = false.

Lemma second_not_R l : Forall notR l ->
  match flat_map toksof l with _ :: c :: _ => is_R c = false | _ => True end.
Proof.
  intros H. destruct l as [|x l]; cbn; auto. inversion H; subst.
  assert (G : match flat_map toksof l with c :: _ => is_R c = false | [] => True end).
  { destruct l as [|y l]; cbn; auto. inversion H3; subst.
    destruct y; cbn; auto. }
  destruct x; cbn; destruct (flat_map toksof l); auto.
Qed.

Lemma replace_ref_toks l : Forall notR l ->
  replace_ref (flat_map toksof l) = Ok (map rv l).
Proof.
  induction l as [|x l IH]; intros H; auto. inversion H; subst.
  assert (C : forall a, replace_ref (a :: flat_map toksof l) = Ok (a :: map rv l)).
  { intros a. pose proof (second_not_R l H3) as S2.
    specialize (IH H3).
    cbn [replace_ref]. destruct (flat_map toksof l) as [|y [|c r]] eqn:E; rewrite ?S2; rewrite ?IH; auto. }
  destruct x; try apply C.
  subst. cbn [flat_map toksof app map rv]. cbn [replace_ref]. cbn [is_R]. rewrite beqb_refl. cbn [mk_ref bind].
  rewrite IH by auto. auto.
Qed.

Definition flat_pairs (d : dict) : list obj := flat_map (fun kv => [PStr (fst kv); snd kv]) d.

Lemma pair_up_rev d : forall acc, NoDup (map fst d) -> (forall k, In k (map fst d) -> dget k acc = None) ->
  pair_up acc (rev (flat_pairs d)) = Ok (acc ++ rev d).
Proof.
  induction d as [|[k v] d IH] using rev_ind; intros acc N A.
  - cbn. rewrite app_nil_r. auto.
  - unfold flat_pairs. rewrite flat_map_app. cbn [flat_map fst snd app]. rewrite rev_app_distr. cbn [rev app pair_up].
    rewrite map_app in N, A. cbn [map fst] in N, A. apply NoDup_remove in N as [N1 N2]. rewrite app_nil_r in N1, N2.
    rewrite dset_new by (apply A, in_app_iff; cbn; auto).
    rewrite IH; auto.
    + rewrite rev_app_distr. cbn. rewrite <- app_assoc. auto.
    + intros k' I. rewrite dget_app, A by (apply in_app_iff; auto). cbn.
      destruct (beqb k' k) eqn:E; auto. apply beqb_eq in E. subst. contradiction.
Qed.

Lemma map_rv_pairs d : map rv (flat_pairs d) = flat_pairs (map (fun kv => match kv with (k, v) => (k, rv v) end) d).
Proof. unfold flat_pairs. induction d as [|[k v] d IH]; cbn; auto. rewrite IH. auto. Qed.

(* what is known of the serialization of one value *)
Definition selfdel (k : tok) : bool := match k with TString | TArray | TDict => true | _ => false end.
Definition tokk (v : bytes) (k : tok) : Prop :=
  forall rest h cur i, (selfdel k = true \/ sepstart rest) ->
    ntok STbd 1 false h cur i (v ++ rest) = (i, (i + length v)%nat, Some k).
Lemma tokk_tok1 v k : tokk v k -> tok1 v k.
Proof. intros H rest h cur i S. apply H; auto. Qed.

Definition direct (o : obj) (v : bytes) : Prop :=
  match kind_of o with
  | None => True
  | Some k =>
      tokk v k /\ forall f tail, (length v < f)%nat -> (selfdel k = true \/ sepstart tail) ->
        snd (next_token tail 0) <> Some TStream -> pobj f (v ++ tail) 0 = Ok (rv o)
  end.

Definition readback (o : obj) (v : bytes) : Prop :=
  narr v /\ ndict v /\
  (exists cs, 32 :: v = chunks_text cs /\
    Forall2 (fun c x => forall f, (length v < f)%nat -> reads (fun s => pobj f s 0) (snd c) x) cs (toksof o)) /\
  direct o v.

Lemma tok1_of_any v k : tok1any v k -> tok1 v k.
Proof. intros H rest h cur i _. apply H. Qed.
Lemma tokk_of_any v k : tok1any v k -> tokk v k.
Proof. intros H rest h cur i _. apply H. Qed.
Lemma tokk_of_1 v k : selfdel k = false -> tok1 v k -> tokk v k.
Proof. intros Q H rest h cur i [S|S]; [congruence|]. apply H; auto. Qed.

Lemma pobj_S f t start :
  pobj (S f) t start = ltac:(let x := eval cbn [pobj] in (pobj (S f) t start) in exact x).
Proof. reflexivity. Qed.

Lemma pobj_simple f v k tail x : tokk v k -> (selfdel k = true \/ sepstart tail) ->
  match k with TDict | TArray | TComment | TStream => False | _ => True end ->
  dedicated_type v (Some k) = Ok x -> pobj (S f) (v ++ tail) 0 = Ok x.
Proof.
  intros T SD K D. rewrite pobj_S. unfold next_token. cbn [skipn]. rewrite T by auto.
  cbn [plus]. assert (Q : sub (v ++ tail) 0 (length v) = v) by (apply (sub_app [] v tail)).
  rewrite Q. destruct k; auto; contradiction.
Qed.

(* a value read by dedicated_type *)
Lemma readback_simple o v k : kind_of o = Some k ->
  narr v -> ndict v -> tokk v k -> dedicated_type v (Some k) = Ok (rv o) ->
  match k with TDict | TArray | TComment | TStream => False | _ => True end -> readback o v.
Proof.
  intros NR N1 N2 T D K. split; auto. split; auto. split; [exists [(0%nat, v)]; split|].
  - unfold chunks_text. cbn. rewrite app_nil_r. auto.
  - replace (toksof o) with [rv o]. 2:{ destruct o; auto. discriminate. }
    constructor; auto. cbn [snd]. intros f L. exists k. split; [apply tokk_tok1; auto|]. destruct k; auto; contradiction.
  - unfold direct. rewrite NR. split; auto. intros f tail L S _. destruct f as [|f]; [lia|].
    eapply pobj_simple; eauto.
Qed.

(* a container *)
Lemma readback_container o v k : kind_of o = Some k ->
  narr v -> ndict v -> tok1any v k -> (k = TDict \/ k = TArray) ->
  (forall f tail, (length v < f)%nat -> snd (next_token tail 0) <> Some TStream -> pobj f (v ++ tail) 0 = Ok (rv o)) -> readback o v.
Proof.
  intros NR N1 N2 T K P. split; auto. split; auto. split; [exists [(0%nat, v)]; split|].
  - unfold chunks_text. cbn. rewrite app_nil_r. auto.
  - replace (toksof o) with [rv o]. 2:{ destruct o; auto. discriminate. }
    constructor; auto. cbn [snd]. intros f L. exists k. split; [apply tok1_of_any; auto|].
    specialize (P f [] L ltac:(discriminate)). rewrite app_nil_r in P.
    destruct K; subst; auto.
  - unfold direct. rewrite NR. split; auto using tokk_of_any.
Qed.

Lemma not_sep_plain s : Forall (fun c => is_sep c = false) s ->
  Forall (fun c => c <> 40 /\ c <> 41 /\ c <> 91 /\ c <> 93) s /\ Forall (fun c => c <> 60 /\ c <> 62) s.
Proof.
  intros H. split; (eapply Forall_impl; [|exact H]); intros a E; apply is_sep_false in E as [_ E]; unfold delim in E; lia.
Qed.

Lemma dig_not_sep c : isdig c -> is_sep c = false.
Proof. intros H. apply regular_not_sep. unfold isdig, regular, white, delim in *. lia. Qed.

Lemma isdig_value_start c : isdig c -> In c VALUE_START.
Proof. unfold isdig. cbn. lia. Qed.

Lemma dec_shape n : exists c w, dec n = c :: w /\ In c VALUE_START /\ Forall isdig w /\ (c = 45 \/ isdig c).
Proof.
  unfold dec. destruct (n <? 0) eqn:E.
  - exists 45, (dec_nat (- n)). split; auto. split; [cbn; lia|]. split; auto. apply dec_nat_dig. lia.
  - pose proof (dec_nat_dig n ltac:(lia)) as D. pose proof (dec_nat_nonnil n) as N.
    destruct (dec_nat n) as [|c w]; [congruence|]. inversion D; subst. exists c, w.
    split; auto. split; [apply isdig_value_start; auto|]. auto.
Qed.

Lemma dec_notsep n : Forall (fun c => is_sep c = false) (dec n).
Proof.
  destruct (dec_shape n) as (c & w & -> & _ & Hw & Hc). constructor.
  - destruct Hc; [subst; reflexivity|apply dig_not_sep; auto].
  - eapply Forall_impl; [|exact Hw]. apply dig_not_sep.
Qed.

Lemma tok1_dec n : tok1 (dec n) TInteger.
Proof.
  pose proof (dec_notsep n) as NS.
  destruct (dec_shape n) as (c & w & E & V & Hw & Hc). rewrite E in *.
  inversion NS; subst.
  replace TInteger with (if inb 46 (c :: w) then TReal else TInteger); [apply tok1_value; auto|].
  replace (inb 46 (c :: w)) with false; auto. symmetry. apply inb_not_In. intros [I|I].
  - destruct Hc; [lia|]. unfold isdig in H. lia.
  - rewrite Forall_forall in Hw. apply Hw in I. unfold isdig in I. lia.
Qed.

Lemma real_ok_dotted m e : real_ok m e -> dotted_real m e.
Proof.
  intros [[-> ->]|(M & N & n & Hn & B1 & C)].
  - split; [left; auto|auto].
  - split; [right; auto|]. right.
    assert (E : ndigits m = n).
    { unfold ndigits. pose proof (dec_nat_len (Z.abs m) ltac:(lia)) as L1.
      pose proof (val_digits_lt _ (dec_nat_dig (Z.abs m) ltac:(lia))) as L2.
      rewrite dec_nat_val in L2 by lia. set (k := Z.of_nat (length (dec_nat (Z.abs m)))) in *.
      destruct (Z.lt_trichotomy k n) as [L|[L|L]]; auto.
      - assert (10 ^ k <= 10 ^ (n - 1)) by (apply Z.pow_le_mono_r; lia). lia.
      - assert (10 ^ n <= 10 ^ (k - 1)) by (apply Z.pow_le_mono_r; lia). lia. }
    rewrite E. auto.
Qed.

Lemma float_chars m e : dotted_real m e ->
  exists c w, float_repr m e = c :: w /\ In c VALUE_START /\ In 46 (c :: w) /\
     Forall (fun c => is_sep c = false) (c :: w).
Proof.
  intros H. destruct (float_repr_shape m e H) as (ip & fp & ex & e1 & E & H1 & H2 & H3 & H4 & H5 & H6).
  rewrite E.
  assert (D : forall l, Forall isdig l -> Forall (fun c => is_sep c = false) l).
  { intros l F. eapply Forall_impl; [|exact F]. apply dig_not_sep. }
  assert (FX : Forall (fun c => is_sep c = false) ex).
  { destruct H5 as [[-> _]|(sg & ed & -> & S & F & _)]; auto. constructor; auto. constructor; auto.
    destruct S; subst; auto. }
  assert (FA : Forall (fun c => is_sep c = false) (sgn_bytes m ++ ip ++ 46 :: fp ++ ex)).
  { apply Forall_app; split. { unfold sgn_bytes; destruct (m <? 0); auto. }
    apply Forall_app; split; auto. constructor; auto. apply Forall_app; auto. }
  assert (I46 : In 46 (sgn_bytes m ++ ip ++ 46 :: fp ++ ex)).
  { apply in_app_iff; right. apply in_app_iff; right. cbn; auto. }
  assert (V : forall c w, sgn_bytes m ++ ip ++ 46 :: fp ++ ex = c :: w -> In c VALUE_START).
  { intros c w Q. unfold sgn_bytes in Q. destruct (m <? 0).
    - cbn in Q. inversion Q. cbn; lia.
    - destruct ip as [|d ip]; [congruence|]. cbn in Q. inversion Q; subst. inversion H1; subst. apply isdig_value_start; auto. }
  destruct (sgn_bytes m ++ ip ++ 46 :: fp ++ ex) as [|c w] eqn:Q; [cbn in I46; contradiction|].
  exists c, w. split; auto. split; [eapply V; eauto|]. auto.
Qed.

Lemma regular_all_notsep w : Forall regular w -> Forall (fun c => is_sep c = false) w.
Proof. intros H. eapply Forall_impl; [|exact H]. apply regular_not_sep. Qed.

Lemma regular_ascii w : Forall regular w -> is_ascii w = true.
Proof.
  intros H. unfold is_ascii. apply forallb_forall. intros x I. rewrite Forall_forall in H. apply H in I.
  destruct I as [I _]. lia.
Qed.

Lemma name_readback s : name_tok s -> readback (PStr s) s /\ ascii s = Ok s.
Proof.
  intros (r & -> & H).
  assert (A : is_ascii (47 :: r) = true) by (cbn; apply regular_ascii; auto).
  pose proof (regular_all_notsep r H) as NS. destruct (not_sep_plain r NS) as [P1 P2].
  split; [|unfold ascii; rewrite A; auto].
  apply readback_simple with (k := TName); try discriminate; auto.
  - apply narr_plain. constructor; auto. lia.
  - apply ndict_plain. constructor; auto. lia.
  - apply tokk_of_1; auto. apply tok1_name; auto.
  - unfold dedicated_type, ascii. rewrite A. auto.
Qed.

Lemma keyword_readback s : keyword_tok s -> readback (PStr s) s /\ ascii s = Ok s.
Proof.
  intros (a & r & -> & L & H & T & F & R & NS).
  assert (RA : Forall regular (a :: r)).
  { constructor; auto. unfold letter in L. unfold regular, white, delim. lia. }
  assert (A : is_ascii (a :: r) = true) by (apply regular_ascii; auto).
  pose proof (regular_all_notsep _ RA) as NSP. destruct (not_sep_plain _ NSP) as [P1 P2].
  split; [|unfold ascii; rewrite A; auto].
  pose proof (tok1_keyword a r L ltac:(inversion NSP; auto) NS) as TK.
  replace (beqb W_true (a :: r)) with false in TK by (symmetry; apply beqb_neq; auto).
  replace (beqb W_false (a :: r)) with false in TK by (symmetry; apply beqb_neq; auto).
  apply readback_simple with (k := TKeyword); try discriminate; auto using tokk_of_1.
  - cbn. destruct (Z.eq_dec a 47) as [->|]; [unfold letter in L; lia|]. destruct a as [|p|p]; auto. repeat (destruct p as [p|p|]; auto). lia.
  - apply narr_plain; auto.
  - apply ndict_plain; auto.
  - unfold dedicated_type, ascii. rewrite A. auto.
Qed.

Lemma wfv_notR G o : wfx G o -> notR o.
Proof.
  destruct 1; try reflexivity; unfold notR; cbn.
  - destruct H as (r & -> & _). reflexivity.
  - apply beqb_neq. destruct H as (a & r & -> & _ & _ & _ & _ & R & _). exact R.
Qed.

Lemma Forall2_impl {A C} (P Q : A -> C -> Prop) l1 l2 :
  (forall a c, P a c -> Q a c) -> Forall2 P l1 l2 -> Forall2 Q l1 l2.
Proof. intros H. induction 1; constructor; auto. Qed.

(* the list of chunks of several values *)
Lemma chunks_text_app a b : chunks_text (a ++ b) = chunks_text a ++ chunks_text b.
Proof. unfold chunks_text. apply flat_map_app. Qed.

Lemma items_readback l : Forall (fun o => forall depth, exists v, ser depth o = Ok v /\ readback o v) l ->
  exists b cs, ser_items l = Ok b /\ narr b /\ nd32 b /\
    32 :: b = chunks_text cs ++ [32] /\
    Forall2 (fun c x => forall f, (length b < f)%nat -> reads (fun s => pobj f s 0) (snd c) x) cs (flat_map toksof l).
Proof.
  induction 1 as [|o l Ho Hl IH].
  - exists [], []. split; auto. split; [apply narr_nil|]. split; [apply nd32_nil|]. split; auto. constructor.
  - destruct IH as (b & cs & E & N1 & N2 & C & F).
    destruct (Ho 0%nat) as (v & Ev & M1 & M2 & (cs1 & C1 & F1) & _).
    exists (v ++ [32] ++ b), (cs1 ++ cs). cbn [ser_items]. rewrite Ev, E. cbn [bind].
    split; auto. split.
    { apply narr_app; auto. apply narr_app; auto. apply narr_plain. constructor; auto. lia. }
    split. { rewrite app_assoc. apply nd32_app; auto. apply nd32_ndict; auto. }
    split. { rewrite chunks_text_app, <- C1, <- app_assoc, <- C. auto. }
    cbn [flat_map]. apply Forall2_app.
    + eapply Forall2_impl; [|exact F1]. cbn beta. intros c x Q f L. apply Q. rewrite !app_length in L. lia.
    + eapply Forall2_impl; [|exact F]. cbn beta. intros c x Q f L. apply Q. rewrite !app_length in L. lia.
Qed.

Lemma narr_spaces k : narr (repeat 32 k).
Proof. apply narr_plain. apply Forall_forall. intros x I. apply repeat_spec in I. lia. Qed.

Lemma entries_readback depth d :
  Forall (fun kv => name_tok (fst kv) /\ forall depth, exists v, ser depth (snd kv) = Ok v /\ readback (snd kv) v) d ->
  exists b cs, ser_entries depth d = Ok b /\ narr b /\ nd32 b /\
    32 :: b ++ repeat 32 depth = chunks_text cs ++ repeat 32 (S depth) /\
    Forall2 (fun c x => forall f, (length b < f)%nat -> reads (fun s => pobj f s 0) (snd c) x) cs (flat_map toksof (flat_pairs d)).
Proof.
  induction 1 as [|[k o] d [Hk Ho] Hl IH].
  - exists [], []. split; auto. split; [apply narr_nil|]. split; [apply nd32_nil|]. split; auto. constructor.
  - cbn [fst snd] in Hk, Ho.
    destruct IH as (b & cs & E & N1 & N2 & C & F).
    destruct (Ho (S depth)) as (v & Ev & M1 & M2 & (cs1 & C1 & F1) & _).
    destruct (name_readback k Hk) as [(K1 & K2 & (csk & Ck & Fk) & _) Ak].
    exists (repeat 32 depth ++ k ++ [32] ++ v ++ [32] ++ b), ((depth, k) :: cs1 ++ cs).
    change (ser_entries depth ((k, o) :: d)) with
      (let* value := ser (S depth) o in let* name := ascii k in let* tl := ser_entries depth d in
       Ok (repeat 32 depth ++ name ++ [32] ++ value ++ [32] ++ tl)).
    rewrite Ev, E, Ak. cbn [bind].
    assert (NS : narr [32]) by (apply narr_plain; constructor; auto; lia).
    split; auto. split.
    { repeat (apply narr_app; auto using narr_spaces). }
    split. { apply nd32_app; [apply nd32_spaces|]. rewrite app_assoc. apply nd32_app; [apply nd32_ndict; auto|].
             rewrite app_assoc. apply nd32_app; [apply nd32_ndict; auto|]. auto. }
    split.
    { change (chunks_text ((depth, k) :: cs1 ++ cs)) with (chunk_text (depth, k) ++ chunks_text (cs1 ++ cs)).
      rewrite chunks_text_app, <- C1, <- !app_assoc. cbn [app]. rewrite <- C.
      unfold chunk_text. cbn [fst snd repeat app]. rewrite <- !app_assoc. cbn [app]. auto. }
    change (flat_map toksof (flat_pairs ((k, o) :: d))) with (PStr k :: toksof o ++ flat_map toksof (flat_pairs d)).
    constructor.
    + cbn [snd]. intros f L. destruct Hk as (r & -> & Hr).
      exists TName. split; [apply tok1_name, regular_all_notsep; auto|].
      unfold dedicated_type. rewrite Ak. auto.
    + apply Forall2_app.
      * eapply Forall2_impl; [|exact F1]. cbn beta. intros c x Q f L. apply Q. rewrite !app_length in L. lia.
      * eapply Forall2_impl; [|exact F]. cbn beta. intros c x Q f L. apply Q. rewrite !app_length in L. lia.
Qed.

Lemma Forall2_length' {A C} (R : A -> C -> Prop) l1 l2 : Forall2 R l1 l2 -> length l1 = length l2.
Proof. induction 1; cbn; auto. Qed.

Lemma chunks_text_length cs : (length cs <= length (chunks_text cs))%nat.
Proof.
  induction cs as [|[d v] cs IH]; auto. cbn [chunks_text flat_map]. unfold chunk_text at 1.
  rewrite !app_length, repeat_length. fold (chunks_text cs). cbn [length fst snd]. lia.
Qed.

(* an array, at any position *)
Lemma pobj_array b cs l f pre tail :
  narr b -> 32 :: b = chunks_text cs ++ [32] ->
  Forall2 (fun c x => reads (fun s => pobj f s 0) (snd c) x) cs (flat_map toksof l) ->
  replace_ref (flat_map toksof l) = Ok (map rv l) ->
  pobj (S f) (pre ++ ([91; 32] ++ b ++ [93]) ++ tail) (length pre) = Ok (PList (map rv l)).
Proof.
  intros N C F R. rewrite pobj_S.
  replace (length pre) with (length pre + 0)%nat at 1 by lia. rewrite next_token_app.
  assert (T : next_token (([91; 32] ++ b ++ [93]) ++ tail) 0 = (0%nat, length ([91; 32] ++ b ++ [93]), Some TArray)).
  { unfold next_token. cbn [skipn].
    change ([91; 32] ++ b ++ [93]) with (91 :: (32 :: b) ++ [93]).
    apply (tok1any_array (32 :: b)). apply (narr_app [32]); auto. apply narr_plain. constructor; auto. lia. }
  rewrite T. cbn [shift3].
  assert (I : items_loop (fun s => pobj f s 0) false (pre ++ ([91; 32] ++ b ++ [93]) ++ tail)
                (length pre + length ([91; 32] ++ b ++ [93]))
                (S (length (pre ++ ([91; 32] ++ b ++ [93]) ++ tail))) (length pre + 1)
              = Ok (flat_map toksof l)).
  { pose proof (f_equal (@length Z) C) as CL. rewrite app_length in CL. cbn [length] in CL.
    pose proof (chunks_text_length cs) as CC.
    eapply (items_chunks _ false _ _ cs _ _ 0 tail); [exact F| | |].
    - rewrite skipn_app_plus.
      change (skipn 1 (([91; 32] ++ b ++ [93]) ++ tail)) with ((32 :: b ++ [93]) ++ tail).
      change (32 :: b ++ [93]) with ((32 :: b) ++ [93]). rewrite C, <- !app_assoc. auto.
    - cbn [closing length]. rewrite !app_length. cbn [length]. lia.
    - rewrite !app_length. cbn [length]. lia. }
  rewrite I. cbn [bind]. rewrite R. auto.
Qed.

(* a dictionary that no stream follows, at any position *)
Lemma pobj_dict_gen b cs d depth f pre tail :
  nd32 b -> 32 :: b ++ repeat 32 depth = chunks_text cs ++ repeat 32 (S depth) ->
  Forall2 (fun c x => reads (fun s => pobj f s 0) (snd c) x) cs (flat_map toksof (flat_pairs d)) ->
  replace_ref (flat_map toksof (flat_pairs d)) = Ok (map rv (flat_pairs d)) ->
  snd (next_token tail 0) <> Some TStream ->
  pobj (S f) (pre ++ ([60; 60; 32] ++ b ++ repeat 32 depth ++ [62; 62]) ++ tail) (length pre)
  = let* d0 := pair_up [] (rev (map rv (flat_pairs d))) in Ok (PDict d0).
Proof.
  intros N C F R TS. rewrite pobj_S.
  set (v := [60; 60; 32] ++ b ++ repeat 32 depth ++ [62; 62]).
  assert (VE : v = [60; 60] ++ (32 :: (b ++ repeat 32 depth)) ++ [62; 62]).
  { unfold v. cbn [app]. rewrite <- app_assoc. auto. }
  replace (length pre) with (length pre + 0)%nat at 1 by lia. rewrite next_token_app.
  assert (T : next_token (v ++ tail) 0 = (0%nat, length v, Some TDict)).
  { unfold next_token. cbn [skipn]. rewrite VE. apply tok1any_dict.
    apply nd32_app; auto. apply nd32_spaces. }
  rewrite T. cbn [shift3].
  assert (T2 : next_token (pre ++ v ++ tail) (length pre + length v) = shift3 (length pre) (shift3 (length v) (next_token tail 0))).
  { rewrite next_token_app. replace (length v) with (length v + 0)%nat at 1 by lia. rewrite next_token_app. auto. }
  rewrite T2. destruct (next_token tail 0) as [[h2 j2] t2]. cbn [shift3]. cbn [snd] in TS.
  assert (I : items_loop (fun s => pobj f s 0) true (pre ++ v ++ tail)
                (length pre + length v)
                (S (length (pre ++ v ++ tail))) (length pre + 2)
              = Ok (flat_map toksof (flat_pairs d))).
  { pose proof (f_equal (@length Z) C) as CL. rewrite app_length in CL. cbn [length] in CL.
    rewrite app_length, !repeat_length in CL.
    pose proof (chunks_text_length cs) as CC.
    assert (VL : length v = (length b + depth + 5)%nat).
    { unfold v. rewrite !app_length, repeat_length. cbn [length]. lia. }
    eapply (items_chunks _ true _ _ cs _ _ depth tail); [exact F| | |].
    - rewrite skipn_app_plus. rewrite VE.
      change (skipn 2 (([60; 60] ++ (32 :: b ++ repeat 32 depth) ++ [62; 62]) ++ tail))
        with (((32 :: b ++ repeat 32 depth) ++ [62; 62]) ++ tail).
      rewrite C, <- !app_assoc. auto.
    - cbn [closing length]. lia.
    - rewrite !app_length. lia. }
  replace (match t2 with Some TStream => _ | _ => _ end) with
    (let* l := Ok (flat_map toksof (flat_pairs d)) in let* l' := replace_ref l in let* d0 := pair_up [] (rev l') in Ok (PDict d0)).
  2:{ rewrite <- I. destruct t2 as [[]|]; try reflexivity. congruence. }
  cbn [bind]. rewrite R. auto.
Qed.

Lemma pobj_dict b cs d depth f pre tail :
  nd32 b -> 32 :: b ++ repeat 32 depth = chunks_text cs ++ repeat 32 (S depth) ->
  Forall2 (fun c x => reads (fun s => pobj f s 0) (snd c) x) cs (flat_map toksof (flat_pairs d)) ->
  replace_ref (flat_map toksof (flat_pairs d)) = Ok (map rv (flat_pairs d)) ->
  NoDup (map fst d) ->
  snd (next_token tail 0) <> Some TStream ->
  pobj (S f) (pre ++ ([60; 60; 32] ++ b ++ repeat 32 depth ++ [62; 62]) ++ tail) (length pre) = Ok (rv (PDict d)).
Proof.
  intros N C F R ND TS. erewrite pobj_dict_gen by eauto.
  rewrite map_rv_pairs, pair_up_rev.
  - reflexivity.
  - replace (map fst (map (fun kv : bytes * obj => match kv with (k, v0) => (k, rv v0) end) d)) with (map fst d); auto.
    rewrite map_map. apply map_ext. intros [k o]; auto.
  - reflexivity.
Qed.

Theorem wfv_readback G o : wfx G o -> forall depth, exists v, ser depth o = Ok v /\ readback o v.
Proof.
  induction o as [|b|z|m e|s|s|g n|l IH|d IH|d s e IH] using obj_ind'; intros W depth.
  - inversion W.
  - exists (if b then W_true else W_false). split; auto.
    destruct b.
    + apply readback_simple with (k := TTrue); try discriminate; auto.
      * apply narr_plain. repeat constructor; lia.
      * apply ndict_plain. repeat constructor; lia.
      * apply tokk_of_1; auto. intros rest h cur i SS. apply (tok1_keyword 116 [114; 117; 101]); auto.
        -- unfold letter; lia.
        -- intros [r Q]. discriminate.
    + apply readback_simple with (k := TFalse); try discriminate; auto.
      * apply narr_plain. repeat constructor; lia.
      * apply ndict_plain. repeat constructor; lia.
      * apply tokk_of_1; auto. intros rest h cur i SS. apply (tok1_keyword 102 [97; 108; 115; 101]); auto.
        -- unfold letter; lia.
        -- intros [r Q]. discriminate.
  - exists (dec z). split; auto. destruct (not_sep_plain _ (dec_notsep z)).
    apply readback_simple with (k := TInteger); try discriminate; auto using narr_plain, ndict_plain, tok1_dec, tokk_of_1.
    unfold dedicated_type. rewrite py_int_dec. auto.
  - exists (float_repr m e). split; auto. inversion W; subst. apply real_ok_dotted in H0.
    destruct (float_chars m e H0) as (c & w & E & V & I & NS).
    destruct (not_sep_plain _ NS).
    apply readback_simple with (k := TReal); try discriminate; [auto| | | | | ].
    + rewrite E. apply narr_plain; auto.
    + rewrite E. apply ndict_plain; auto.
    + rewrite E. inversion NS; subst. pose proof (tok1_value c w V H5) as T.
      replace (inb 46 (c :: w)) with true in T by (symmetry; apply inb_In; auto). apply tokk_of_1; auto.
    + unfold dedicated_type. rewrite py_float_repr by auto. auto.
    + constructor.
  - inversion W; subst.
    + destruct (name_readback s H0) as [R A]. exists s. split; auto.
    + destruct (keyword_readback s H0) as [R A]. exists s. split; auto.
  - exists s. split; auto. inversion W; subst.
    + apply readback_simple with (k := TString); try discriminate; auto.
      * apply narr_lit; auto.
      * apply ndict_nodbl. destruct H1 as (A & C & _). apply nodbl_occurs; auto.
      * apply tokk_of_any, tok1any_lit; auto.
    + apply readback_simple with (k := TString); try discriminate; auto.
      * apply narr_hex; auto.
      * apply ndict_nodbl, nodbl_hex; auto.
      * apply tokk_of_any, tok1any_hex; auto.
  - inversion W; subst. exists (dec n ++ [32] ++ dec g ++ [32] ++ W_R). split; auto.
    destruct (not_sep_plain _ (dec_notsep n)) as [P1 P2].
    destruct (not_sep_plain _ (dec_notsep g)) as [P3 P4].
    assert (Q1 : Forall (fun c => c <> 40 /\ c <> 41 /\ c <> 91 /\ c <> 93) (dec n ++ [32] ++ dec g ++ [32] ++ W_R)).
    { apply Forall_app; split; auto. apply Forall_app; split; [constructor; auto; lia|].
      apply Forall_app; split; auto. change ([32] ++ W_R) with [32; 82].
      repeat (apply Forall_cons; [lia|]); apply Forall_nil. }
    assert (Q2 : Forall (fun c => c <> 60 /\ c <> 62) (dec n ++ [32] ++ dec g ++ [32] ++ W_R)).
    { apply Forall_app; split; auto. apply Forall_app; split; [constructor; auto; lia|].
      apply Forall_app; split; auto. change ([32] ++ W_R) with [32; 82].
      repeat (apply Forall_cons; [lia|]); apply Forall_nil. }
    split; [apply narr_plain; auto|]. split; [apply ndict_plain; auto|].
    split; [|exact Logic.I]. exists [(0%nat, dec n); (0%nat, dec g); (0%nat, W_R)]. split.
    + unfold chunks_text. cbn [flat_map]. unfold chunk_text. cbn [fst snd repeat]. rewrite app_nil_r. cbn [app]. auto.
    + cbn [toksof]. repeat constructor; cbn [snd]; intros f _.
      * exists TInteger. split; [apply tok1_dec|]. unfold dedicated_type. rewrite py_int_dec. auto.
      * exists TInteger. split; [apply tok1_dec|]. unfold dedicated_type. rewrite py_int_dec. auto.
      * exists TKeyword. split; [|reflexivity].
        intros rest h cur i SS. apply (tok1_keyword 82 []); auto.
        -- unfold letter; lia.
        -- intros [r Q]. discriminate.
  - assert (WL : Forall (wfx G) l) by (inversion W; auto).
    assert (RB : Forall (fun o => forall depth, exists v, ser depth o = Ok v /\ readback o v) l).
    { rewrite Forall_forall in *. auto. }
    destruct (items_readback l RB) as (b & cs & E & N1 & N2 & C & F).
    exists ([91; 32] ++ b ++ [93]). rewrite ser_list, E. split; auto.
    assert (NA : narr (32 :: b)).
    { apply (narr_app [32]); auto. apply narr_plain. constructor; auto; lia. }
    apply readback_container with (k := TArray); try discriminate; auto.
    + apply (narr_bracket (32 :: b)); auto.
    + intros rest n tia h cur i Hn.
      assert (ND : nd32 ([91; 32] ++ b)).
      { apply nd32_app; auto. apply (nd32_ndict [91]). apply ndict_plain. constructor; auto; lia. }
      rewrite (app_assoc [91; 32]). rewrite <- app_assoc. rewrite ND by auto.
      rewrite (ndict_plain [93]) by (auto; constructor; auto; lia).
      rewrite !app_length. cbn [length]. f_equal. lia.
    + apply (tok1any_array (32 :: b)); auto.
    + intros f tail L _. destruct f as [|f]; [lia|].
      pose proof (pobj_array b cs l f [] tail) as Q. cbn [length app] in Q.
      cbn [app rv]. rewrite Q; auto.
      * eapply Forall2_impl; [|exact F]. cbn beta. intros c x H. apply H.
        rewrite !app_length in L. cbn [length] in L. lia.
      * apply replace_ref_toks; (eapply Forall_impl; [|exact WL]; apply wfv_notR).
  - assert (WD : NoDup (map fst d) /\ Forall (fun kv => name_tok (fst kv) /\ wfx G (snd kv)) d) by (inversion W; auto).
    destruct WD as [ND WD].
    assert (RB : Forall (fun kv => name_tok (fst kv) /\ forall depth, exists v, ser depth (snd kv) = Ok v /\ readback (snd kv) v) d).
    { rewrite Forall_forall in *. intros kv I. specialize (WD kv I). destruct WD. split; auto. }
    destruct (entries_readback depth d RB) as (b & cs & E & N1 & N2 & C & F).
    exists ([60; 60; 32] ++ b ++ repeat 32 depth ++ [62; 62]). rewrite ser_dict, E. split; auto.
    assert (VE : [60; 60; 32] ++ b ++ repeat 32 depth ++ [62; 62] = [60; 60] ++ (32 :: (b ++ repeat 32 depth)) ++ [62; 62]).
    { cbn [app]. rewrite <- app_assoc. auto. }
    assert (N3 : nd32 (b ++ repeat 32 depth)) by (apply nd32_app; auto using nd32_spaces).
    assert (WP : Forall (wfx G) (flat_pairs d)).
    { unfold flat_pairs. apply Forall_flat_map. eapply Forall_impl; [|exact WD]. intros kv [K1 K2].
      constructor; [apply wf_name; auto|]. constructor; auto. }
    apply readback_container with (k := TDict); try discriminate; auto.
    + apply narr_app; [apply narr_plain; repeat constructor; lia|]. apply narr_app; auto.
      apply narr_app; [apply narr_spaces|apply narr_plain; repeat constructor; lia].
    + rewrite VE. apply ndict_dict; auto.
    + rewrite VE. apply tok1any_dict; auto.
    + intros f tail L TS. destruct f as [|f]; [lia|].
      pose proof (pobj_dict b cs d depth f [] tail) as Q. cbn [length] in Q.
      cbn [app] in Q |- *. rewrite Q; auto.
      * eapply Forall2_impl; [|exact F]. cbn beta. intros c x H. apply H.
        rewrite !app_length in L. cbn [length] in L. lia.
      * apply replace_ref_toks; (eapply Forall_impl; [|exact WP]; apply wfv_notR).
  - inversion W.
Qed.

End WithZlib.
