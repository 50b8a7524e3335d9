(* Objects as any program may write them: lemmas behind C99 *)
From Coq Require Import String ZifyBool ZifyNat.
From Verif Require Import PyBase Model_Filters Model_Objects Spec_Objects Spec_Syntax
  Facts_Base Facts_Token Facts_Obj Facts_Ser Facts_Parse Facts_Top.

(* ---------- numbers ---------- *)
Lemma sign_split sg t r : sign sg t -> match r with [] => True | c :: _ => c <> 43 /\ c <> 45 end ->
  split_sign (t ++ r) = (sg, r).
Proof.
  intros S N. inversion S; subst; cbn [app split_sign]; try reflexivity.
  destruct r as [|c r]; [reflexivity|]. destruct N. unfold split_sign. replace (c =? 45) with false by lia. replace (c =? 43) with false by lia. reflexivity.
Qed.

Lemma sign_chars sg t : sign sg t -> Forall (fun c => c = 43 \/ c = 45) t.
Proof. intros S. inversion S; subst; repeat constructor; lia. Qed.

Lemma number_nows s : Forall (fun c => c = 43 \/ c = 45 \/ c = 46 \/ isdig c) s -> Forall (fun c => ~ In c WS) s.
Proof. intros F. eapply Forall_impl; [|exact F]. intros c H. unfold isdig in H. cbn. lia. Qed.

Lemma number_notsep s : Forall (fun c => c = 43 \/ c = 45 \/ c = 46 \/ isdig c) s -> Forall (fun c => is_sep c = false) s.
Proof.
  intros F. eapply Forall_impl; [|exact F]. intros c H. apply regular_not_sep. unfold isdig in H. unfold regular, white, delim. lia.
Qed.

Lemma number_start c : c = 43 \/ c = 45 \/ c = 46 \/ isdig c -> In c VALUE_START.
Proof. unfold isdig. cbn. lia. Qed.

Lemma digs_number s : Forall decdigit s -> Forall (fun c => c = 43 \/ c = 45 \/ c = 46 \/ isdig c) s.
Proof. intros F. eapply Forall_impl; [|exact F]. unfold decdigit, isdig. tauto. Qed.
Lemma sign_number sg s : sign sg s -> Forall (fun c => c = 43 \/ c = 45 \/ c = 46 \/ isdig c) s.
Proof. intros F. eapply Forall_impl; [|exact (sign_chars _ _ F)]. cbn. tauto. Qed.

Lemma int_read z s : int_text z s -> py_int 10 s = Some z /\ tok1 s TInteger /\ Forall (fun c => is_sep c = false) s /\ s <> [].
Proof.
  intros (sg & t & ds & -> & S & N & F & ->).
  assert (NU : Forall (fun c => c = 43 \/ c = 45 \/ c = 46 \/ isdig c) (t ++ ds)).
  { apply Forall_app. split; [eapply sign_number; eauto|apply digs_number; auto]. }
  assert (ND : t ++ ds <> []) by (destruct t; [exact N|discriminate]).
  split; [|split; [|split]]; auto.
  - unfold py_int. rewrite strip_id by (apply number_nows; auto). rewrite (sign_split sg).
    + destruct ds as [|c r]; [congruence|]. inversion F as [|? ? HC F']; subst. unfold decdigit in HC.
      assert (DV : dval c = c - 48) by (unfold dval; replace ((48 <=? c) && (c <=? 57)) with true by lia; reflexivity).
      rewrite DV. replace (c - 48 <? 10) with true by lia. rewrite int_digits_digs by exact F'. cbn [option_map]. reflexivity.
    + auto.
    + destruct ds as [|c r]; auto. inversion F as [|? ? HC F']; subst. unfold decdigit in HC. lia.
  - pose proof (number_notsep _ NU) as NS. destruct (t ++ ds) as [|c w] eqn:E; [congruence|].
    inversion NU; subst. inversion NS; subst.
    replace TInteger with (if inb 46 (c :: w) then TReal else TInteger); [apply tok1_value; auto using number_start|].
    replace (inb 46 (c :: w)) with false; auto. symmetry. apply inb_not_In. rewrite <- E. intros I.
    apply in_app_or in I as [I|I].
    + pose proof (sign_chars _ _ S) as SC. rewrite Forall_forall in SC. apply SC in I. lia.
    + rewrite Forall_forall in F. apply F in I. unfold decdigit in I. lia.
  - apply number_notsep; auto.
Qed.

Lemma real_read m e s : real_text m e s -> py_float s = Some (m, e) /\ tok1 s TReal /\ Forall (fun c => is_sep c = false) s /\ s <> [].
Proof.
  intros (sg & t & ip & fp & k & -> & S & N & F & K & E & V & NF).
  pose proof F as F0. apply Forall_app in F0 as [FI FF].
  assert (NU : Forall (fun c => c = 43 \/ c = 45 \/ c = 46 \/ isdig c) (t ++ ip ++ [46] ++ fp)).
  { apply Forall_app. split; [eapply sign_number; eauto|]. apply Forall_app. split; [apply digs_number; auto|].
    apply Forall_app. split; [|apply digs_number; auto]. constructor; auto. }
  split; [|split; [|split]].
  - unfold py_float. rewrite strip_id by (apply number_nows; auto). rewrite (sign_split sg).
    2: auto.
    2:{ destruct ip as [|c ip]; cbn [app]; [lia|]. inversion FI as [|? ? HC ?]; subst. unfold decdigit in HC. lia. }
    rewrite take_digits_app by (auto; cbn; unfold isdig; lia). cbn [app]. change (46 =? 46) with true.
    pose proof (take_digits_app fp [] FF Logic.I) as T2. rewrite app_nil_r in T2. rewrite T2.
    destruct (ip ++ fp) as [|c r] eqn:EA; [congruence|]. rewrite <- EA. f_equal.
    change (val_digits (ip ++ fp)) with (decimal (ip ++ fp)). rewrite EA, V. destruct NF as [[-> ->]|NF].
    + rewrite Z.mul_0_l. reflexivity.
    + assert (m <> 0) by (intros ->; cbn in NF; lia).
      rewrite <- (Z2Nat.id k) by lia. rewrite mk_dec_pow by auto. f_equal. lia.
  - pose proof (number_notsep _ NU) as NS. destruct (t ++ ip ++ [46] ++ fp) as [|c w] eqn:EE; [destruct t; [destruct ip|]; discriminate|].
    inversion NU; subst. inversion NS; subst.
    replace TReal with (if inb 46 (c :: w) then TReal else TInteger); [apply tok1_value; auto using number_start|].
    replace (inb 46 (c :: w)) with true; auto. symmetry. apply inb_In. rewrite <- EE.
    apply in_or_app. right. apply in_or_app. right. left. reflexivity.
  - apply number_notsep; auto.
  - destruct t; [destruct ip|]; discriminate.
Qed.

(* ---------- scanning a dictionary ---------- *)
(* the scan goes through v; v must not be followed by '>' unless e *)
Definition nohead (c : Z) (s : bytes) : Prop := match s with [] => True | d :: _ => d <> c end.
Definition nd (e : bool) (v : bytes) : Prop :=
  forall rest n tia h cur i, 0 < n -> e = true \/ nohead 62 rest ->
    ntok SDict n tia h cur i (v ++ rest) = ntok SDict n tia h cur (i + length v) rest.

Lemma nd_weak v : nd true v -> forall e, nd e v.
Proof. intros H e rest n tia h cur i N _. apply H; auto. Qed.

Lemma nd_nil e : nd e [].
Proof. intros rest n tia h cur i N _. cbn [app length]. f_equal; lia. Qed.

Lemma nd_app e1 e2 a b : nd e1 a -> nd e2 b -> e1 = true \/ (b <> [] /\ nohead 62 b) -> nd e2 (a ++ b).
Proof.
  intros Ha Hb C rest n tia h cur i N R. rewrite <- app_assoc, Ha; auto.
  - rewrite Hb, app_length by auto. f_equal. lia.
  - destruct C as [C|[C1 C2]]; auto. right. destruct b; [congruence|exact C2].
Qed.

Lemma nd_app_end a b : nd false a -> nd false b -> nohead 62 b -> nd false (a ++ b).
Proof.
  intros Ha Hb C rest n tia h cur i N R. rewrite <- app_assoc, Ha; auto.
  - rewrite Hb, app_length by auto. f_equal. lia.
  - right. destruct b; [|exact C]. destruct R as [R|R]; [discriminate|exact R].
Qed.

Lemma nd_plain s : Forall (fun c => c <> 60 /\ c <> 62) s -> nd true s.
Proof.
  induction 1 as [|c s (H1 & H2) HS IH]; [apply nd_nil|].
  intros rest n tia h cur i N _. cbn [app length]. nstep.
  replace (c =? 60) with false by lia. replace (c =? 62) with false by lia. cbn [andb orb].
  replace (n =? 0) with false by lia. rewrite IH by auto. f_equal. lia.
Qed.

(* no doubled angle bracket inside: the last character decides *)
Lemma nd_nodbl s : nodbl s = true -> nd false s \/ exists a, s = a ++ [60].
Proof.
  induction s as [|c r IH]; intros H; [left; apply nd_nil|].
  destruct r as [|d r].
  - destruct (Z.eq_dec c 60) as [->|N6]; [right; exists []; reflexivity|]. left.
    intros rest n tia h cur i N R. cbn [app length]. nstep. replace (c =? 60) with false by lia. cbn [andb orb].
    replace (match rest with d :: _ => d =? 62 | [] => false end) with false.
    2:{ destruct R as [R|R]; [discriminate|]. destruct rest as [|x rest]; auto. cbn in R. lia. }
    rewrite andb_false_r. replace (n =? 0) with false by lia. f_equal. lia.
  - change (nodbl (c :: d :: r)) with (negb ((c =? 60) && (d =? 60) || (c =? 62) && (d =? 62)) && nodbl (d :: r)) in H.
    apply andb_prop in H as [H1 H2]. destruct (IH H2) as [Q|(a & Q)]; [left|right; exists (c :: a); rewrite Q; reflexivity].
    intros rest n tia h cur i N R. change ((c :: d :: r) ++ rest) with (c :: d :: (r ++ rest)). nstep.
    replace ((c =? 60) && (d =? 60)) with false by lia. replace ((c =? 62) && (d =? 62)) with false by lia. cbn [orb].
    replace (n =? 0) with false by lia. change (d :: r ++ rest) with ((d :: r) ++ rest). rewrite Q by auto.
    cbn [length]. f_equal. lia.
Qed.

Lemma nd_hex s : hex_tok s -> nd false s.
Proof.
  intros H. destruct (nd_nodbl s (nodbl_hex s H)) as [N|(a & E)]; auto.
  destruct H as (b & -> & _). change (60 :: b ++ [62]) with ((60 :: b) ++ [62]) in E. apply app_inj_tail in E as [_ E]. discriminate.
Qed.

Lemma nd_lit s : lit_tok s -> embeddable s -> nd true s.
Proof.
  intros (b & E & _) (A & C & _). pose proof (nodbl_occurs _ A C) as ND.
  assert (NB : nodbl (40 :: b) = true).
  { assert (G : forall x y, nodbl (x ++ y) = true -> nodbl x = true).
    { clear. induction x as [|c x IH]; intros y H; auto. destruct x as [|d x]; auto.
      change (nodbl (c :: d :: (x ++ y)) = true) in H.
      change (nodbl (c :: d :: x)) with (negb ((c =? 60) && (d =? 60) || (c =? 62) && (d =? 62)) && nodbl (d :: x)).
      change (nodbl (c :: d :: x ++ y)) with (negb ((c =? 60) && (d =? 60) || (c =? 62) && (d =? 62)) && nodbl (d :: x ++ y)) in H.
      apply andb_prop in H as [H1 H2]. rewrite H1. apply (IH y). exact H2. }
    apply (G _ [41]). rewrite E in ND. exact ND. }
  rewrite E. change (40 :: b ++ [41]) with ((40 :: b) ++ [41]).
  assert (P : nd true [41]) by (apply nd_plain; repeat constructor; lia).
  destruct (nd_nodbl _ NB) as [N|(a & EA)].
  - eapply nd_app; [exact N|exact P|]. right. split; [discriminate|cbn; lia].
  - (* the text ends with a single '<' before the parenthesis *)
    intros rest n tia h cur i Hn _. rewrite EA.
    assert (NA : nodbl a = true /\ (a = [] \/ exists x y, a = x ++ [y] /\ y <> 60)).
    { rewrite EA in NB. clear - NB. induction a as [|c a IH]; [split; auto|].
      destruct a as [|d a].
      - split; auto. right. exists [], c. split; auto. cbn in NB. lia.
      - change (nodbl (c :: d :: (a ++ [60])) = true) in NB.
        change (nodbl (c :: d :: a ++ [60])) with (negb ((c =? 60) && (d =? 60) || (c =? 62) && (d =? 62)) && nodbl (d :: a ++ [60])) in NB.
        apply andb_prop in NB as [H1 H2]. destruct (IH H2) as [I1 [I2|(x & y & I2 & I3)]]; [discriminate|]. split.
        + change (nodbl (c :: d :: a)) with (negb ((c =? 60) && (d =? 60) || (c =? 62) && (d =? 62)) && nodbl (d :: a)).
          rewrite H1. exact I1.
        + right. exists (c :: x), y. rewrite I2. split; auto. }
    destruct NA as [NA LA].
    assert (Q : nd false a).
    { destruct (nd_nodbl _ NA) as [Q|(a' & ->)]; auto. destruct LA as [LA|(x & y & LA & NY)]; [destruct a'; discriminate|].
      apply app_inj_tail in LA as [_ LA]. congruence. }
    rewrite <- !app_assoc. rewrite Q by (auto; right; cbn; lia). cbn [app]. nstep. cbn [Z.eqb Pos.eqb andb orb].
    replace (n =? 0) with false by lia. nstep. cbn [Z.eqb Pos.eqb andb orb]. replace (n =? 0) with false by lia.
    rewrite !app_length. cbn [length]. f_equal. lia.
Qed.

Lemma nd_brackets e s : nd e s -> nd true (91 :: s ++ [93]).
Proof.
  intros H. change (91 :: s ++ [93]) with ([91] ++ s ++ [93]).
  apply (nd_app true); [apply nd_plain; repeat constructor; lia| |auto].
  apply (nd_app e); [exact H|apply nd_plain; repeat constructor; lia|]. right. split; [discriminate|cbn; lia].
Qed.

Lemma nd_dict s : nd true s -> nd true ([60; 60] ++ s ++ [62; 62]).
Proof.
  intros H rest n tia h cur i N _. cbn [app]. rewrite <- app_assoc. cbn [app].
  nstep. cbn [Z.eqb Pos.eqb andb orb]. replace (n + 1 =? 0) with false by lia. rewrite H by (auto; lia).
  nstep. cbn [Z.eqb Pos.eqb andb orb]. replace (n + 1 - 1) with n by lia. replace (n =? 0) with false by lia.
  cbn [length]. rewrite app_length. cbn [length]. f_equal. lia.
Qed.

Lemma dict_token s : nd true s -> nohead 60 s -> tok1any ([60; 60] ++ s ++ [62; 62]) TDict.
Proof.
  intros H NH rest h cur i. cbn [app]. rewrite <- app_assoc. cbn [app].
  nstep. cbn [Z.eqb Pos.eqb andb orb]. nstep.
  replace (match s ++ 62 :: 62 :: rest with d :: _ => d =? 60 | [] => false end) with false
    by (destruct s as [|c s]; [reflexivity|cbn in *; lia]).
  cbn [Z.eqb Pos.eqb andb orb]. rewrite H by (auto; lia).
  nstep. cbn [Z.eqb Pos.eqb andb orb]. cbn [length]. rewrite app_length. cbn [length]. p3.
Qed.

(* ---------- gaps ---------- *)
Lemma white_plain c : white c -> (c <> 40 /\ c <> 41 /\ c <> 91 /\ c <> 93) /\ (c <> 60 /\ c <> 62).
Proof. unfold white. lia. Qed.

Lemma gap_plain g : gap g -> Forall (fun c => c <> 40 /\ c <> 41 /\ c <> 91 /\ c <> 93) g /\ Forall (fun c => c <> 60 /\ c <> 62) g.
Proof.
  induction 1 as [|c s W G [I1 I2]|txt c s F C G [I1 I2]]; [split; constructor| |].
  - destruct (white_plain c W). split; constructor; auto.
  - assert (FT : Forall (fun c => c <> 40 /\ c <> 41 /\ c <> 91 /\ c <> 93) txt /\ Forall (fun c => c <> 60 /\ c <> 62) txt).
    { split; (eapply Forall_impl; [|exact F]); intros a [N _]; cbn in N; lia. }
    destruct FT. split; (constructor; [lia|]); (apply Forall_app; split; auto); constructor; auto; lia.
Qed.

Lemma gap_head g : gap g -> g = [] \/ exists c r, g = c :: r /\ (white c \/ c = 37).
Proof. intros G. inversion G; subst; [left; auto| |]; right; eauto. Qed.

Lemma gap_sep g r : gap g -> g <> [] -> sepstart (g ++ r).
Proof.
  intros G N. destruct (gap_head g G) as [E|(c & q & -> & C)]; [congruence|]. exists c, (q ++ r). split; auto.
  apply is_sep_iff. destruct C as [C| ->]; auto. right. unfold delim. lia.
Qed.

Lemma comment_token txt c r : Forall (fun x => ~ In x (B "()<>[]") /\ x <> 10 /\ x <> 13) txt -> c = 10 \/ c = 13 ->
  forall h cur i, ntok STbd 1 false h cur i (37 :: txt ++ c :: r) = (i, (i + S (length txt))%nat, Some TComment).
Proof.
  intros F C h cur i. nstep. cbn [Z.eqb Pos.eqb andb]. rewrite no_stream by discriminate.
  change (inb 37 VALUE_START) with false. change (inb 37 ALPHA) with false. cbv match.
  generalize (37 :: txt ++ c :: r) as cu. replace (i + S (length txt))%nat with (S i + length txt)%nat by lia. generalize (S i) as j.
  induction F as [|x txt (_ & X1 & X2) F IH]; intros j cu.
  - cbn [app length]. nstep. replace (inb c EOL) with true by (symmetry; apply inb_In; cbn; lia). p3.
  - cbn [app length]. nstep. replace (inb x EOL) with false by (symmetry; apply inb_not_In; cbn; lia). rewrite IH. p3.
Qed.

(* the start found before has no influence on what is found *)
Lemma tbd_irrelevant x h cur h' cur' i :
  let '(a, b, k) := ntok STbd 1 false h cur i x in let '(a', b', k') := ntok STbd 1 false h' cur' i x in
  b = b' /\ k = k' /\ (k <> None -> a = a').
Proof.
  destruct x as [|c x]; [cbn; intuition|]. rewrite !ntok_cons. cbv beta match zeta.
  destruct (c =? 93); [intuition|].
  destruct ((c =? 62) && match x with d :: _ => d =? 62 | [] => false end); [intuition|].
  destruct (ntok _ 1 false i (c :: x) (S i) x) as [[a b] k]. auto.
Qed.

Section WithZlib.
Context {ZL : Zlib}.

Lemma skipn_S {A} i (t : list A) c r : skipn i t = c :: r -> skipn (S i) t = r /\ (i < length t)%nat.
Proof.
  intros E. split.
  - replace (S i) with (1 + i)%nat by lia. rewrite <- skipn_skipn, E. reflexivity.
  - destruct (Nat.lt_ge_cases i (length t)) as [L|L]; auto. rewrite skipn_all2 in E by lia. discriminate.
Qed.

Lemma items_white p isd t j1 f i c r : skipn i t = c :: r -> white c -> (S i < j1 - 1)%nat ->
  items_loop p isd t j1 (S f) i = items_loop p isd t j1 (S f) (S i).
Proof.
  intros E W L. rewrite !items_S. replace (Nat.ltb i (j1 - 1)) with true by (symmetry; apply Nat.ltb_lt; lia).
  replace (Nat.ltb (S i) (j1 - 1)) with true by (symmetry; apply Nat.ltb_lt; lia).
  destruct (skipn_S _ _ _ _ E) as [E2 _]. unfold next_token. rewrite E, E2. rewrite tbd_white by auto.
  pose proof (tbd_irrelevant r i (c :: r) (S i) r (S i)) as Q.
  destruct (ntok STbd 1 false i (c :: r) (S i) r) as [[a b] k]. destruct (ntok STbd 1 false (S i) r (S i) r) as [[a' b'] k'].
  destruct Q as (-> & -> & Q). destruct k' as [k'|]; auto. rewrite Q by discriminate. reflexivity.
Qed.

Lemma items_comment p isd t j1 f i txt c r : skipn i t = 37 :: txt ++ c :: r ->
  Forall (fun x => ~ In x (B "()<>[]") /\ x <> 10 /\ x <> 13) txt -> c = 10 \/ c = 13 -> (i < j1 - 1)%nat ->
  items_loop p isd t j1 (S f) i = items_loop p isd t j1 f (i + S (length txt)) /\ skipn (i + S (length txt)) t = c :: r.
Proof.
  intros E F C L. split.
  - rewrite items_S. replace (Nat.ltb i (j1 - 1)) with true by (symmetry; apply Nat.ltb_lt; lia).
    unfold next_token. rewrite E. rewrite (comment_token txt c r) by auto. reflexivity.
  - replace (i + S (length txt))%nat with (length txt + (1 + i))%nat by lia. rewrite <- !skipn_skipn, E. cbn [skipn].
    rewrite skipn_app_len. reflexivity.
Qed.

Lemma closing_len isd : (1 <= length (closing isd) <= 2)%nat.
Proof. destruct isd; cbn; lia. Qed.

(* the loop passes over a gap that a token follows *)
Lemma items_gap p isd t j1 g : gap g -> forall i fuel x, skipn i t = g ++ x -> (i + length g < j1 - 1)%nat -> (length g < fuel)%nat ->
  exists fuel', (fuel - length g <= fuel')%nat /\ items_loop p isd t j1 fuel i = items_loop p isd t j1 fuel' (i + length g).
Proof.
  induction 1 as [|c s W G IH|txt c s F C G IH]; intros i fuel x E L LF.
  - exists fuel. cbn [length]. split; [lia|]. f_equal. lia.
  - cbn [app length] in *. destruct fuel as [|fuel]; [lia|]. rewrite (items_white p isd t j1 fuel i c (s ++ x)) by (auto; lia).
    destruct (skipn_S _ _ _ _ E) as [E2 _]. destruct (IH (S i) (S fuel) x E2 ltac:(lia) ltac:(lia)) as (f' & LF' & Q).
    exists f'. split; [lia|]. rewrite Q. f_equal. lia.
  - cbn [app length] in *. rewrite app_length in *. cbn [length] in *. destruct fuel as [|fuel]; [lia|].
    rewrite <- app_assoc in E. cbn [app] in E.
    destruct (items_comment p isd t j1 fuel i txt c (s ++ x) E F C ltac:(lia)) as [Q1 E1].
    destruct fuel as [|fuel]; [lia|].
    rewrite Q1. rewrite (items_white p isd t j1 fuel _ c (s ++ x)) by (auto; try lia; unfold white; lia).
    destruct (skipn_S _ _ _ _ E1) as [E2 _]. destruct (IH (S (i + S (length txt))) (S fuel) x E2 ltac:(lia) ltac:(lia)) as (f' & LF' & Q).
    exists f'. split; [lia|]. rewrite Q. f_equal. lia.
Qed.

(* the loop ends after a last gap *)
Lemma items_end p isd t j1 g : gap g -> forall i fuel rest, skipn i t = g ++ closing isd ++ rest ->
  j1 = (i + length g + length (closing isd))%nat -> (length g + 2 <= fuel)%nat ->
  items_loop p isd t j1 fuel i = Ok [].
Proof.
  intros G i fuel rest E J LF.
  assert (LAST : forall i f, skipn i t = closing isd ++ rest -> j1 = (i + length (closing isd))%nat -> items_loop p isd t j1 (S (S f)) i = Ok []).
  { clear. intros i f E J. rewrite items_S. destruct isd; cbn [closing length app] in *.
    - replace (Nat.ltb i (j1 - 1)) with true by (symmetry; apply Nat.ltb_lt; lia). unfold next_token. rewrite E. nstep.
      cbn [Z.eqb Pos.eqb andb]. rewrite items_S. replace (Nat.ltb (S i) (j1 - 1)) with false by (symmetry; apply Nat.ltb_ge; lia). reflexivity.
    - replace (Nat.ltb i (j1 - 1)) with false by (symmetry; apply Nat.ltb_ge; lia). reflexivity. }
  destruct isd.
  - destruct (items_gap p true t j1 g G i fuel _ E ltac:(cbn [closing length] in J; lia) ltac:(lia)) as (f' & LF' & ->).
    destruct f' as [|[|f']]; [lia|lia|]. apply LAST; [|exact J].
    rewrite (Nat.add_comm i), <- skipn_skipn, E. apply skipn_app_len.
  - revert i fuel E J LF. induction G as [|c s W G IH|txt c s F C G IH]; intros i fuel E J LF.
    + destruct fuel as [|[|fuel]]; cbn [length] in LF; try lia. apply LAST; auto. cbn [length] in J. lia.
    + cbn [app length] in *. destruct fuel as [|[|fuel]]; try lia. destruct (skipn_S _ _ _ _ E) as [E2 _].
      destruct s as [|c' s'].
      * rewrite items_S. cbn [length closing] in J. replace (Nat.ltb i (j1 - 1)) with true by (symmetry; apply Nat.ltb_lt; lia).
        unfold next_token. rewrite E. rewrite tbd_white by auto. cbn [app closing]. nstep. cbn [Z.eqb Pos.eqb].
        rewrite items_S. replace (Nat.ltb (S i) (j1 - 1)) with false by (symmetry; apply Nat.ltb_ge; lia). reflexivity.
      * rewrite (items_white p false t j1 (S fuel) i c ((c' :: s') ++ closing false ++ rest)) by (auto; cbn [closing length] in *; lia).
        apply IH; auto; lia.
    + cbn [app length] in *. rewrite app_length in *. cbn [length closing] in *. destruct fuel as [|fuel]; [lia|].
      rewrite <- app_assoc in E. cbn [app] in E.
      destruct (items_comment p false t j1 fuel i txt c (s ++ 93 :: rest) E F C ltac:(lia)) as [Q1 E1]. rewrite Q1.
      destruct fuel as [|[|fuel]]; try lia. destruct (skipn_S _ _ _ _ E1) as [E2 _].
      destruct s as [|c' s'].
      * rewrite items_S. cbn [length] in J. replace (Nat.ltb _ (j1 - 1)) with true by (symmetry; apply Nat.ltb_lt; lia).
        unfold next_token. rewrite E1. rewrite tbd_white by (unfold white; lia). cbn [app]. nstep. cbn [Z.eqb Pos.eqb].
        rewrite items_S. replace (Nat.ltb (S _) (j1 - 1)) with false by (symmetry; apply Nat.ltb_ge; lia). reflexivity.
      * rewrite (items_white p false t j1 (S fuel) _ c ((c' :: s') ++ 93 :: rest)) by (auto; cbn [length] in *; try lia; unfold white; lia).
        apply (IH (S (i + S (length txt)))); auto; lia.
Qed.

(* ---------- a run of tokens ---------- *)
Definition read_as (p : bytes -> res obj) (v : bytes) (k : tok) (x : obj) : Prop :=
  match k with TDict | TArray => p v = Ok x | TComment => False | _ => dedicated_type v (Some k) = Ok x end.
Inductive tokens (p : bytes -> res obj) : list obj -> bytes -> Prop :=
| tk_end g : gap g -> tokens p [] g
| tk_cons g v k x xs s : gap g -> v <> [] -> tokk v k -> read_as p v k x -> selfdel k = true \/ s = [] \/ sepstart s -> tokens p xs s ->
    tokens p (x :: xs) (g ++ v ++ s).

Lemma items_tokens p isd t j1 xs s : tokens p xs s -> forall i fuel rest, skipn i t = s ++ closing isd ++ rest ->
  j1 = (i + length s + length (closing isd))%nat -> (length s + 2 <= fuel)%nat ->
  items_loop p isd t j1 fuel i = Ok xs.
Proof.
  induction 1 as [g G|g v k x xs s G NV T R SD TK IH]; intros i fuel rest E J LF; [eapply items_end; eauto|].
  pose proof (closing_len isd) as CL. rewrite !app_length in *. rewrite <- !app_assoc in E.
  assert (LV : (0 < length v)%nat) by (destruct v; [congruence|cbn; lia]).
  destruct (items_gap p isd t j1 g G i fuel _ E ltac:(lia) ltac:(lia)) as (f' & LF' & ->).
  assert (E1 : skipn (i + length g) t = v ++ s ++ closing isd ++ rest) by (rewrite (Nat.add_comm i), <- skipn_skipn, E; apply skipn_app_len).
  destruct f' as [|f']; [lia|]. rewrite items_S. replace (Nat.ltb (i + length g) (j1 - 1)) with true by (symmetry; apply Nat.ltb_lt; lia).
  unfold next_token. rewrite E1. rewrite T.
  2:{ destruct SD as [SD|[->|(c & r & -> & SD)]]; auto; right.
      - destruct isd; cbn [closing app]; eexists _, _; (split; [reflexivity|reflexivity]).
      - exists c, (r ++ closing isd ++ rest). auto. }
  assert (SB : sub t (i + length g) (i + length g + length v) = v).
  { unfold sub. replace (i + length g + length v - (i + length g))%nat with (length v) by lia. rewrite E1. apply firstn_app_len. }
  rewrite SB. rewrite (IH (i + length g + length v)%nat f' rest).
  - replace (Nat.ltb (i + length g + length v) j1) with true by (symmetry; apply Nat.ltb_lt; lia). rewrite andb_false_r.
    destruct k; try contradiction; cbn [read_as] in R; rewrite R; reflexivity.
  - rewrite (Nat.add_comm _ (length v)), <- skipn_skipn, E1. apply skipn_app_len.
  - lia.
  - lia.
Qed.

(* ---------- containers ---------- *)
Lemma array_read s xs l f tail : narr s -> tokens (fun s => pobj f s 0) xs s -> replace_ref xs = Ok l ->
  pobj (S f) ((91 :: s ++ [93]) ++ tail) 0 = Ok (PList l).
Proof.
  intros N T R. rewrite pobj_S. unfold next_token. cbn [skipn]. rewrite (tok1any_array s N).
  rewrite (items_tokens _ false _ _ xs s T 1 _ tail).
  - cbn [bind]. rewrite R. reflexivity.
  - cbn [app skipn closing]. rewrite <- app_assoc. reflexivity.
  - cbn [length closing]. rewrite app_length. cbn [length]. lia.
  - cbn [app length]. rewrite !app_length. cbn [length]. lia.
Qed.

Lemma dict_read s xs l d f tail : nd true s -> nohead 60 s -> tokens (fun s => pobj f s 0) xs s -> replace_ref xs = Ok l ->
  pair_up [] (rev l) = Ok d -> snd (next_token tail 0) <> Some TStream ->
  pobj (S f) (([60; 60] ++ s ++ [62; 62]) ++ tail) 0 = Ok (PDict d).
Proof.
  intros N NH T R P NS. rewrite pobj_S. set (v := [60; 60] ++ s ++ [62; 62]).
  assert (T1 : next_token (v ++ tail) 0 = (0%nat, length v, Some TDict)).
  { unfold next_token. cbn [skipn]. apply (dict_token s N NH). }
  rewrite T1.
  assert (T2 : next_token (v ++ tail) (length v) = shift3 (length v) (next_token tail 0)).
  { replace (length v) with (length v + 0)%nat at 1 by lia. apply next_token_app. }
  rewrite T2. destruct (next_token tail 0) as [[h2 j2] t2]. cbn [shift3]. cbn [snd] in NS.
  assert (I : items_loop (fun s => pobj f s 0) true (v ++ tail) (length v) (S (length (v ++ tail))) (0 + 2) = Ok xs).
  { apply (items_tokens _ true _ _ xs s T 2 _ tail).
    - unfold v. cbn [app skipn closing]. rewrite <- app_assoc. reflexivity.
    - unfold v. rewrite !app_length. cbn [length closing]. lia.
    - unfold v. rewrite !app_length. cbn [length]. lia. }
  rewrite I. cbn [bind]. rewrite R. cbn [bind]. rewrite P. cbn [bind].
  destruct t2 as [[]|]; try reflexivity. congruence.
Qed.

(* ---------- what is known of a text that spells an object ---------- *)
Definition pf (f : nat) : bytes -> res obj := fun s => pobj f s 0.
Definition good (o : obj) (v : bytes) : Prop :=
  narr v /\ (nd true v \/ (nd false v /\ hex_tok v)) /\ v <> [] /\ nohead 62 v /\ notR o /\ peq o (rv o) /\ direct o v /\
  forall f g xs s, (length v < f)%nat -> gap g -> tokens (pf f) xs s -> closed o \/ s = [] \/ sepstart s ->
    tokens (pf f) (toksof o ++ xs) (g ++ v ++ s).
Definition goods (isd : bool) (l : list obj) (s : bytes) : Prop :=
  narr s /\ nd isd s /\ nohead 62 s /\ Forall notR l /\ Forall2 peq l (map rv l) /\
  forall f, (length s < f)%nat -> tokens (pf f) (flat_map toksof l) s.

Lemma good_simple o v k : kind_of o = Some k -> narr v -> nd true v \/ (nd false v /\ hex_tok v) -> v <> [] -> nohead 62 v ->
  tokk v k -> dedicated_type v (Some k) = Ok (rv o) -> match k with TDict | TArray | TComment | TStream => False | _ => True end ->
  notR o -> peq o (rv o) -> good o v.
Proof.
  intros K N1 N2 NV NH T D KS NR PQ. repeat (split; [assumption|]). split.
  - unfold direct. rewrite K. split; auto. intros f tail L S _. destruct f as [|f]; [lia|]. eapply pobj_simple; eauto.
  - intros f g xs s L G TK C. replace (toksof o) with [rv o] by (destruct o; auto; discriminate). cbn [app].
    apply (tk_cons _ g v k); auto.
    + destruct k; auto; contradiction.
    + destruct C as [C|C]; auto. left. eapply closed_selfdel; eauto.
Qed.

Lemma good_container o v k : kind_of o = Some k -> narr v -> nd true v -> v <> [] -> nohead 62 v -> tok1any v k -> (k = TDict \/ k = TArray) ->
  (forall f tail, (length v < f)%nat -> snd (next_token tail 0) <> Some TStream -> pobj f (v ++ tail) 0 = Ok (rv o)) ->
  notR o -> peq o (rv o) -> good o v.
Proof.
  intros K N1 N2 NV NH T KS P NR PQ. repeat (split; [auto; fail|]). split.
  - unfold direct. rewrite K. split; auto using tokk_of_any.
  - intros f g xs s L G TK C. replace (toksof o) with [rv o] by (destruct o; auto; discriminate). cbn [app].
    apply (tk_cons _ g v k); auto using tokk_of_any.
    + specialize (P f [] L ltac:(discriminate)). rewrite app_nil_r in P. destruct KS; subst; exact P.
    + left. destruct KS; subst; reflexivity.
Qed.

Lemma notsep_parts s : Forall (fun c => is_sep c = false) s -> narr s /\ nd true s /\ nohead 62 s.
Proof.
  intros F. destruct (not_sep_plain s F) as [P1 P2]. split; [apply narr_plain; auto|]. split; [apply nd_plain; auto|].
  destruct P2; cbn; tauto.
Qed.

Lemma sep_iff s : (exists c r, s = c :: r /\ (white c \/ delim c)) <-> sepstart s.
Proof. unfold sepstart. split; intros (c & r & E & H); exists c, r; split; auto; apply is_sep_iff; auto. Qed.

Lemma decimal_int a : a <> [] -> Forall decdigit a -> int_text (decimal a) a.
Proof. intros N F. exists 1, [], a. split; auto. split; [constructor|]. split; auto. split; auto. lia. Qed.

Lemma zeros_int z : z <> [] -> Forall (fun c => c = 48) z -> int_text 0 z.
Proof.
  intros N F. exists 1, [], z. split; auto. split; [constructor|]. split; auto. split.
  - eapply Forall_impl; [|exact F]. intros c ->. unfold decdigit. lia.
  - assert (Q : decimal z = 0); [|lia]. clear N. unfold decimal. induction F as [|c z -> F IH]; auto.
Qed.

Scheme spelled_ind2 := Minimality for spelled Sort Prop
  with elements_ind2 := Minimality for elements Sort Prop.
Combined Scheme spelling_ind from spelled_ind2, elements_ind2.

Theorem spelling : (forall o v, spelled o v -> good o v) /\ (forall isd l s, elements isd l s -> goods isd l s).
Proof.
  apply spelling_ind.
  - change (B "true") with [116; 114; 117; 101]. apply good_simple with (k := TTrue); try discriminate; try reflexivity; try (cbn; lia); try exact Logic.I; try (apply pq_bool).
    + apply narr_plain. repeat constructor; lia.
    + left. apply nd_plain. repeat constructor; lia.
    + apply tokk_of_1; auto. intros rest h cur i SS. apply (tok1_keyword 116 [114; 117; 101]); auto.
      * unfold letter; lia.
      * intros [r Q]. discriminate.
  - change (B "false") with [102; 97; 108; 115; 101]. apply good_simple with (k := TFalse); try discriminate; try reflexivity; try (cbn; lia); try exact Logic.I; try (apply pq_bool).
    + apply narr_plain. repeat constructor; lia.
    + left. apply nd_plain. repeat constructor; lia.
    + apply tokk_of_1; auto. intros rest h cur i SS. apply (tok1_keyword 102 [97; 108; 115; 101]); auto.
      * unfold letter; lia.
      * intros [r Q]. discriminate.
  - intros z s I. destruct (int_read z s I) as (E & T & NS & NN). destruct (notsep_parts s NS) as (P1 & P2 & P3).
    apply good_simple with (k := TInteger); auto; try reflexivity; try exact Logic.I; try (apply pq_int); auto using tokk_of_1.
    unfold dedicated_type. rewrite E. reflexivity.
  - intros m e s I. destruct (real_read m e s I) as (E & T & NS & NN). destruct (notsep_parts s NS) as (P1 & P2 & P3).
    apply good_simple with (k := TReal); auto; try reflexivity; try exact Logic.I; try (apply pq_real); auto using tokk_of_1.
    unfold dedicated_type. rewrite E. reflexivity.
  - intros s (r & -> & F). pose proof (regular_all_notsep r F) as NS.
    destruct (not_sep_plain r NS) as [P1 P2].
    apply good_simple with (k := TName); try reflexivity; try discriminate; try exact Logic.I; try (apply pq_str); try (cbn; lia).
    + apply narr_plain. constructor; auto. lia.
    + left. apply nd_plain. constructor; auto. lia.
    + apply tokk_of_1; auto. apply tok1_name; auto.
    + unfold dedicated_type, ascii. replace (is_ascii (47 :: r)) with true; [reflexivity|]. symmetry.
      change (is_ascii (47 :: r)) with ((0 <=? 47) && (47 <? 128) && is_ascii r). rewrite regular_ascii; auto.
  - intros s KW. pose proof KW as (a & r & -> & LA & F & NT & NF & NR & NST).
    assert (NSA : is_sep a = false) by (apply regular_not_sep; unfold regular, letter, white, delim in *; lia).
    pose proof (regular_all_notsep r F) as NS. destruct (notsep_parts (a :: r) ltac:(constructor; auto)) as (P1 & P2 & P3).
    destruct (keyword_readback (a :: r) KW) as [(_ & _ & _ & D) A].
    assert (K : kind_of (PStr (a :: r)) = Some TKeyword).
    { cbn. destruct a as [|p|p]; auto. unfold letter in LA. repeat (destruct p; auto; try lia). }
    unfold direct in D. rewrite K in D. destruct D as [T D].
    apply good_simple with (k := TKeyword); auto; try discriminate; try exact Logic.I; try (apply pq_str).
    + unfold dedicated_type. rewrite A. reflexivity.
    + unfold notR. cbn [is_R]. apply beqb_neq. exact NR.
  - intros s L E. assert (H : exists r, s = 40 :: r) by (destruct L as (b & -> & _); eauto). destruct H as (r & ER).
    apply good_simple with (k := TString); auto; try reflexivity; try exact Logic.I; try (apply pq_bytes); try (rewrite ER; discriminate); try (rewrite ER; cbn; lia).
    + apply narr_lit; auto.
    + left. apply nd_lit; auto.
    + apply tokk_of_any, tok1any_lit; auto.
  - intros s H. assert (HR : exists r, s = 60 :: r) by (destruct H as (b & -> & _); eauto). destruct HR as (r & ER).
    apply good_simple with (k := TString); auto; try reflexivity; try exact Logic.I; try (apply pq_bytes); try (rewrite ER; discriminate); try (rewrite ER; cbn; lia).
    + apply narr_hex; auto.
    + right. split; auto using nd_hex.
    + apply tokk_of_any, tok1any_hex; auto.
  - intros n g1 g2 a z NA FA EN NZ FZ G1 NG1 G2 NG2.
    destruct (int_read _ _ (decimal_int a NA FA)) as (EA & TA & SA & _). destruct (int_read _ _ (zeros_int z NZ FZ)) as (EZ & TZ & SZ & _).
    destruct (notsep_parts a SA) as (A1 & A2 & A3). destruct (notsep_parts z SZ) as (Z1 & Z2 & Z3).
    destruct (gap_plain g1 G1) as [H1 H2]. destruct (gap_plain g2 G2) as [H3 H4]. change (B "R") with [82].
    split. { apply narr_app; auto. apply narr_app; [apply narr_plain; auto|]. apply narr_app; auto. apply narr_app; [apply narr_plain; auto|].
             apply narr_plain. repeat constructor; lia. }
    split. { left. apply (nd_app true); auto. apply (nd_app true); [apply nd_plain; auto| |auto]. apply (nd_app true); auto.
             apply (nd_app true); [apply nd_plain; auto| |auto]. apply nd_plain. repeat constructor; lia. }
    split. { destruct a; [congruence|discriminate]. }
    split. { destruct a; [congruence|]. exact A3. }
    split; [reflexivity|]. split; [constructor|]. split; [exact Logic.I|].
    intros f g xs s L G TK C. cbn [toksof app]. rewrite <- !app_assoc.
    apply (tk_cons _ g a TInteger); auto using tokk_of_1.
    + cbn. rewrite EA, EN. reflexivity.
    + right. right. apply gap_sep; auto.
    + apply (tk_cons _ g1 z TInteger); auto using tokk_of_1.
      * cbn. rewrite EZ. reflexivity.
      * right. right. apply gap_sep; auto.
      * apply (tk_cons _ g2 [82] TKeyword); auto; try discriminate.
        -- apply tokk_of_1; auto. intros rest h cur i SS. apply (tok1_keyword 82 []); auto.
           ++ unfold letter; lia.
           ++ intros [r Q]. discriminate.
        -- reflexivity.
        -- destruct C as [[]|C]; auto.
  - intros l s EL (N1 & N2 & NH & NR & PQ & TK).
    assert (PL : peq (PList l) (rv (PList l))) by (constructor; exact PQ).
    apply good_container with (k := TArray); auto; try reflexivity; try discriminate; try (cbn; lia).
    + apply narr_bracket; auto.
    + eapply nd_brackets; eauto.
    + apply tok1any_array; auto.
    + intros f tail L _. destruct f as [|f]; [lia|]. apply (array_read s (flat_map toksof l)); auto.
      * apply TK. change (B "[" ++ s ++ B "]") with (91 :: s ++ [93]) in L. cbn [length] in L. rewrite app_length in L. lia.
      * apply replace_ref_toks; auto.
  - intros d s ND NT EL (N1 & N2 & NH & NR & PQ & TK).
    assert (H60 : nohead 60 s).
    { destruct d as [|[k v] d].
      - inversion EL as [? g G|]; subst. destruct (gap_head s G) as [->|(c & r & -> & C)]; cbn; auto. unfold white in C. lia.
      - cbn [flat_map fst snd app] in EL. inversion EL as [|? g v' o l s' G SP E2 S1 S2]; subst.
        destruct (gap_head g G) as [->|(c & r & -> & C)]; [|cbn; unfold white in C; lia].
        cbn [map fst] in NT. inversion NT as [|? ? (r & -> & _) _]; subst. inversion SP; subst; cbn; lia. }
    assert (FP : map rv (flat_map (fun kv : bytes * obj => [PStr (fst kv); snd kv]) d) = flat_pairs (map (fun kv => match kv with (k, v) => (k, rv v) end) d))
      by exact (map_rv_pairs d).
    assert (KS : map fst (map (fun kv : bytes * obj => match kv with (k, v0) => (k, rv v0) end) d) = map fst d).
    { rewrite map_map. apply map_ext. intros [k o]; auto. }
    assert (PD : peq (PDict d) (rv (PDict d))).
    { change (rv (PDict d)) with (PDict (rvd d)). constructor.
      - intros k. rewrite dget_rvd by auto. destruct (dget k d); cbn; split; congruence.
      - intros k a b E1 E2. rewrite dget_rvd, E1 in E2 by auto. cbn in E2. inversion E2; subst.
        apply dget_In in E1. clear - PQ E1. induction d as [|[k' v'] d IH]; [destruct E1|].
        cbn [flat_map fst snd app map] in PQ. inversion PQ as [|? ? ? ? P1 P2]; subst. inversion P2 as [|? ? ? ? P3 P4]; subst.
        destruct E1 as [E1|E1]; [inversion E1; subst; auto|auto]. }
    apply good_container with (k := TDict); auto; try reflexivity; try discriminate; try (cbn; lia).
    + change (B "<<" ++ s ++ B ">>") with ([60; 60] ++ s ++ [62; 62]). apply narr_app; [apply narr_plain; repeat constructor; lia|].
      apply narr_app; auto. apply narr_plain; repeat constructor; lia.
    + apply nd_dict; auto.
    + apply dict_token; auto.
    + intros f tail L NS. destruct f as [|f]; [lia|].
      apply (dict_read s (flat_map toksof (flat_map (fun kv : bytes * obj => [PStr (fst kv); snd kv]) d))
               (map rv (flat_map (fun kv : bytes * obj => [PStr (fst kv); snd kv]) d))); auto.
      * apply TK. rewrite !app_length in L. change (length (B "<<")) with 2%nat in L. lia.
      * apply replace_ref_toks; auto.
      * rewrite FP, pair_up_rev; [reflexivity|rewrite KS; auto|reflexivity].
  - intros isd g G. destruct (gap_plain g G) as [H1 H2]. split; [apply narr_plain; auto|]. split; [apply nd_weak, nd_plain; auto|].
    split. { destruct H2; cbn; tauto. }
    split; [constructor|]. split; [constructor|]. intros f L. constructor; auto.
  - intros isd g v o l s G SP (N1 & N2 & NV & NH & NR & PQ & D & TK) EL (M1 & M2 & MH & MR & MP & MT) SEP HX.
    destruct (gap_plain g G) as [H1 H2].
    assert (VS : nd isd (v ++ s)).
    { destruct N2 as [N2|[N2 HT]]; [apply (nd_app true); auto|].
      destruct s as [|c s].
      - rewrite app_nil_r. destruct isd; [exfalso; apply HX; auto|exact N2].
      - apply (nd_app false); auto. right. split; [discriminate|exact MH]. }
    split. { apply narr_app; [apply narr_plain; auto|]. apply narr_app; auto. }
    split. { apply (nd_app true); [apply nd_plain; auto|exact VS|auto]. }
    split. { destruct g as [|c g]; [destruct v as [|c v]; [congruence|exact NH]|]. inversion H2; subst; cbn; tauto. }
    split; [constructor; auto|]. split; [constructor; auto|].
    intros f L. rewrite !app_length in L. cbn [flat_map]. apply TK; auto; [lia|apply MT; lia|]. rewrite <- sep_iff. exact SEP.
Qed.

Lemma apart_tail o tail : apart o tail -> (closed o \/ sepstart tail) /\ snd (next_token tail 0) <> Some TStream.
Proof.
  intros [C (g & x & -> & G & X)]. split; [rewrite <- sep_iff; exact C|]. clear C. unfold next_token. cbn [skipn].
  generalize 0%nat at 1 as h. generalize 0%nat as i. generalize (g ++ x) at 1 as cur.
  induction G as [|c s W G IH|txt c s F E G IH]; intros cur i h.
  - cbn [app]. pose proof (follows_not_stream (32 :: x)) as Q.
    assert (FO : follows (32 :: x)).
    { exists [32], x. split; auto. split; [discriminate|]. split; [repeat constructor; unfold white; lia|exact X]. }
    destruct (Q FO) as [_ Q2]. unfold next_token in Q2. cbn [skipn] in Q2. rewrite tbd_white in Q2 by (unfold white; lia).
    intros E. apply Q2. clear - E. replace 1%nat with (1 + 0)%nat by lia.
    pose proof (tbd_irrelevant x h cur i x i) as I1.
    pose proof (ntok_shift0 STbd 1 false x i x) as S1. pose proof (ntok_shift0 STbd 1 false x 1 x) as S2.
    pose proof (tbd_irrelevant x 0 (32 :: x) 1 x 1) as I2.
    destruct (ntok STbd 1 false h cur i x) as [[a1 b1] k1]. destruct (ntok STbd 1 false i x i x) as [[a2 b2] k2].
    change (1 + 0)%nat with 1%nat in *.
    destruct (ntok STbd 1 false 0 (32 :: x) 1 x) as [[a3 b3] k3]. destruct (ntok STbd 1 false 1 x 1 x) as [[a4 b4] k4].
    destruct (ntok STbd 1 false 0 x 0 x) as [[a5 b5] k5]. cbn [shift3 snd] in *.
    destruct I1 as (_ & I1 & _). destruct I2 as (_ & I2 & _). congruence.
  - cbn [app]. rewrite tbd_white by auto. apply IH.
  - cbn [app]. rewrite <- app_assoc. cbn [app]. rewrite comment_token by auto. discriminate.
Qed.

Lemma spelled_rv o s : spelled o s -> (forall g n, o <> PRef g n) -> forall pre tail, apart o tail ->
  parse_obj (pre ++ s ++ tail) (length pre) = Ok (rv o).
Proof.
  intros SP NR pre tail AP. destruct (proj1 spelling o s SP) as (_ & _ & _ & _ & _ & PQ & D & _).
  destruct (apart_tail o tail AP) as [C NS].
  replace (length pre) with (length pre + 0)%nat by lia. rewrite parse_obj_shift. unfold direct in D.
  assert (K : exists k, kind_of o = Some k).
  { inversion SP; subst; cbn; eauto. all: try (exfalso; eapply NR; reflexivity). all: match goal with |- context [PStr ?s] => idtac | _ => idtac end; destruct s as [|c s]; eauto;
    repeat match goal with |- exists k, match ?x with _ => _ end = Some k => destruct x; eauto end. }
  destruct K as (k & K). rewrite K in D. destruct D as [_ D]. unfold parse_obj. apply D; auto.
  - rewrite app_length. lia.
  - destruct C as [C|C]; auto. left. eapply closed_selfdel; eauto.
Qed.


Theorem spelled_read o s : spelled o s -> (forall g n, o <> PRef g n) -> forall pre tail, apart o tail ->
  exists o', parse_obj (pre ++ s ++ tail) (length pre) = Ok o' /\ peq o o'.
Proof.
  intros SP NR pre tail AP. exists (rv o). split; [apply spelled_rv; auto|]. apply (proj1 spelling o s SP).
Qed.

End WithZlib.
