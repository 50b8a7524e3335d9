(* Indirect objects as any program may write them: lemmas behind C99 *)
From Coq Require Import String ZifyBool ZifyNat.
From Verif Require Import PyBase Model_Filters Model_Objects Model_Filestruct Spec_Objects Spec_Filestruct Spec_Foreign Spec_Syntax
  Facts_Base Facts_Token Facts_Obj Facts_Ser Facts_Parse Facts_Top Facts_Stream Facts_Filters Facts_Refs Facts_Prov Facts_Xref Facts_Indirect Facts_Syntax.

(* ---------- the data of a stream ---------- *)
Lemma border s tail : starts W_endstream (s ++ W_endstream ++ tail) = true -> ~ occurs W_endstream s -> s = [].
Proof.
  intros H O. apply starts_iff in H as [r E]. destruct (le_lt_dec 9 (length s)) as [L|L].
  - exfalso. apply O. exists [], (skipn 9 s). cbn [app]. pose proof (f_equal (firstn 9) E) as Q.
    rewrite firstn_app in Q. replace (9 - length s)%nat with 0%nat in Q by lia. rewrite firstn_O, app_nil_r in Q.
    change (firstn 9 (W_endstream ++ r)) with W_endstream in Q. rewrite <- Q at 1. symmetry. apply firstn_skipn.
  - unfold W_endstream in E. do 9 (destruct s as [|? s]; [cbn in E; try discriminate; auto|]). cbn [length] in L. lia.
Qed.
Lemma scan_data s : ~ occurs W_endstream s -> forall tail n tia h cur i,
  ntok SStream n tia h cur i (s ++ W_endstream ++ tail) = (h, (i + length s + 9)%nat, Some TStream).
Proof.
  induction s as [|c s IH]; intros O tail n tia h cur i.
  - cbn [app length]. unfold W_endstream. cbn [app]. nstep. p3.
  - assert (O' : ~ occurs W_endstream s) by (intros Q; apply O, occurs_cons; auto).
    cbn [app]. nstep. change (EOL ++ W_endstream) with (13 :: 10 :: W_endstream).
    destruct (starts (13 :: 10 :: W_endstream) (c :: s ++ W_endstream ++ tail)) eqn:A1.
    { rewrite starts_cons in A1. apply andb_true_iff in A1 as [_ A1]. destruct s as [|d s]; [cbn in A1; discriminate|]. cbn [app] in A1. rewrite starts_cons in A1. apply andb_true_iff in A1 as [_ A1].
      apply border in A1; [subst; cbn [length]; p3|]. intro Q. apply O'. now apply occurs_cons. }
    destruct (starts (10 :: W_endstream) (c :: s ++ W_endstream ++ tail)) eqn:A2.
    { rewrite starts_cons in A2. apply andb_true_iff in A2 as [_ A2]. apply border in A2; auto. subst. cbn [length]. p3. }
    destruct (starts (13 :: W_endstream) (c :: s ++ W_endstream ++ tail)) eqn:A3.
    { rewrite starts_cons in A3. apply andb_true_iff in A3 as [_ A3]. apply border in A3; auto. subst. cbn [length]. p3. }
    destruct (starts W_endstream (c :: s ++ W_endstream ++ tail)) eqn:A4.
    { apply (border (c :: s)) in A4; auto. discriminate. }
    rewrite IH by auto. cbn [length]. p3.
Qed.

Lemma next_token_any pre w v k rest : Forall white w ->
  (forall h cur i, ntok STbd 1 false h cur i (v ++ rest) = (i, (i + length v)%nat, Some k)) ->
  next_token (pre ++ w ++ v ++ rest) (length pre) = (length (pre ++ w), (length (pre ++ w) + length v)%nat, Some k).
Proof.
  intros W T. replace (length pre) with (length pre + 0)%nat at 1 by lia. rewrite next_token_app.
  unfold next_token. cbn [skipn].
  assert (G : forall i h cur, ntok STbd 1 false h cur i (w ++ v ++ rest)
              = ((i + length w)%nat, (i + length w + length v)%nat, Some k)).
  { clear pre. induction W as [|c w HC W IH]; intros i h cur.
    - cbn [app length]. rewrite T by auto. p3.
    - cbn [app length]. rewrite tbd_white by auto. rewrite IH. p3. }
  rewrite G. cbn [shift3]. rewrite app_length. p3.
Qed.

Definition strm (e1 enc e2 : bytes) : bytes := W_stream ++ e1 ++ enc ++ e2 ++ W_endstream.
Lemma tok_data e1 enc e2 tail h cur i : e1 = [13; 10] \/ e1 = [10] -> ~ occurs W_endstream enc -> data_end enc e2 ->
  ntok STbd 1 false h cur i (strm e1 enc e2 ++ tail) = (i, (i + length (strm e1 enc e2))%nat, Some TStream).
Proof.
  intros E1 O D. set (s := [116; 114; 101; 97; 109] ++ e1 ++ enc ++ e2).
  replace (strm e1 enc e2 ++ tail) with (115 :: s ++ W_endstream ++ tail) by (unfold strm, s, W_stream; cbn [app]; rewrite <- !app_assoc; reflexivity).
  nstep. cbn [Z.eqb Pos.eqb andb]. replace (starts W_stream (115 :: s ++ W_endstream ++ tail)) with true by reflexivity.
  rewrite scan_data.
  - unfold strm, s. rewrite !app_length. cbn [length W_stream W_endstream]. p3.
  - unfold s. intro Q.
    assert (X : occurs W_endstream (enc ++ e2)).
    { destruct E1 as [-> | ->]; cbn [app] in Q.
      - change (116 :: 114 :: 101 :: 97 :: 109 :: 13 :: 10 :: enc ++ e2) with ([116; 114; 101; 97; 109; 13] ++ 10 :: enc ++ e2) in Q. apply occurs_split in Q; [|discriminate|cbn; lia]. destruct Q as [(a & b & Q)|Q]; auto.
        apply (f_equal (@length Z)) in Q. rewrite !app_length in Q. cbn [length W_endstream] in Q. lia.
      - change (116 :: 114 :: 101 :: 97 :: 109 :: 10 :: enc ++ e2) with ([116; 114; 101; 97; 109] ++ 10 :: enc ++ e2) in Q. apply occurs_split in Q; [|discriminate|cbn; lia]. destruct Q as [(a & b & Q)|Q]; auto.
        apply (f_equal (@length Z)) in Q. rewrite !app_length in Q. cbn [length W_endstream] in Q. lia. }
    destruct D as [-> |[-> |[[-> _]|[-> _]]]].
    + apply occurs_split in X; [|discriminate|cbn; lia]. destruct X as [X|(a & b & X)]; auto. apply (f_equal (@length Z)) in X. rewrite !app_length in X. cbn [length W_endstream] in X. lia.
    + apply occurs_split in X; [|discriminate|cbn; lia]. destruct X as [X|(a & b & X)]; auto. apply (f_equal (@length Z)) in X. rewrite !app_length in X. cbn [length W_endstream] in X. lia.
    + apply occurs_split in X; [|discriminate|cbn; lia]. destruct X as [X|(a & b & X)]; auto. apply (f_equal (@length Z)) in X. rewrite !app_length in X. cbn [length W_endstream] in X. lia.
    + rewrite app_nil_r in X. auto.
Qed.

Lemma ends_tail p s q : ends (p ++ q) (s ++ q) = true -> exists r, s = r ++ p.
Proof.
  unfold ends. intro H. rewrite !app_length in H. set (k := (length s + length q - (length p + length q))%nat) in *. exists (firstn k s).
  apply beqb_eq in H. assert (K : (k <= length s)%nat) by lia. rewrite skipn_app in H. replace (k - length s)%nat with 0%nat in H by lia. cbn [skipn] in H. apply app_inv_tail in H. rewrite <- H. symmetry. apply firstn_skipn.
Qed.

Lemma body_data e1 enc e2 : e1 = [13; 10] \/ e1 = [10] -> data_end enc e2 -> stream_body (strm e1 enc e2) = Some enc.
Proof.
  intros E1 D. destruct enc as [|x0 z _] using rev_ind.
  { destruct E1 as [-> | ->], D as [-> |[-> |[[-> _]|[-> _]]]]; reflexivity. }
  rename x0 into x. unfold stream_body. set (o := strm e1 (z ++ [x]) e2).
  assert (B1 : (if starts (W_stream ++ EOL) o then Some 8%nat else if starts (W_stream ++ [10]) o then Some 7%nat else None) = Some (length (W_stream ++ e1))).
  { unfold o, strm. destruct E1 as [-> | ->]; reflexivity. }
  rewrite B1. change (EOL ++ W_endstream) with ([13; 10] ++ W_endstream). change (10 :: W_endstream) with ([10] ++ W_endstream). change (13 :: W_endstream) with ([13] ++ W_endstream).
  unfold data_end in D. rewrite last_last in D. set (p := W_stream ++ e1 ++ z).
  assert (OX : o = ((p ++ [x]) ++ e2) ++ W_endstream) by (unfold o, strm, p; rewrite <- !app_assoc; reflexivity).
  assert (A : forall q, ends (q ++ W_endstream) o = true -> exists r, (p ++ [x]) ++ e2 = r ++ q) by (intros q Q; rewrite OX in Q; now apply ends_tail in Q).
  assert (AT : forall r, (p ++ [x]) ++ e2 = r ++ e2 -> ends (e2 ++ W_endstream) o = true) by (intros r _; rewrite OX, <- app_assoc; apply ends_app).
  assert (N2 : forall c, e2 <> [c] -> length e2 = 1%nat -> ends ([c] ++ W_endstream) o = false).
  { intros c N L. destruct (ends ([c] ++ W_endstream) o) eqn:Q; auto. exfalso. destruct (A [c] Q) as [r R]. clearbody o. clear - N L R. destruct e2 as [|d [|d2 e2]]; try discriminate. apply app_inj_tail in R as [_ R]. congruence. }
  assert (EX : (if ends ([13; 10] ++ W_endstream) o then Some 11%nat else if ends ([10] ++ W_endstream) o then Some 10%nat else if ends ([13] ++ W_endstream) o then Some 10%nat else if ends W_endstream o then Some 9%nat else None) = Some (length e2 + 9)%nat).
  { destruct D as [-> |[-> |[[-> L]|(-> & L1 & L2)]]]; cbn [length plus].
    - rewrite (AT _ eq_refl). reflexivity.
    - rewrite (N2 10), (AT _ eq_refl) by (discriminate || reflexivity). destruct (ends ([13; 10] ++ _) o) eqn:Q; auto. exfalso. destruct (A _ Q) as [r R]. change [13; 10] with ([13] ++ [10]) in R. rewrite (app_assoc r) in R. apply app_inj_tail in R as [_ R]. discriminate.
    - rewrite (AT _ eq_refl). destruct (ends ([13; 10] ++ _) o) eqn:Q; auto. exfalso. destruct (A _ Q) as [r R]. change [13; 10] with ([13] ++ [10]) in R. rewrite (app_assoc r) in R. apply app_inj_tail in R as [R _]. apply app_inj_tail in R as [_ R]. auto.
    - cbn [app] in AT. rewrite (AT _ eq_refl). rewrite app_nil_r in A.
      destruct (ends ([13; 10] ++ _) o) eqn:Q; [exfalso; destruct (A _ Q) as [r R]; change [13; 10] with ([13] ++ [10]) in R; rewrite (app_assoc r) in R; apply app_inj_tail in R as [_ R]; auto|].
      destruct (ends ([10] ++ _) o) eqn:Q2; [exfalso; destruct (A _ Q2) as [r R]; apply app_inj_tail in R as [_ R]; auto|].
      destruct (ends ([13] ++ _) o) eqn:Q3; [exfalso; destruct (A _ Q3) as [r R]; apply app_inj_tail in R as [_ R]; auto|]. reflexivity. }
  rewrite EX. f_equal. pose proof (sub_app (W_stream ++ e1) (z ++ [x]) (e2 ++ W_endstream)) as Q. etransitivity; [|exact Q].
  replace o with ((W_stream ++ e1) ++ (z ++ [x]) ++ e2 ++ W_endstream) by (unfold o, strm; rewrite <- !app_assoc; reflexivity). f_equal. rewrite !app_length. cbn [length W_endstream W_stream]. lia.
Qed.

Section WithZlib.
Context {ZL : Zlib}.

Lemma decode_rv s d : NoDup (map fst d) -> (forall p, dget K_DecodeParms d = Some (PDict p) -> NoDup (map fst p)) ->
  (forall l p, dget K_DecodeParms d = Some (PList l) -> In (PDict p) l -> NoDup (map fst p)) -> (forall x, dget K_Filter d <> Some (PDict x)) ->
  decode_stream s (rvd d) = decode_stream s d.
Proof.
  intros ND N1 N2 NF. unfold decode_stream. rewrite !dget_rvd by auto.
  destruct (dget K_Filter d) as [f|] eqn:EF; auto. cbn [option_map].
  assert (PP : forall i r,
    apply_parm (match option_map rv (dget K_DecodeParms d) with
                | None => fun _ => Some PNone
                | Some (PDict p) => fun i => match i with O => Some (PDict p) | _ => None end
                | Some (PList l) => nth_error l
                | Some (PStr n) => nth_error (map (fun c => PStr [c]) n)
                | Some (PBytes n) => nth_error (map PInt n)
                | Some _ => fun _ => None end i) r
    = apply_parm (match dget K_DecodeParms d with
                | None => fun _ => Some PNone
                | Some (PDict p) => fun i => match i with O => Some (PDict p) | _ => None end
                | Some (PList l) => nth_error l
                | Some (PStr n) => nth_error (map (fun c => PStr [c]) n)
                | Some (PBytes n) => nth_error (map PInt n)
                | Some _ => fun _ => None end i) r).
  { intros i r. destruct (dget K_DecodeParms d) as [p|] eqn:EP; auto.
    destruct p; auto; cbn [option_map rv].
    - rewrite nth_error_map_rv. apply apply_parm_rv. intros p E. apply nth_error_In in E. eauto.
    - destruct i; auto. apply (apply_parm_rv (Some (PDict d0))). intros d' E. inversion E; subst. eauto. }
  destruct f; cbn [rv iter_obj bind]; auto.
  - replace (map PStr (split_ws s0)) with (map rv (map PStr (split_ws s0))) at 1.
    + erewrite decode_loop_rv by exact PP. auto.
    + rewrite map_map. auto.
  - destruct s0; auto.
  - erewrite decode_loop_rv by exact PP. auto.
  - exfalso. eapply NF. eauto.
Qed.

Lemma elements_spelled isd l s : elements isd l s -> Forall (fun o => exists v, spelled o v) l.
Proof. intro E. induction E; constructor; eauto. Qed.
Lemma spelled_entry d s k v : spelled (PDict d) s -> dget k d = Some v -> exists t, spelled v t.
Proof.
  intros S G. inversion S as [| | | | | | | | | |d' s' N1 N2 EL]; subst. apply elements_spelled in EL. rewrite Forall_forall in EL. apply (EL v). apply dget_In in G. apply in_flat_map. exists (k, v). split; auto. right. left. reflexivity.
Qed.
Lemma spelled_item l s v : spelled (PList l) s -> In v l -> exists t, spelled v t.
Proof. intros S I. inversion S as [| | | | | | | | |l' s' EL|]; subst. apply elements_spelled in EL. rewrite Forall_forall in EL. auto. Qed.
Lemma spelled_nodup d s : spelled (PDict d) s -> NoDup (map fst d).
Proof. intros S. now inversion S. Qed.
Lemma decode_spelled d s x : spelled (PDict d) s -> (forall x, dget K_Filter d <> Some (PDict x)) -> decode_stream x (rvd d) = decode_stream x d.
Proof.
  intros S NF. apply decode_rv; auto.
  - eapply spelled_nodup; eauto.
  - intros p G. destruct (spelled_entry _ _ _ _ S G) as [t T]. eapply spelled_nodup; eauto.
  - intros l p G I. destruct (spelled_entry _ _ _ _ S G) as [t T]. destruct (spelled_item _ _ _ T I) as [u U]. eapply spelled_nodup; eauto.
Qed.

(* the token of an object and what is read of it *)
Lemma spelled_token o s : spelled o s -> (forall g n, o <> PRef g n) -> exists k, tokk s k /\ (closed o -> selfdel k = true) /\ s <> [].
Proof.
  intros SP NR. destruct (proj1 spelling o s SP) as (_ & _ & NE & _ & _ & _ & D & _). unfold direct in D.
  assert (K : exists k, kind_of o = Some k).
  { inversion SP; subst; cbn; eauto. all: try (exfalso; eapply NR; reflexivity). all: destruct s as [|c s]; eauto;
    repeat match goal with |- exists k, match ?x with _ => _ end = Some k => destruct x; eauto end. }
  destruct K as (k & K). rewrite K in D. exists k. split; [apply D|]. split; auto. intro C. eapply closed_selfdel; eauto.
Qed.

(* what follows the content of an object *)
Definition after (o : obj) (tail : bytes) : Prop :=
  match o with PStream _ _ _ => True | _ => apart o tail end.
(* what is read back *)
Definition rd (o : obj) : obj := match o with PStream d x y => PStream (rvd d) x y | _ => rv o end.
Lemma content_read o s : content o s -> s <> [] /\ peq o (rd o) /\ forall pre tail, after o tail ->
  parse_obj (pre ++ s ++ tail) (length pre) = Ok (rd o) /\
  forall pre' w, Forall white w -> exists j k, next_token (pre' ++ w ++ s ++ tail) (length pre') = (length (pre' ++ w), j, Some k).
Proof.
  intros C. destruct C as [o s S NR|s L|d s w e1 enc e2 sc S W E1 O D NF DE].
  - destruct (spelled_token o s S NR) as (k & T & CL & NE). split; auto.
    assert (ER : rd o = rv o) by (destruct o; auto; inversion S). rewrite ER. destruct (proj1 spelling o s S) as (_ & _ & _ & _ & _ & PQ & _). split; auto. intros pre tail A.
    assert (AP : apart o tail). { destruct o; auto. inversion S. }
    destruct (apart_tail o tail AP) as [C NS]. split; [apply spelled_rv; auto|].
    intros pre' w W. exists (length (pre' ++ w) + length s)%nat, k. apply next_token_white; auto. destruct C; auto.
  - destruct (top_direct (fun g => g = 0) (PBytes s) (wt_lit s L)) as (v & k & E & K & T & _). cbn in E. injection E as <-.
    destruct L as (b & -> & LB). split; [discriminate|]. set (s := 40 :: b ++ [41]) in *. cbn [rd rv]. split; [constructor|]. intros pre tail A.
    destruct (apart_tail _ tail A) as [C NS]. cbn in K. injection K as <-. split.
    + apply (top_parse (fun g => g = 0) (PBytes s) s pre tail); auto. apply wt_lit. exists b. auto.
    + intros pre' w W. exists (length (pre' ++ w) + length s)%nat, TString. apply next_token_white; auto.
  - destruct (proj1 spelling _ s S) as (_ & _ & NE & _ & _ & PQ & DI & _). unfold direct in DI. cbn [kind_of] in DI. destruct DI as [T P].
    assert (NV : forall x, s ++ x <> []) by (intros x Q; apply app_eq_nil in Q as [Q _]; auto).
    split; auto. cbn [rd]. split; [constructor; exact PQ|]. intros pre tail _.
    change (B "stream") with W_stream. change (B "endstream") with W_endstream. fold (strm e1 enc e2). set (u := strm e1 enc e2) in *.
    split.
    + replace (length pre) with (length pre + 0)%nat by lia. rewrite parse_obj_shift. unfold parse_obj. set (t := (s ++ w ++ u) ++ tail). rewrite pobj_S.
      assert (TE : t = s ++ w ++ u ++ tail) by (unfold t; rewrite <- !app_assoc; auto).
      assert (T1 : next_token t 0 = (0%nat, length s, Some TDict)) by (rewrite TE; unfold next_token; cbn [skipn]; rewrite T by auto; auto).
      assert (T2 : next_token t (length s) = (length (s ++ w), (length (s ++ w) + length u)%nat, Some TStream)).
      { rewrite TE. apply next_token_any; auto. intros h cur i. apply tok_data; auto. }
      rewrite T1, T2.
      assert (S1 : sub t 0 (length s) = s) by (rewrite TE; apply (sub_app [] s)).
      assert (S2 : sub t (length (s ++ w)) (length (s ++ w) + length u) = u) by (rewrite TE, (app_assoc s); apply sub_app).
      rewrite S1, S2.
      assert (LT : (length s < length t)%nat). { rewrite TE, !app_length. unfold u, strm. rewrite !app_length. cbn [length W_stream]. lia. }
      specialize (P (length t) [] LT ltac:(auto) ltac:(discriminate)). rewrite app_nil_r in P. rewrite P. cbn [bind].
      assert (PB : pobj (length t) u 0 = Ok (PBytes enc)).
      { destruct (length t) as [|f]; [lia|]. rewrite pobj_S. unfold next_token. cbn [skipn].
        replace u with (u ++ []) at 1 2 by apply app_nil_r. unfold u. rewrite tok_data by auto. fold u.
        cbn [plus]. pose proof (sub_app [] u []) as Q. cbn [length plus app] in Q. rewrite app_nil_r in Q.
        rewrite Q. unfold u. rewrite body_data by auto. auto. }
      rewrite PB. cbn [bind rv]. change (rv (PDict d)) with (PDict (rvd d)). cbn [bind]. rewrite (decode_spelled d s _ S NF). rewrite DE. reflexivity.
    + intros pre' w' W'. exists (length (pre' ++ w') + length s)%nat, TDict. rewrite <- !app_assoc. apply next_token_white; auto.
Qed.

Lemma digits_token a : a <> [] -> Forall decdigit a -> tokk a TInteger /\ py_int 10 a = Some (decimal a).
Proof.
  intros NE F. destruct (int_read _ _ (decimal_int a NE F)) as (P & T & _). split; auto. now apply tokk_of_1.
Qed.
Lemma white_sepstart w r : Forall white w -> w <> [] -> sepstart (w ++ r).
Proof. intros W N. destruct w as [|c w]; [congruence|]. inversion W; subst. cbn [app]. now apply sep_cons. Qed.

(* C99 : an indirect object is read as it is written *)
Theorem stored_rd n g o txt : object_text n g o txt -> peq o (rd o) /\ forall pre post,
  object_read (pre ++ txt ++ post) (length pre) = Ok (rd o) /\
  exists bo j, parse_indirect_obj (pre ++ txt ++ post) (length pre) = Ok (mk_ind bo j n g (rd o)).
Proof.
  intros (a & w1 & b & w2 & w3 & s & g4 & -> & NA & FA & -> & NB & FB & -> & W1 & N1 & W2 & N2 & W3 & N3 & C & G & SEP).
  destruct (content_read o s C) as (NS & PQ & R). split; auto. intros pre post.
  change (B "obj") with W_objkw. change (B "endobj") with W_endobj. repeat rewrite <- app_assoc.
  set (tail := g4 ++ W_endobj ++ post).
  assert (AF : after o tail).
  { assert (AP : closed o \/ g4 <> [] -> apart o tail).
    { intro Q. split.
      - destruct Q as [Q|Q]; auto. right. apply sep_iff. unfold tail. apply gap_sep; auto.
      - exists g4, (W_endobj ++ post). split; auto. split; auto. right. eexists _, _. split; [reflexivity|]. split; [left; unfold letter; lia|]. intros [r Q']. discriminate. }
    unfold after. destruct SEP as [Q|[(d & x & y & ->)|Q]]; auto; destruct o; auto. }
  destruct (digits_token a NA FA) as [TA PA]. destruct (digits_token b NB FB) as [TB PB].
  set (t := pre ++ a ++ w1 ++ b ++ w2 ++ W_objkw ++ w3 ++ s ++ tail).
  assert (T1 : next_token t (length pre) = (length pre, length (pre ++ a), Some TInteger)).
  { pose proof (next_token_white pre [] a TInteger (w1 ++ b ++ w2 ++ W_objkw ++ w3 ++ s ++ tail) ltac:(constructor) TA (or_intror (white_sepstart w1 _ W1 N1))) as N.
    change ([] ++ ?x) with x in N. rewrite app_nil_r in N. unfold t. rewrite N, app_length. reflexivity. }
  assert (T2 : next_token t (length (pre ++ a)) = (length (pre ++ a ++ w1), length (pre ++ a ++ w1 ++ b), Some TInteger)).
  { pose proof (next_token_white (pre ++ a) w1 b TInteger (w2 ++ W_objkw ++ w3 ++ s ++ tail) W1 TB (or_intror (white_sepstart w2 _ W2 N2))) as N.
    repeat rewrite <- app_assoc in N. unfold t. rewrite N, !app_length. p3. }
  assert (T3 : next_token t (length (pre ++ a ++ w1 ++ b)) = (length (pre ++ a ++ w1 ++ b ++ w2), length (pre ++ a ++ w1 ++ b ++ w2 ++ W_objkw), Some TKeyword)).
  { pose proof (next_token_white (pre ++ a ++ w1 ++ b) w2 W_objkw TKeyword (w3 ++ s ++ tail) W2 obj_tok) as N.
    repeat rewrite <- app_assoc in N. unfold t. rewrite N, !app_length; [p3|]. right. destruct N3 as [N3|(c & r & -> & DC)].
    - now apply white_sepstart.
    - destruct w3; [|apply white_sepstart; auto; discriminate]. cbn [app]. apply sep_iff. eauto. }
  destruct (R (pre ++ a ++ w1 ++ b ++ w2 ++ W_objkw ++ w3) tail AF) as [P _].
  destruct (proj2 (R pre tail AF) (pre ++ a ++ w1 ++ b ++ w2 ++ W_objkw) w3 W3) as (j4 & k4 & T4).
  replace ((pre ++ a ++ w1 ++ b ++ w2 ++ W_objkw ++ w3) ++ s ++ tail) with t in P by (unfold t; repeat rewrite <- app_assoc; reflexivity).
  replace ((pre ++ a ++ w1 ++ b ++ w2 ++ W_objkw) ++ w3 ++ s ++ tail) with t in T4 by (unfold t; repeat rewrite <- app_assoc; reflexivity).
  replace ((pre ++ a ++ w1 ++ b ++ w2 ++ W_objkw) ++ w3) with (pre ++ a ++ w1 ++ b ++ w2 ++ W_objkw ++ w3) in T4 by (repeat rewrite <- app_assoc; reflexivity).
  split.
  - unfold object_read. rewrite T1, T2, T3, T4. exact P.
  - unfold parse_indirect_obj. rewrite T1, T2, T3, T4.
    replace (sub t (length pre) (length (pre ++ a))) with a by (symmetry; unfold t; apply sub_app_exact; [auto|rewrite app_length; reflexivity]).
    replace (sub t (length (pre ++ a ++ w1)) (length (pre ++ a ++ w1 ++ b))) with b.
    2:{ symmetry. unfold t. replace (pre ++ a ++ w1 ++ b ++ w2 ++ W_objkw ++ w3 ++ s ++ tail) with ((pre ++ a ++ w1) ++ b ++ w2 ++ W_objkw ++ w3 ++ s ++ tail) by (rewrite <- !app_assoc; reflexivity).
        apply sub_app_exact; auto. rewrite !app_length. lia. }
    rewrite PA, PB, P. cbn [of_opt bind].
    destruct (next_token t j4) as [[i5 j5] t5]. destruct (next_token t j5) as [[i6 j6] t6]. eauto.
Qed.
Theorem stored_read n g o txt : object_text n g o txt -> exists o', peq o o' /\ forall pre post,
  object_read (pre ++ txt ++ post) (length pre) = Ok o' /\
  exists bo j, parse_indirect_obj (pre ++ txt ++ post) (length pre) = Ok (mk_ind bo j n g o').
Proof. intro T. exists (rd o). exact (stored_rd n g o txt T). Qed.
End WithZlib.
