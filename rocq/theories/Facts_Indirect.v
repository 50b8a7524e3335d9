(* Indirect objects: written and read back *)
From Coq Require Import String ZifyBool ZifyNat.
From Verif Require Import PyBase Model_Filters Model_Objects Model_Filestruct Spec_Objects Spec_Filestruct
  Facts_Base Facts_Token Facts_Obj Facts_Ser Facts_Parse Facts_Top Facts_Stream Facts_Filters Facts_Refs Facts_Prov Facts_Xref.

(* the value that is read *)
Definition rvs (o : obj) : obj := match o with PStream d s e => PStream (rvd d) s e | _ => rv o end.

Section WithZlib.
Context {ZL : Zlib}.

Lemma storable_peq o : storable o -> peq o (rvs o).
Proof.
  intros [o' W|d s enc W _ _ _ _ _].
  - destruct W as [o'' W N|t L].
    + pose proof (wfv_peq o'' W). destruct W; auto.
    + constructor.
  - cbn [rvs]. constructor. apply (wfv_peq (PDict d)); auto.
Qed.

(* tokens met when a value is read, in front of white space and a word *)
Definition valtxt (o o' : obj) (v : bytes) : Prop :=
  serialize o = Ok v /\ v <> [] /\
  forall pre ws tail, Forall white ws -> follows tail -> let t := pre ++ ws ++ v ++ tail in
    parse_obj t (length (pre ++ ws)) = Ok o' /\
    exists j k, next_token t (length pre) = (length (pre ++ ws), j, Some k) /\
      ((j = length (pre ++ ws ++ v) /\ k <> TStream) \/
       (exists h, next_token t j = (h, length (pre ++ ws ++ v), Some TStream))).

Lemma valtxt_top G o : wf_topx G o -> exists v, valtxt o (rv o) v.
Proof.
  intros W. destruct (top_direct _ o W) as (v & k & E & K & T & _). exists v. split; auto. split.
  { intros ->. specialize (T [32] 0%nat [] 0%nat (or_intror (ex_intro _ 32 (ex_intro _ [] (conj eq_refl eq_refl))))). cbn in T. discriminate. }
  intros pre ws tail WS F t. destruct (follows_not_stream _ F) as [S NS]. split.
  - unfold t. rewrite (app_assoc pre). apply (top_parse G); auto.
  - exists (length (pre ++ ws ++ v)), k. split.
    + unfold t. rewrite (next_token_white pre ws v k tail WS T) by auto. rewrite !app_length. p3.
    + left. split; auto. intros ->. destruct o; cbn in K; try discriminate.
      * destruct b; discriminate.
      * destruct s as [|[|p|p] s]; try discriminate. repeat (destruct p as [p|p|]; try discriminate).
Qed.

Lemma valtxt_stream d s enc : wfv (PDict d) -> enc <> [] -> ~ occurs W_endstream enc -> last enc 0 <> 13 ->
  (forall x, dget K_Filter d <> Some (PDict x)) ->
  decode_stream (Some enc) d = Ok s -> exists v, valtxt (PStream d s (Some enc)) (PStream (rvd d) s (Some enc)) v.
Proof.
  intros W NE O L NF D. destruct (stream_readback d s enc W NE O L) as (v & E & P).
  exists v. split; auto.
  destruct (wfv_readback _ (PDict d) W 0) as (w & E1 & _ & _ & _ & D1). unfold direct in D1. cbn [kind_of] in D1.
  destruct D1 as [T _].
  assert (EV : v = w ++ 10 :: bare enc).
  { unfold serialize in E. rewrite ser_stream in E. rewrite ser_dict in E1.
    destruct (ser_entries 0 d) as [b| |]; cbn [bind] in *; try discriminate. inversion E1; subst w. inversion E.
    destruct enc as [|x c]; [congruence|]. cbn [stream_text]. unfold bare.
    cbn [app repeat]. rewrite <- !app_assoc. reflexivity. }
  split. { rewrite EV. destruct w; discriminate. }
  intros pre ws tail WS F t. split.
  - unfold t. rewrite (app_assoc pre), P, decode_stream_rv, D by auto. reflexivity.
  - exists (length (pre ++ ws ++ w)), TDict. split.
    + pose proof (next_token_white pre ws w TDict (10 :: bare enc ++ tail) WS T ltac:(auto)) as N.
      unfold t. rewrite EV, <- app_assoc. cbn [app]. rewrite N, !app_length. p3.
    + right. exists (S (length (pre ++ ws ++ w))). unfold t. rewrite EV, <- app_assoc. cbn [app].
      replace (pre ++ ws ++ w ++ 10 :: bare enc ++ tail) with ((pre ++ ws ++ w) ++ 10 :: bare enc ++ tail) by (rewrite <- !app_assoc; reflexivity).
      replace (length (pre ++ ws ++ w)) with (length (pre ++ ws ++ w) + 0)%nat at 1 by lia. rewrite next_token_app.
      unfold next_token. cbn [skipn]. rewrite tok_nl_stream by auto. cbn [shift3]. rewrite !app_length. cbn [length]. p3.
Qed.

Lemma valtxt_storable o : storable o -> exists v, valtxt o (rvs o) v.
Proof.
  intros [o' W|d s enc W NE O L NF D].
  - destruct (valtxt_top _ o' W) as (v & V). exists v. destruct W as [o'' W N|t L]; auto. destruct W; auto.
  - apply valtxt_stream; auto.
Qed.

Lemma dec_tok n : tokk (dec n) TInteger.
Proof.
  destruct (top_direct (fun _ => True) (PInt n)) as (v & k & E & K & T & _).
  { constructor; [constructor|discriminate]. }
  cbn in E, K. inversion E; inversion K; subst. exact T.
Qed.

Lemma word_tok c w : letter c -> Forall (fun c => is_sep c = false) w -> ~ prefix_of W_stream (c :: w) ->
  beqb W_true (c :: w) = false -> beqb W_false (c :: w) = false -> tokk (c :: w) TKeyword.
Proof.
  intros L F N A1 A2. apply tokk_of_1; auto. pose proof (tok1_keyword c w L F N) as T. rewrite A1, A2 in T. exact T.
Qed.

Definition W_objkw := [111; 98; 106].
Definition W_endobj := [101; 110; 100; 111; 98; 106].

Lemma obj_tok : tokk W_objkw TKeyword.
Proof. apply word_tok; try reflexivity; [unfold letter; lia|repeat constructor|intros [r Q]; discriminate]. Qed.
Lemma endobj_tok : tokk W_endobj TKeyword.
Proof. apply word_tok; try reflexivity; [unfold letter; lia|repeat constructor|intros [r Q]; discriminate]. Qed.

Lemma sep_cons c r : white c -> sepstart (c :: r).
Proof. intros W. exists c, r. split; auto using white_sep. Qed.

(* tokens of an object, one after the other *)
Lemma object_tokens num gen o o' v pre post : valtxt o o' v ->
  let t := pre ++ dec num ++ [32] ++ dec gen ++ [32] ++ W_objkw ++ [10] ++ v ++ [10] ++ W_endobj ++ [10] ++ post in
  let p1 := length (pre ++ dec num) in
  let p2 := length (pre ++ dec num ++ [32] ++ dec gen) in
  let p3 := length (pre ++ dec num ++ [32] ++ dec gen ++ [32] ++ W_objkw) in
  let p4 := length (pre ++ dec num ++ [32] ++ dec gen ++ [32] ++ W_objkw ++ [10]) in
  let p5 := length (pre ++ dec num ++ [32] ++ dec gen ++ [32] ++ W_objkw ++ [10] ++ v) in
  next_token t (length pre) = (length pre, p1, Some TInteger) /\
  next_token t p1 = (S p1, p2, Some TInteger) /\
  next_token t p2 = (S p2, p3, Some TKeyword) /\
  parse_obj t p4 = Ok o' /\
  (exists j k, next_token t p3 = (p4, j, Some k) /\
     ((j = p5 /\ k <> TStream) \/ (exists h, next_token t j = (h, p5, Some TStream)))) /\
  next_token t p5 = (S p5, (p5 + 7)%nat, Some TKeyword).
Proof.
  intros (SE & NV & V) t p1 p2 p3 p4 p5.
  assert (W32 : Forall white [32]) by (constructor; [unfold white; lia|constructor]).
  assert (W10 : Forall white [10]) by (constructor; [unfold white; lia|constructor]).
  assert (FO : follows ([10] ++ W_endobj ++ [10] ++ post)).
  { exists [10], (W_endobj ++ [10] ++ post). split; auto. split; [discriminate|]. split; auto.
    right. eexists _, _. split; [reflexivity|]. split; [left; unfold letter; lia|]. intros [r Q]. discriminate. }
  split; [|split; [|split; [|split; [|split]]]].
  - pose proof (next_token_white pre [] (dec num) TInteger ([32] ++ dec gen ++ [32] ++ W_objkw ++ [10] ++ v ++ [10] ++ W_endobj ++ [10] ++ post)
      ltac:(constructor) (dec_tok num) (or_intror (sep_cons 32 _ ltac:(unfold white; lia)))) as N.
    change ([] ++ ?x) with x in N. unfold t. rewrite N, app_nil_r. unfold p1. rewrite app_length. reflexivity.
  - pose proof (next_token_white (pre ++ dec num) [32] (dec gen) TInteger ([32] ++ W_objkw ++ [10] ++ v ++ [10] ++ W_endobj ++ [10] ++ post)
      W32 (dec_tok gen) (or_intror (sep_cons 32 _ ltac:(unfold white; lia)))) as N.
    rewrite <- !app_assoc in N. unfold t, p1. rewrite N. unfold p2. rewrite !app_length. cbn [length]. p3.
  - pose proof (next_token_white (pre ++ dec num ++ [32] ++ dec gen) [32] W_objkw TKeyword ([10] ++ v ++ [10] ++ W_endobj ++ [10] ++ post)
      W32 obj_tok (or_intror (sep_cons 10 _ ltac:(unfold white; lia)))) as N.
    rewrite <- !app_assoc in N. unfold t, p2. rewrite N. unfold p3. rewrite !app_length. cbn [length W_objkw]. p3.
  - destruct (V (pre ++ dec num ++ [32] ++ dec gen ++ [32] ++ W_objkw) [10] _ W10 FO) as (P & _).
    rewrite <- !app_assoc in P. exact P.
  - destruct (V (pre ++ dec num ++ [32] ++ dec gen ++ [32] ++ W_objkw) [10] _ W10 FO) as (_ & j & k & N & C).
    cbn zeta in N, C. repeat rewrite <- !app_assoc in N, C. exists j, k. split; [exact N|].
    destruct C as [C|(h & C)]; [left; exact C|right; exists h]. exact C.
  - pose proof (next_token_white (pre ++ dec num ++ [32] ++ dec gen ++ [32] ++ W_objkw ++ [10] ++ v) [10] W_endobj TKeyword ([10] ++ post)
      W10 endobj_tok (or_intror (sep_cons 10 _ ltac:(unfold white; lia)))) as N.
    rewrite <- !app_assoc in N. unfold t, p5. rewrite N. rewrite !app_length. cbn [length W_endobj]. p3.
Qed.

Lemma fragment_text num gen o txt : serialize_fragment num gen o = Ok txt -> exists v, serialize o = Ok v /\
  txt = dec num ++ [32] ++ dec gen ++ [32] ++ W_objkw ++ [10] ++ v ++ [10] ++ W_endobj ++ [10].
Proof.
  unfold serialize_fragment. destruct (serialize o) as [v| |]; try discriminate. cbn [bind]. intros E.
  inversion E. exists v. split; reflexivity.
Qed.

Lemma noeol_dec n : noeol (dec n).
Proof.
  pose proof (dec_nows n) as F. eapply Forall_impl; [|exact F]. intros c H. cbn in H.
  split; intros ->; tauto.
Qed.

Theorem fragment_read num gen o o' v txt pre post : valtxt o o' v ->
  txt = dec num ++ [32] ++ dec gen ++ [32] ++ W_objkw ++ [10] ++ v ++ [10] ++ W_endobj ++ [10] ->
  parse_indirect_obj (pre ++ txt ++ post) (length pre)
  = Ok (mk_ind (Some (length pre)) (length pre + length txt - 1) num gen o').
Proof.
  intros V ->. destruct (object_tokens num gen o o' v pre post V) as (T1 & T2 & T3 & P & (j & k & T4 & C) & T5).
  rewrite <- !app_assoc.
  set (t := pre ++ dec num ++ [32] ++ dec gen ++ [32] ++ W_objkw ++ [10] ++ v ++ [10] ++ W_endobj ++ [10] ++ post) in *.
  unfold parse_indirect_obj. 
  assert (NL : next_line t (length pre) = Some (length pre, length (pre ++ dec num ++ [32] ++ dec gen ++ [32] ++ W_objkw))).
  { pose proof (next_line_at pre (dec num ++ [32] ++ dec gen ++ [32] ++ W_objkw) (v ++ [10] ++ W_endobj ++ [10] ++ post)) as N.
    rewrite <- !app_assoc in N. unfold t. change ([10] ++ v ++ ?x) with (10 :: v ++ x). rewrite N.
    - rewrite !app_length. reflexivity.
    - repeat apply noeol_app; try apply noeol_dec; repeat constructor; lia.
    - intros E. apply app_eq_nil in E as [_ E]. discriminate. }
  rewrite NL, T1, T2, T3, T4. rewrite P.
  replace (sub t (length pre) (length (pre ++ dec num))) with (dec num).
  2:{ symmetry. unfold t. apply sub_app_exact; auto. rewrite app_length. reflexivity. }
  replace (sub t (S (length (pre ++ dec num))) (length (pre ++ dec num ++ [32] ++ dec gen))) with (dec gen).
  2:{ symmetry. unfold t. change (pre ++ dec num ++ [32] ++ dec gen ++ ?x) with (pre ++ dec num ++ [32] ++ dec gen ++ x).
      replace (pre ++ dec num ++ [32] ++ dec gen ++ [32] ++ W_objkw ++ [10] ++ v ++ [10] ++ W_endobj ++ [10] ++ post)
        with ((pre ++ dec num ++ [32%Z]) ++ dec gen ++ [32%Z] ++ W_objkw ++ [10%Z] ++ v ++ [10%Z] ++ W_endobj ++ [10%Z] ++ post)
        by (rewrite <- !app_assoc; reflexivity).
      apply sub_app_exact; rewrite !app_length; cbn [length]; lia. }
  rewrite !py_int_dec. cbn [of_opt bind].
  assert (LEN : (length (pre ++ dec num ++ [32%Z] ++ dec gen ++ [32%Z] ++ W_objkw ++ [10%Z] ++ v) + 7
          = length pre + length (dec num ++ [32%Z] ++ dec gen ++ [32%Z] ++ W_objkw ++ [10%Z] ++ v ++ [10%Z] ++ W_endobj ++ [10%Z]) - 1)%nat).
  { rewrite !app_length. cbn [length W_endobj]. lia. }
  destruct C as [[-> NK]|(h & N)].
  - rewrite T5, LEN. reflexivity.
  - rewrite N, T5, LEN. reflexivity.
Qed.

(* C59 : an object written by serialize_fragment is read by parse_indirect_obj *)
Theorem indirect_roundtrip num gen o : storable o -> exists txt o', serialize_fragment num gen o = Ok txt /\ peq o o' /\
  forall pre post, parse_indirect_obj (pre ++ txt ++ post) (length pre)
    = Ok (mk_ind (Some (length pre)) (length pre + length txt - 1) num gen o').
Proof.
  intros S. destruct (valtxt_storable o S) as (v & V). pose proof V as (SE & _).
  eexists _, (rvs o). split; [unfold serialize_fragment; rewrite SE; reflexivity|]. split; [apply storable_peq; auto|].
  intros pre post. apply (fragment_read num gen o (rvs o) v); auto.
Qed.

End WithZlib.
