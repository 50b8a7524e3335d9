(* Streams: lemmas behind C15 *)
From Coq Require Import ZifyBool ZifyNat.
From Verif Require Import PyBase Model_Filters Model_Objects Spec_Objects Facts_Base Facts_Token Facts_Obj Facts_Ser Facts_Parse Facts_Top.

Lemma starts_stop p s x t : ~ In x p -> starts p (s ++ x :: t) = true -> starts p s = true.
Proof.
  revert s. induction p as [|a p IH]; intros s N H; auto.
  destruct s as [|b s].
  - apply starts_iff in H as [r E]. cbn in E. inversion E; subst. exfalso. apply N. left; auto.
  - apply starts_iff in H as [r E]. cbn in E. inversion E; subst.
    apply starts_iff. destruct (proj1 (starts_iff p s)) as [r' E'].
    + apply IH; [intros I; apply N; right; auto|]. apply starts_iff. exists r. auto.
    + exists r'. cbn. rewrite E'. auto.
Qed.

Lemma starts_occurs p s : starts p s = true -> occurs p s.
Proof. intros H. apply starts_iff in H as [r ->]. exists [], r. auto. Qed.
Lemma occurs_cons p c s : occurs p s -> occurs p (c :: s).
Proof. intros (a & b & ->). exists (c :: a), b. auto. Qed.
Lemma occurs_inv p c s : occurs p (c :: s) -> starts p (c :: s) = true \/ occurs p s.
Proof.
  intros (a & b & E). destruct a as [|x a].
  - left. apply starts_iff. exists b. auto.
  - right. inversion E; subst. exists a, b. auto.
Qed.
Lemma occurs_split p x s t : p <> [] -> ~ In x p -> occurs p (s ++ x :: t) -> occurs p s \/ occurs p t.
Proof.
  intros NE N. induction s as [|c s IH]; intros O.
  - cbn [app] in O. apply occurs_inv in O as [O|O]; auto. exfalso.
    apply starts_iff in O as [r E]. destruct p; [congruence|]. inversion E; subst. apply N. left; auto.
  - cbn [app] in O. apply occurs_inv in O as [O|O].
    + left. apply starts_occurs. apply (starts_stop p (c :: s) x t); auto.
    + destruct (IH O); auto using occurs_cons.
Qed.

Lemma last_cons_ne {A} (c : A) s d : s <> [] -> last (c :: s) d = last s d.
Proof. destruct s; [congruence|auto]. Qed.

Lemma starts_cons a p c s : starts (a :: p) (c :: s) = (c =? a) && starts p s.
Proof. reflexivity. Qed.

(* the scan of a stream stops at the final marker *)
Lemma scan_stream s : ~ occurs W_endstream s -> last s 0 <> 13 ->
  forall tail n tia h cur i,
  ntok SStream n tia h cur i (s ++ 10 :: W_endstream ++ tail) = (h, (i + length s + 10)%nat, Some TStream).
Proof.
  assert (N10 : ~ In 10 W_endstream) by (cbn; lia).
  induction s as [|c s IH]; intros O L tail n tia h cur i.
  - cbn [app]. nstep. change (EOL ++ W_endstream) with (13 :: 10 :: W_endstream). rewrite !starts_cons.
    cbn [Z.eqb Pos.eqb andb]. rewrite starts_app. cbn [length]. p3.
  - assert (O' : ~ occurs W_endstream s) by (intros Q; apply O, occurs_cons; auto).
    assert (S0 : forall y, starts W_endstream (s ++ y :: W_endstream ++ tail) = true -> y = 10 -> False).
    { intros y Q ->. apply starts_stop in Q; auto using starts_occurs. }
    cbn [app]. nstep. change (EOL ++ W_endstream) with (13 :: 10 :: W_endstream).
    assert (A1 : starts (13 :: 10 :: W_endstream) (c :: s ++ 10 :: W_endstream ++ tail) = false).
    { rewrite starts_cons. destruct (c =? 13) eqn:C; auto. cbn [andb].
      destruct s as [|d s]; [cbn in L; lia|]. cbn [app]. rewrite starts_cons.
      destruct (d =? 10); auto. cbn [andb].
      destruct (starts W_endstream (s ++ 10 :: W_endstream ++ tail)) eqn:Q; auto.
      exfalso. apply starts_stop in Q; auto. apply O'. apply occurs_cons, starts_occurs; auto. }
    assert (A2 : starts (10 :: W_endstream) (c :: s ++ 10 :: W_endstream ++ tail) = false).
    { rewrite starts_cons. destruct (starts W_endstream (s ++ 10 :: W_endstream ++ tail)) eqn:Q; [|apply andb_false_r].
      exfalso. eapply S0; eauto. }
    assert (A3 : starts (13 :: W_endstream) (c :: s ++ 10 :: W_endstream ++ tail) = false).
    { rewrite starts_cons. destruct (starts W_endstream (s ++ 10 :: W_endstream ++ tail)) eqn:Q; [|apply andb_false_r].
      exfalso. eapply S0; eauto. }
    assert (A4 : starts W_endstream (c :: s ++ 10 :: W_endstream ++ tail) = false).
    { destruct (starts W_endstream (c :: s ++ 10 :: W_endstream ++ tail)) eqn:Q; auto.
      exfalso. apply (starts_stop W_endstream (c :: s) 10) in Q; auto using starts_occurs. }
    rewrite A1, A2, A3, A4. rewrite IH; auto.
    + cbn [length]. p3.
    + destruct s; [cbn; lia|]. rewrite last_cons_ne in L by discriminate. auto.
Qed.

Definition bare (enc : bytes) : bytes := W_stream ++ [10] ++ enc ++ W_nl_endstream.

Lemma bare_length enc : length (bare enc) = (length enc + 17)%nat.
Proof. unfold bare. rewrite !app_length. cbn [length W_stream W_nl_endstream]. lia. Qed.

Lemma tok_stream enc tail h cur i : enc <> [] -> ~ occurs W_endstream enc -> last enc 0 <> 13 ->
  ntok STbd 1 false h cur i (bare enc ++ tail) = (i, (i + length (bare enc))%nat, Some TStream).
Proof.
  intros NE O L. rewrite bare_length.
  replace (bare enc ++ tail) with (115 :: (([116; 114; 101; 97; 109] ++ 10 :: enc) ++ 10 :: W_endstream ++ tail)).
  2:{ unfold bare. cbn [W_stream app]. rewrite <- !app_assoc. auto. }
  nstep. cbn [Z.eqb Pos.eqb andb].
  replace (starts W_stream (115 :: ([116; 114; 101; 97; 109] ++ 10 :: enc) ++ 10 :: W_endstream ++ tail)) with true by reflexivity.
  rewrite scan_stream.
  - rewrite app_length. cbn [length]. p3.
  - intros Q. apply occurs_split in Q; [|discriminate|cbn; lia]. destruct Q as [(a & b & Q)|Q]; auto.
    apply (f_equal (@length Z)) in Q. rewrite !app_length in Q. cbn [length W_endstream] in Q. lia.
  - cbn [app]. rewrite !last_cons_ne by discriminate. rewrite last_cons_ne; auto.
Qed.

Lemma tok_nl_stream enc tail h cur i : enc <> [] -> ~ occurs W_endstream enc -> last enc 0 <> 13 ->
  ntok STbd 1 false h cur i (10 :: bare enc ++ tail) = (S i, (S i + length (bare enc))%nat, Some TStream).
Proof. intros. rewrite tbd_white by (unfold white; auto). apply tok_stream; auto. Qed.

Lemma ends_app p s : ends p (s ++ p) = true.
Proof.
  unfold ends. rewrite app_length. replace (length s + length p - length p)%nat with (length s) by lia.
  rewrite skipn_app_len. apply beqb_refl.
Qed.

Lemma ends_eq p s q : length p = length q -> ends p (s ++ q) = beqb q p.
Proof.
  intros E. unfold ends. rewrite app_length. replace (length s + length q - length p)%nat with (length s) by lia.
  rewrite skipn_app_len. auto.
Qed.

Lemma last_split {A} (s : list A) d : s <> [] -> s = removelast s ++ [last s d].
Proof. intros. apply app_removelast_last. auto. Qed.

Lemma stream_body_bare enc : enc <> [] -> last enc 0 <> 13 -> stream_body (bare enc) = Some enc.
Proof.
  intros NE L. unfold stream_body.
  replace (starts (W_stream ++ EOL) (bare enc)) with false by reflexivity.
  replace (starts (W_stream ++ [10]) (bare enc)) with true by reflexivity.
  assert (E1 : ends (EOL ++ W_endstream) (bare enc) = false).
  { replace (bare enc) with ((W_stream ++ [10] ++ removelast enc) ++ (last enc 0 :: W_nl_endstream)).
    - rewrite ends_eq by reflexivity. change (EOL ++ W_endstream) with (13 :: W_nl_endstream).
      cbn [beqb]. replace (last enc 0 =? 13) with false by lia. auto.
    - unfold bare. rewrite (last_split enc 0) at 3 by auto. rewrite <- !app_assoc. auto. }
  rewrite E1.
  assert (E2 : ends (10 :: W_endstream) (bare enc) = true).
  { unfold bare. rewrite !app_assoc. change (10 :: W_endstream) with W_nl_endstream. apply ends_app. }
  rewrite E2. f_equal. rewrite bare_length. unfold sub.
  replace (length enc + 17 - 10 - 7)%nat with (length enc) by lia.
  change (skipn 7 (bare enc)) with (enc ++ W_nl_endstream). apply firstn_app_len.
Qed.

Section WithZlib.
Context {ZL : Zlib}.

(* decoding looks at the entries only through lookups *)
Lemma py_int_rv o : py_int_obj (rv o) = py_int_obj o.
Proof. destruct o; auto. Qed.

Lemma apply_parm_rv p r : (forall d, p = Some (PDict d) -> NoDup (map fst d)) ->
  apply_parm (option_map rv p) r = apply_parm p r.
Proof.
  intros N. destruct p as [[]|]; auto.
  - cbn. assert (Q : existsb (fun x => match x with PStr s => beqb s K_Predictor | _ => false end) (map rv l)
      = existsb (fun x => match x with PStr s => beqb s K_Predictor | _ => false end) l).
    { clear N. induction l as [|x l IH]; auto. cbn [map existsb]. rewrite IH. destruct x; auto. }
    rewrite Q. auto.
  - cbn [option_map]. change (rv (PDict d)) with (PDict (rvd d)). cbn [apply_parm]. unfold dhas.
    rewrite !dget_rvd by auto.
    destruct (dget K_Predictor d) as [a|]; auto. cbn [option_map].
    destruct (dget K_Columns d) as [b|]; auto. cbn [option_map]. rewrite !py_int_rv. auto.
Qed.

Lemma decode_loop_rv s p q fl : (forall i r, apply_parm (p i) r = apply_parm (q i) r) ->
  forall i acc, decode_loop s p i (map rv fl) acc = decode_loop s q i fl acc.
Proof.
  intros H. induction fl as [|f fl IH]; intros i acc; auto. cbn [map decode_loop].
  destruct f; auto. cbn [rv].
  destruct (beqb s0 F_Flate).
  - destruct (match s with Some s => z_decompress s | None => None end); auto. rewrite H.
    destruct (apply_parm (q i) _); auto.
  - destruct (beqb s0 F_Hex); [destruct (match s with Some s => unhexlify s | None => None end); auto|].
    destruct (beqb s0 F_A85); auto. destruct (match s with Some s => a85decode s | None => None end); auto.
Qed.

Lemma nth_error_map_rv l i : nth_error (map rv l) i = option_map rv (nth_error l i).
Proof. revert i. induction l; destruct i; cbn; auto. Qed.

Lemma decode_stream_rv s d : wfv (PDict d) -> (forall x, dget K_Filter d <> Some (PDict x)) ->
  decode_stream s (rvd d) = decode_stream s d.
Proof.
  intros W NF. assert (ND : NoDup (map fst d)) by (inversion W; auto).
  assert (WD : forall k v, dget k d = Some v -> wfv v).
  { intros k v E. apply dget_In in E. inversion W; subst. rewrite Forall_forall in H1. apply (H1 _ E). }
  unfold decode_stream. rewrite !dget_rvd by auto.
  destruct (dget K_Filter d) as [f|] eqn:EF; auto. cbn [option_map].
  assert (PP : forall i r,
    apply_parm (match option_map rv (dget K_DecodeParms d) with
                | None => fun _ => Some PNone
                | Some (PDict p) => fun i => match i with O => Some (PDict p) | _ => None end
                | Some (PList l) => nth_error l
                | Some (PStr n) => nth_error (map (fun c => PStr [c]) n)
                | Some (PBytes n) => nth_error (map PInt n)
                | Some _ => fun _ => None end i) r
    = apply_parm (match dget K_DecodeParms d with
                | None => fun _ => Some PNone
                | Some (PDict p) => fun i => match i with O => Some (PDict p) | _ => None end
                | Some (PList l) => nth_error l
                | Some (PStr n) => nth_error (map (fun c => PStr [c]) n)
                | Some (PBytes n) => nth_error (map PInt n)
                | Some _ => fun _ => None end i) r).
  { intros i r. destruct (dget K_DecodeParms d) as [p|] eqn:EP; auto. apply WD in EP.
    destruct p; auto; cbn [option_map rv].
    - rewrite nth_error_map_rv. apply apply_parm_rv. intros p E. apply nth_error_In in E.
      inversion EP; subst. rewrite Forall_forall in H0. specialize (H0 _ E). inversion H0; auto.
    - destruct i; auto. apply (apply_parm_rv (Some (PDict d0))). intros d' E. inversion E; subst. inversion EP; auto. }
  destruct f; cbn [rv iter_obj bind]; auto.
  - replace (map PStr (split_ws s0)) with (map rv (map PStr (split_ws s0))) at 1.
    + erewrite decode_loop_rv by exact PP. auto.
    + rewrite map_map. auto.
  - destruct s0; auto.
  - erewrite decode_loop_rv by exact PP. auto.
  - exfalso. eapply NF. eauto.
Qed.

Theorem stream_readback d s enc : wfv (PDict d) -> enc <> [] -> ~ occurs W_endstream enc -> last enc 0 <> 13 ->
  exists v, serialize (PStream d s (Some enc)) = Ok v /\
  forall pre tail, parse_obj (pre ++ v ++ tail) (length pre)
    = let* sc := decode_stream (Some enc) (rvd d) in Ok (PStream (rvd d) sc (Some enc)).
Proof.
  intros W NE O L.
  destruct (wfv_readback _ (PDict d) W 0) as (v & E & _ & _ & _ & D). cbn [direct kind_of] in D.
  unfold direct in D. cbn [kind_of] in D. destruct D as [T P].
  exists (v ++ 10 :: bare enc). split.
  { unfold serialize. rewrite ser_stream. rewrite ser_dict in E.
    destruct (ser_entries 0 d) as [b| |]; cbn [bind] in *; try discriminate. inversion E; subst v. f_equal.
    destruct enc as [|x c]; [congruence|]. cbn [stream_text]. unfold bare.
    cbn [app repeat]. rewrite <- !app_assoc. reflexivity. }
  intros pre tail. replace (length pre) with (length pre + 0)%nat by lia. rewrite parse_obj_shift.
  unfold parse_obj. set (t := (v ++ 10 :: bare enc) ++ tail). rewrite pobj_S.
  assert (TE : t = v ++ 10 :: bare enc ++ tail) by (unfold t; rewrite <- app_assoc; auto).
  assert (T1 : next_token t 0 = (0%nat, length v, Some TDict)).
  { rewrite TE. unfold next_token. cbn [skipn]. rewrite T by auto. auto. }
  assert (T2 : next_token t (length v) = (S (length v), (S (length v) + length (bare enc))%nat, Some TStream)).
  { rewrite TE. replace (length v) with (length v + 0)%nat at 1 by lia. rewrite next_token_app.
    unfold next_token. cbn [skipn]. rewrite tok_nl_stream by auto. cbn [shift3]. p3. }
  rewrite T1, T2.
  assert (S1 : sub t 0 (length v) = v) by (rewrite TE; apply (sub_app [] v)).
  assert (S2 : sub t (S (length v)) (S (length v) + length (bare enc)) = bare enc).
  { rewrite TE. pose proof (sub_app (v ++ [10]) (bare enc) tail) as Q. rewrite app_length in Q. cbn [length] in Q.
    rewrite <- app_assoc in Q. cbn [app] in Q. rewrite Nat.add_1_r in Q. exact Q. }
  rewrite S1, S2.
  assert (LT : (length v < length t)%nat) by (rewrite TE, app_length; cbn [length]; lia).
  specialize (P (length t) [] LT ltac:(auto) ltac:(discriminate)). rewrite app_nil_r in P. rewrite P. cbn [bind].
  assert (PB : pobj (length t) (bare enc) 0 = Ok (PBytes enc)).
  { destruct (length t) as [|f]; [lia|]. rewrite pobj_S. unfold next_token. cbn [skipn].
    replace (bare enc) with (bare enc ++ []) at 1 2 by apply app_nil_r. rewrite tok_stream by auto.
    cbn [plus]. pose proof (sub_app [] (bare enc) []) as Q. cbn [length plus app] in Q. rewrite app_nil_r in Q.
    rewrite Q, stream_body_bare by auto. auto. }
  rewrite PB. cbn [bind rv]. reflexivity.
Qed.

Theorem stream_roundtrip d s enc sc : wfv (PDict d) -> enc <> [] -> ~ occurs W_endstream enc -> last enc 0 <> 13 ->
  (forall x, dget K_Filter d <> Some (PDict x)) ->
  decode_stream (Some enc) d = Ok sc ->
  exists v d', serialize (PStream d s (Some enc)) = Ok v /\ peq (PDict d) (PDict d') /\
  forall pre tail, parse_obj (pre ++ v ++ tail) (length pre) = Ok (PStream d' sc (Some enc)).
Proof.
  intros W NE O L NF D. destruct (stream_readback d s enc W NE O L) as (v & E & P).
  exists v, (rvd d). split; auto. split; [apply (wfv_peq (PDict d)); auto|].
  intros pre tail. rewrite P, decode_stream_rv, D by auto. auto.
Qed.

End WithZlib.
