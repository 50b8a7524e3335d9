(* Literal strings, references, xref /Index: lemmas behind C06, C07, C09, C10, C14, C21 *)
From Coq Require Import ZifyBool ZifyNat.
From Verif Require Import PyBase Model_Filters Model_Objects Spec_Objects Facts_Base Facts_Token Facts_Obj Facts_Ser Facts_Parse Facts_Top Facts_Stream.

(* ---------- literal strings ---------- *)
Lemma occurs_app_l p a b : occurs p a -> occurs p (a ++ b).
Proof. intros (x & y & ->). exists x, (y ++ b). rewrite <- !app_assoc. auto. Qed.
Lemma occurs_app_r p a b : occurs p b -> occurs p (a ++ b).
Proof. intros (x & y & ->). exists (a ++ x), y. rewrite <- !app_assoc. auto. Qed.

Lemma pdfbody_litbody b : pdfbody b ->
  ~ occurs [92; 92; 40] (b ++ [41]) -> ~ occurs [92; 92; 41] (b ++ [41]) ->
  litbody b /\ (match b with c :: _ => c <> 40 /\ c <> 41 | [] => False end -> litbody (92 :: b)).
Proof.
  induction 1 as [|c s H1 H2 H3 HS IH|c s HS IH|s1 s2 HS1 IH1 HS2 IH2]; intros O1 O2.
  - split; [constructor|tauto].
  - destruct IH as [L _].
    { intros Q. apply O1. cbn [app]. apply occurs_cons. auto. }
    { intros Q. apply O2. cbn [app]. apply occurs_cons. auto. }
    assert (LC : litbody (c :: s)) by (constructor; auto). split; auto. intros _. apply lb_bs; auto.
  - destruct IH as [L L2].
    { intros Q. apply O1. cbn [app]. apply occurs_cons, occurs_cons. auto. }
    { intros Q. apply O2. cbn [app]. apply occurs_cons, occurs_cons. auto. }
    assert (LE : litbody (92 :: c :: s)).
    { destruct (Z.eq_dec c 40) as [->|N1]; [apply lb_esc; auto|].
      destruct (Z.eq_dec c 41) as [->|N2]; [apply lb_esc; auto|].
      destruct (Z.eq_dec c 92) as [->|N3]; [|apply lb_bs; auto; apply lb_char; auto].
      apply lb_bs; try lia. apply L2. destruct s as [|x s].
      - apply O2. exists [], []. auto.
      - split; intros ->.
        + apply O1. exists [], (s ++ [41]). auto.
        + apply O2. exists [], (s ++ [41]). auto. }
    split; auto. intros _. apply lb_bs; auto; lia.
  - destruct IH1 as [L1 _].
    { intros Q. apply O1. cbn [app]. apply occurs_cons. rewrite <- app_assoc. cbn [app].
      change (s1 ++ 41 :: s2 ++ [41]) with (s1 ++ [41] ++ s2 ++ [41]). rewrite app_assoc. apply occurs_app_l. auto. }
    { intros Q. apply O2. cbn [app]. apply occurs_cons. rewrite <- app_assoc. cbn [app].
      change (s1 ++ 41 :: s2 ++ [41]) with (s1 ++ [41] ++ s2 ++ [41]). rewrite app_assoc. apply occurs_app_l. auto. }
    destruct IH2 as [L2 _].
    { intros Q. apply O1. cbn [app]. apply occurs_cons. rewrite <- app_assoc. apply occurs_app_r. cbn [app]. apply occurs_cons. auto. }
    { intros Q. apply O2. cbn [app]. apply occurs_cons. rewrite <- app_assoc. apply occurs_app_r. cbn [app]. apply occurs_cons. auto. }
    split; [apply lb_par; auto|]. intros Q. exfalso. destruct Q as [Q ?]. apply Q. reflexivity.
Qed.

Theorem literal_token b pre rest : pdfbody b ->
  ~ occurs [92; 92; 40] (b ++ [41]) -> ~ occurs [92; 92; 41] (b ++ [41]) ->
  next_token (pre ++ (40 :: b ++ [41]) ++ rest) (length pre)
  = (length pre, (length pre + length (40%Z :: b ++ [41%Z]))%nat, Some TString).
Proof.
  intros P O1 O2. destruct (pdfbody_litbody b P O1 O2) as [L _].
  replace (length pre) with (length pre + 0)%nat at 1 by lia. rewrite next_token_app.
  unfold next_token. cbn [skipn]. rewrite (tok1any_lit (40 :: b ++ [41])); [|exists b; auto].
  cbn [shift3]. p3.
Qed.

(* ---------- deep_ref_retarget ---------- *)
Lemma ref_eqb_eq a b : ref_eqb a b = true <-> a = b.
Proof. unfold ref_eqb. destruct a, b; cbn. split; [intros; f_equal; lia|intros E; inversion E; lia]. Qed.

Lemma assoc_ref_In r m r' : assoc_ref r m = Some r' -> In (r, r') m.
Proof.
  induction m as [|[k v] m IH]; cbn; [discriminate|]. destruct (ref_eqb r k) eqn:E; auto.
  intros Q. inversion Q; subst. apply ref_eqb_eq in E. subst. auto.
Qed.
Lemma assoc_ref_None r m : assoc_ref r m = None -> ~ In r (map fst m).
Proof.
  induction m as [|[k v] m IH]; cbn; [tauto|]. destruct (ref_eqb r k) eqn:E; [discriminate|].
  intros Q [->|I]; [|apply IH; auto]. assert (ref_eqb r r = true) by (apply ref_eqb_eq; auto). congruence.
Qed.

Theorem retarget_renames f m o : (forall r r', In (r, r') m -> f r = r') -> (forall r, ~ In r (map fst m) -> f r = r) ->
  stream_free o -> renamed f o (deep_ref_retarget m o).
Proof.
  intros F1 F2. induction o as [|b|z|x e|s|s|g n|l IH|d IH|d s e IH] using obj_ind'; intros SF; try (apply rn_leaf; exact Logic.I).
  - cbn. destruct (assoc_ref (g, n) m) as [[g' n']|] eqn:E.
    + apply assoc_ref_In, F1 in E. replace g' with (fst (f (g, n))) by (rewrite E; auto).
      replace n' with (snd (f (g, n))) by (rewrite E; auto). constructor.
    + apply assoc_ref_None, F2 in E. 
      replace (PRef g n) with (PRef (fst (f (g, n))) (snd (f (g, n)))) at 2 by (rewrite E; auto). constructor.
  - cbn. constructor. assert (SL : Forall stream_free l) by (inversion SF; subst; auto; contradiction). clear SF.
    induction SL; cbn; constructor; inversion IH; subst; auto.
  - cbn. constructor. assert (SL : Forall (fun kv => stream_free (snd kv)) d) by (inversion SF; subst; auto; contradiction). clear SF.
    induction SL as [|[k v] d HV SL IHd]; cbn; constructor; inversion IH; subst; auto.
  - inversion SF. contradiction.
Qed.

Theorem retarget_stream m d s e : deep_ref_retarget m (PStream d s e) = PStream d s e.
Proof. reflexivity. Qed.

(* renaming is a function of the value *)
Lemma renamed_fun f o : forall a b, renamed f o a -> renamed f o b -> a = b.
Proof.
  induction o as [|b|z|x e|s|s|g n|l IH|d IH|d s e IH] using obj_ind'; intros a1 a2 R1 R2;
    inversion R1; inversion R2; subst; auto; try contradiction.
  - f_equal. clear R1 R2. revert l' l'0 H0 H3. induction IH as [|o l Ho Hl IHl]; intros l1 l2 F1 F2; inversion F1; inversion F2; subst; auto.
    f_equal; auto.
  - f_equal. clear R1 R2. revert d' d'0 H0 H3.
    induction IH as [|[k o] l Ho Hl IHl]; intros l1 l2 F1 F2; inversion F1; inversion F2; subst; auto.
    destruct H1 as [K1 V1], H6 as [K2 V2]. destruct y as [k1 v1], y0 as [k2 v2]. cbn in *. subst. f_equal; auto. f_equal. eauto.
  - f_equal. clear R1 R2. 
    match goal with A : Forall2 _ d d', C : Forall2 _ d d'0 |- _ => revert d' d'0 A C end.
    induction IH as [|[k o] l Ho Hl IHl]; intros l1 l2 F1 F2; inversion F1; inversion F2; subst; auto.
    destruct y as [k1 v1], y0 as [k2 v2].
    repeat match goal with H : _ /\ _ |- _ => destruct H end. cbn in *. subst. f_equal; auto. f_equal. eauto.
Qed.

(* ---------- deep_ref_detect ---------- *)
Lemma deep_refs_iff r o : In r (deep_refs o) <-> ref_in r o.
Proof.
  induction o as [|b|z|x e|s|s|g n|l IH|d IH|d s e IH] using obj_ind'; cbn;
    try (split; [contradiction|intros Q; inversion Q]; fail).
  - split.
    + intros [<-|[]]. apply (ri_here (g, n)).
    + intros Q. inversion Q; subst. destruct r; auto.
  - rewrite in_flat_map, Forall_forall in *. split.
    + intros (o & I & Q). apply IH in Q; auto. econstructor; eauto.
    + intros Q. inversion Q; subst. exists o. split; auto. apply IH; auto.
  - rewrite in_flat_map, Forall_forall in *. split.
    + intros ([k o] & I & Q). apply (IH (k, o)) in Q; auto. econstructor; eauto.
    + intros Q. inversion Q; subst. exists (k, o). split; auto. apply (IH (k, o)); auto.
  - rewrite in_flat_map, Forall_forall in *. split.
    + intros ([k o] & I & Q). apply (IH (k, o)) in Q; auto. econstructor; eauto.
    + intros Q. inversion Q; subst. exists (k, o). split; auto. apply (IH (k, o)); auto.
Qed.

Theorem detect_refs o : (forall g n, o <> PRef g n) ->
  exists l, deep_ref_detect o = Some l /\ forall r, In r l <-> ref_in r o.
Proof.
  intros N. exists (deep_refs o). split; [destruct o; auto; exfalso; eapply N; eauto|]. intros r. apply deep_refs_iff.
Qed.

(* ---------- expand_xref_index ---------- *)
Lemma zseq_seq o : forall n k, zseq (o + Z.of_nat k) n = map (fun j => o + Z.of_nat j) (seq k n).
Proof.
  induction n; intros k; cbn; auto. f_equal. rewrite <- IHn. f_equal. lia.
Qed.

Lemma expand_ok pairs : Forall (fun p => 1 <= snd p) pairs -> forall sec,
  expand_xref_index_from sec (index_array pairs) = Ok (index_numbers sec pairs).
Proof.
  induction 1 as [|[o n] pairs H HS IH]; intros sec; auto. cbn [snd] in H.
  cbn [index_array flat_map fst snd app expand_xref_index_from index_numbers]. fold (index_array pairs). rewrite IH. cbn [bind].
  f_equal. destruct (Z.to_nat n) as [|m] eqn:E; [lia|]. replace (Z.to_nat (n - 1)) with m by lia.
  cbn [seq map app]. f_equal; [f_equal; lia|]. f_equal.
  replace (o + 1) with (o + Z.of_nat 1) by lia. rewrite zseq_seq, map_map. auto.
Qed.

Theorem expand_odd pairs x : expand_xref_index (index_array pairs ++ [x]) = Exc EIndexError.
Proof.
  unfold expand_xref_index. generalize 0 as sec. induction pairs as [|[o n] pairs IH]; intros sec; auto.
  cbn [index_array flat_map fst snd app expand_xref_index_from]. fold (index_array pairs). rewrite IH. auto.
Qed.

Section WithZlib.
Context {ZL : Zlib}.

(* ---------- forge_stream ---------- *)
Theorem forge_length d content d' s enc len :
  forge_stream d content = Ok (PStream d' s (Some enc), len) ->
  s = Some content /\ encode_stream content d = Ok enc /\
  len = Z.of_nat (length enc) + 1 /\
  (forall z, dget K_Length d = Some (PInt z) -> dget K_Length d' = Some (PInt (Z.of_nat (length enc) + 1))) /\
  ((forall z, dget K_Length d <> Some (PInt z)) -> d' = d) /\
  (forall k, k <> K_Length -> dget k d' = dget k d).
Proof.
  unfold forge_stream. intros E. destruct (encode_stream content d) as [e| |]; cbn [bind] in E; try discriminate.
  inversion E; subst. split; auto. split; auto. split; auto. split; [|split].
  - intros z Q. rewrite Q. apply dget_dset_eq.
  - intros Q. destruct (dget K_Length d) as [[]|]; auto. exfalso. eapply Q. eauto.
  - intros k N. destruct (dget K_Length d) as [[]|]; auto. apply dget_dset_neq; auto.
Qed.

(* ---------- the three tokens of a serialized reference ---------- *)
Theorem ref_tokens g n pre rest : sepstart rest ->
  exists t, serialize (PRef g n) = Ok t /\
  exists a b, next_token (pre ++ t ++ rest) (length pre) = (length pre, a, Some TInteger) /\
    py_int 10 (sub (pre ++ t ++ rest) (length pre) a) = Some n /\
    next_token (pre ++ t ++ rest) a = (S a, b, Some TInteger) /\
    py_int 10 (sub (pre ++ t ++ rest) (S a) b) = Some g /\
    next_token (pre ++ t ++ rest) b = (S b, S (S b), Some TKeyword) /\
    sub (pre ++ t ++ rest) (S b) (S (S b)) = W_R /\
    S (S b) = (length pre + length t)%nat.
Proof.
  intros SR. exists (dec n ++ [32] ++ dec g ++ [32] ++ W_R). split; auto.
  set (t := dec n ++ [32] ++ dec g ++ [32] ++ W_R).
  assert (SP : forall r, sepstart (32 :: r)) by (intros r; exists 32, r; auto).
  assert (TR : tok1 W_R TKeyword).
  { intros r h cur i SS. apply (tok1_keyword 82 []); auto.
    -- unfold letter; lia.
    -- intros [x Q]. discriminate. }
  assert (NT : forall v k pr r, tok1 v k -> sepstart r ->
     next_token (pr ++ v ++ r) (length pr) = (length pr, (length pr + length v)%nat, Some k)).
  { intros v k pr r T S. replace (length pr) with (length pr + 0)%nat at 1 by lia. rewrite next_token_app.
    unfold next_token. cbn [skipn]. rewrite T by auto. cbn [shift3]. p3. }
  assert (NT2 : forall v k pr r, tok1 v k -> sepstart r ->
     next_token (pr ++ [32] ++ v ++ r) (length pr) = (S (length pr), (S (length pr) + length v)%nat, Some k)).
  { intros v k pr r T S. replace (length pr) with (length pr + 0)%nat at 1 by lia. rewrite next_token_app.
    unfold next_token. cbn [skipn app]. rewrite tbd_space, T by auto. cbn [shift3]. p3. }
  exists (length pre + length (dec n))%nat, (length pre + length (dec n) + 1 + length (dec g))%nat.
  assert (E1 : pre ++ t ++ rest = pre ++ dec n ++ ([32] ++ dec g ++ [32] ++ W_R ++ rest)).
  { unfold t. rewrite <- !app_assoc. auto. }
  assert (E2 : pre ++ t ++ rest = (pre ++ dec n) ++ [32] ++ dec g ++ ([32] ++ W_R ++ rest)).
  { unfold t. rewrite <- !app_assoc. auto. }
  assert (E3 : pre ++ t ++ rest = (pre ++ dec n ++ [32] ++ dec g) ++ [32] ++ W_R ++ rest).
  { unfold t. rewrite <- !app_assoc. auto. }
  assert (L2 : length (pre ++ dec n) = (length pre + length (dec n))%nat) by (rewrite app_length; auto).
  assert (L3 : length (pre ++ dec n ++ [32] ++ dec g) = (length pre + length (dec n) + 1 + length (dec g))%nat)
    by (rewrite !app_length; cbn [length]; lia).
  repeat split.
  - rewrite E1. apply NT; auto using tok1_dec. apply SP.
  - rewrite E1, sub_app. apply py_int_dec.
  - rewrite E2, <- L2. rewrite (NT2 (dec g) TInteger) by (auto using tok1_dec; apply SP). p3.
  - rewrite E2. pose proof (sub_app ((pre ++ dec n) ++ [32]) (dec g) ([32] ++ W_R ++ rest)) as Q.
    rewrite app_length, L2 in Q. cbn [length] in Q. rewrite <- app_assoc in Q. rewrite Nat.add_1_r in Q.
    replace (length pre + length (dec n) + 1 + length (dec g))%nat with (S (length pre + length (dec n)) + length (dec g))%nat by lia.
    rewrite Q. apply py_int_dec.
  - rewrite E3, <- L3. rewrite (NT2 W_R TKeyword) by auto. cbn [length W_R]. p3.
  - rewrite E3. pose proof (sub_app ((pre ++ dec n ++ [32] ++ dec g) ++ [32]) W_R rest) as Q.
    rewrite app_length, L3 in Q. cbn [length W_R] in Q. rewrite <- app_assoc in Q. rewrite !Nat.add_1_r in Q. rewrite Nat.add_1_r; exact Q.
  - unfold t. rewrite !app_length. cbn [length W_R]. lia.
Qed.

End WithZlib.
