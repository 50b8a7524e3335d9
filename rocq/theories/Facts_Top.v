(* Round trip of values at the top level: lemmas behind C01, C04, C08, C15 *)
From Coq Require Import ZifyBool ZifyNat.
From Verif Require Import PyBase Model_Filters Model_Objects Spec_Objects Facts_Base Facts_Token Facts_Obj Facts_Ser Facts_Parse.

Definition rvd (d : dict) : dict := rev (map (fun kv => match kv with (k, v) => (k, rv v) end) d).

Lemma rvd_keys d : map fst (rvd d) = rev (map fst d).
Proof. unfold rvd. rewrite map_rev, map_map. f_equal. apply map_ext. intros [k v]; auto. Qed.

Lemma dget_rvd k d : NoDup (map fst d) -> dget k (rvd d) = option_map rv (dget k d).
Proof.
  intros N. destruct (dget k d) as [v|] eqn:E.
  - apply dget_In in E. cbn. apply In_dget.
    + rewrite rvd_keys. apply NoDup_rev. auto.
    + unfold rvd. apply in_rev. rewrite rev_involutive. apply in_map_iff. exists (k, v). auto.
  - cbn. apply dget_None. rewrite rvd_keys. apply dget_None in E. rewrite <- in_rev. auto.
Qed.

Theorem wfx_peq G o : wfx G o -> peq (zero_gen o) (rv o).
Proof.
  induction o as [|b|z|m e|s|s|g n|l IH|d IH|d s e IH] using obj_ind'; intros W; try (constructor; fail).
  - cbn. constructor. assert (WL : Forall (wfx G) l) by (inversion W; auto). clear W.
    induction WL; cbn; constructor; inversion IH; subst; auto.
  - inversion W; subst. change (rv (PDict d)) with (PDict (rvd d)). cbn [zero_gen].
    assert (ZG : forall k, dget k (map (fun kv => match kv with (k0, v) => (k0, zero_gen v) end) d) = option_map zero_gen (dget k d)).
    { intros k. clear. induction d as [|[k' v] d IH]; cbn; auto. destruct (beqb k k'); auto. }
    constructor.
    + intros k. rewrite ZG, dget_rvd by auto. destruct (dget k d); cbn; split; congruence.
    + intros k a b E1 E2. rewrite dget_rvd in E2 by auto. rewrite ZG in E1. destruct (dget k d) as [x|] eqn:E3; [|discriminate].
      cbn in E1, E2. inversion E1; inversion E2; subst.
      apply dget_In in E3. rewrite Forall_forall in IH, H1.
      apply (IH (k, x) E3). apply (H1 (k, x) E3).
  - inversion W.
Qed.

Lemma wfv_zero_gen o : wfv o -> zero_gen o = o.
Proof.
  induction o as [|b|z|m e|s|s|g n|l IH|d IH|d s e IH] using obj_ind'; intros W; auto.
  - inversion W; subst. auto.
  - cbn. f_equal. assert (WL : Forall wfv l) by (inversion W; auto). clear W.
    induction WL; cbn; auto. inversion IH; subst. f_equal; auto.
  - cbn. f_equal. assert (WL : Forall (fun kv => wfv (snd kv)) d).
    { inversion W; subst. eapply Forall_impl; [|exact H1]. intros kv [_ Q]; exact Q. }
    clear W. induction WL as [|[k v] d WV WL IHd]; cbn; auto. inversion IH; subst. cbn [snd] in *. rewrite IHd by auto.
    rewrite H1 by auto. auto.
Qed.

Theorem wfv_peq o : wfv o -> peq o (rv o).
Proof. intros W. rewrite <- (wfv_zero_gen o W) at 1. eapply wfx_peq; eauto. Qed.

Section WithZlib.
Context {ZL : Zlib}.

Lemma kind_some G o : wfx G o -> (forall g n, o <> PRef g n) -> exists k, kind_of o = Some k.
Proof.
  intros W N. destruct W; cbn; try (eexists; reflexivity).
  - destruct b; eexists; reflexivity.
  - destruct H as (r & -> & _). eexists; reflexivity.
  - destruct H as (a & r & -> & _). destruct a as [|p|p]; try (eexists; reflexivity).
    repeat (destruct p as [p|p|]; try (eexists; reflexivity)).
  - exfalso. eapply N. reflexivity.
Qed.

Lemma closed_selfdel o k : kind_of o = Some k -> closed o -> selfdel k = true.
Proof. destruct o; cbn; try tauto; intros E _; inversion E; auto. Qed.

Lemma top_direct G o : wf_topx G o -> exists v k, serialize o = Ok v /\ kind_of o = Some k /\ tokk v k /\
  forall f tail, (length v < f)%nat -> (selfdel k = true \/ sepstart tail) ->
        snd (next_token tail 0) <> Some TStream -> pobj f (v ++ tail) 0 = Ok (rv o).
Proof.
  intros [o' W N|s L].
  - destruct (wfv_readback G o' W 0) as (v & E & _ & _ & _ & D).
    destruct (kind_some G o' W N) as [k K]. unfold direct in D. rewrite K in D. exists v, k. auto.
  - exists s, TString. split; auto. split; auto.
    assert (T : tokk s TString) by (apply tokk_of_any, tok1any_lit; auto). split; auto.
    intros f tail LF S _. destruct f as [|f]; [lia|]. eapply pobj_simple; eauto. cbn. auto.
Qed.

(* parsing at any position of a text *)
Theorem top_parse G o v pre tail : wf_topx G o -> serialize o = Ok v ->
  (closed o \/ sepstart tail) -> snd (next_token tail 0) <> Some TStream ->
  parse_obj (pre ++ v ++ tail) (length pre) = Ok (rv o).
Proof.
  intros W E C T. destruct (top_direct _ o W) as (v' & k & E' & K & _ & P).
  assert (v' = v) by congruence. subst v'.
  replace (length pre) with (length pre + 0)%nat by lia. rewrite parse_obj_shift.
  unfold parse_obj. apply P; auto.
  - rewrite app_length. lia.
  - destruct C; auto. left. eapply closed_selfdel; eauto.
Qed.

Lemma white_sep c : white c -> is_sep c = true.
Proof. intros. apply is_sep_iff. auto. Qed.

(* whitespace in front of a token *)
Lemma tbd_white c rest h cur i : white c ->
  ntok STbd 1 false h cur i (c :: rest) = ntok STbd 1 false i (c :: rest) (S i) rest.
Proof.
  intros W. nstep. unfold white in W.
  destruct W as [->|[->|[->|[->|[->| ->]]]]]; reflexivity.
Qed.

Lemma ntok_kv_not_stream r : forall se n tia h cur i, se = SKeyword \/ se = SValue ->
  snd (ntok se n tia h cur i r) <> Some TStream.
Proof.
  induction r as [|c r IH]; intros se n tia h cur i [->| ->]; try discriminate.
  - nstep. destruct (is_sep c); [|apply IH; auto]. cbn [snd].
    repeat match goal with |- context [beqb ?a ?b] => destruct (beqb a b); try discriminate end.
  - nstep. destruct (is_sep c); [|apply IH; auto]. cbn [snd].
    match goal with |- context [inb ?a ?b] => destruct (inb a b) end; discriminate.
Qed.

Lemma follows_not_stream tail : follows tail -> sepstart tail /\ snd (next_token tail 0) <> Some TStream.
Proof.
  intros (w & x & -> & NW & W & X). split.
  - destruct w as [|c w]; [congruence|]. inversion W; subst. exists c, (w ++ x). split; auto using white_sep.
  - unfold next_token. cbn [skipn]. generalize 0%nat at 1 as h. generalize 0%nat as i. generalize (w ++ x) at 1 as cur. clear NW.
    induction W as [|c w HC W IH]; intros cur i h.
    + cbn [app]. destruct X as [->|(c & r & -> & LD & NS)]; [discriminate|].
      nstep.
      replace (starts W_stream (c :: r)) with false.
      2:{ symmetry. destruct (starts W_stream (c :: r)) eqn:E; auto. apply starts_iff in E. exfalso. apply NS. exact E. }
      assert (R : c =? 93 = false /\ c =? 62 = false /\ c =? 60 = false /\ c =? 91 = false /\ c =? 47 = false).
      { unfold letter, decdigit in LD. lia. }
      destruct R as (-> & -> & -> & -> & ->). cbn [andb].
      destruct (inb c VALUE_START) eqn:V; [apply ntok_kv_not_stream; auto|].
      replace (inb c ALPHA) with true. { apply ntok_kv_not_stream; auto. }
      symmetry. apply inb_In. apply ALPHA_iff. destruct LD as [L|D]; auto.
      exfalso. assert (inb c VALUE_START = true); [|congruence]. apply inb_In. cbn. unfold decdigit in D. lia.
    + cbn [app]. rewrite tbd_white by auto. apply IH.
Qed.

Theorem serialize_parse_gen G o : wf_topx G o ->
  exists v, serialize o = Ok v /\
    forall pre tail, follows tail \/ (tail = [] /\ closed o) ->
      exists o', parse_obj (pre ++ v ++ tail) (length pre) = Ok o' /\ peq (zero_gen o) o'.
Proof.
  intros W. destruct (top_direct _ o W) as (v & k & E & K & _ & _). exists v. split; auto.
  intros pre tail F. exists (rv o). split.
  - apply (top_parse G); auto.
    + destruct F as [F|[-> C]]; auto. right. apply follows_not_stream; auto.
    + destruct F as [F|[-> C]]; [apply follows_not_stream; auto|discriminate].
  - destruct W; [eapply wfx_peq; eauto|constructor].
Qed.

Theorem serialize_parse o : wf_top o ->
  exists v, serialize o = Ok v /\
    forall pre tail, follows tail \/ (tail = [] /\ closed o) ->
      exists o', parse_obj (pre ++ v ++ tail) (length pre) = Ok o' /\ peq o o'.
Proof.
  intros W. destruct (serialize_parse_gen _ o W) as (v & E & P). exists v. split; auto.
  replace (zero_gen o) with o in P; auto. destruct W; auto. symmetry. apply wfv_zero_gen; auto.
Qed.

Theorem serialized_token G o : wf_topx G o -> exists v k, serialize o = Ok v /\ kind_of o = Some k /\
  forall pre rest, (closed o \/ exists c r, rest = c :: r /\ (white c \/ delim c)) ->
    next_token (pre ++ v ++ rest) (length pre) = (length pre, (length pre + length v)%nat, Some k).
Proof.
  intros W. destruct (top_direct _ o W) as (v & k & E & K & T & _). exists v, k. split; auto. split; auto.
  intros pre rest C. replace (length pre) with (length pre + 0)%nat at 1 by lia. rewrite next_token_app.
  unfold next_token. cbn [skipn]. rewrite T; cbn [shift3]. { p3. }
  destruct C as [C|(c & r & -> & S)]; [left; eapply closed_selfdel; eauto|right].
  exists c, r. split; auto. apply is_sep_iff; auto.
Qed.

(* ---------- dictionaries with repeated keys ---------- *)
Definition assign (d acc : dict) : dict := fold_right (fun kv a => dset (fst kv) (snd kv) a) acc d.

Lemma pair_up_assign d : forall acc, pair_up acc (rev (flat_pairs d)) = Ok (assign d acc).
Proof.
  induction d as [|[k v] d IH] using rev_ind; intros acc; auto.
  unfold flat_pairs. rewrite flat_map_app, rev_app_distr. cbn [flat_map fst snd app rev pair_up].
  fold (flat_pairs d). rewrite IH. unfold assign. rewrite fold_right_app. auto.
Qed.

Lemma dget_assign k d : forall acc, dget k (assign d acc) = match dget k d with Some v => Some v | None => dget k acc end.
Proof.
  induction d as [|[k' v] d IH]; intros acc; auto. cbn [assign fold_right fst snd dget].
  rewrite dget_dset. destruct (beqb k k'); auto. apply IH.
Qed.

Lemma dset_keys k v d : NoDup (map fst d) -> NoDup (map fst (dset k v d)).
Proof.
  intros N. destruct (dget k d) eqn:E.
  - replace (map fst (dset k v d)) with (map fst d); auto.
    clear N. induction d as [|[k' v'] d IH]; cbn in *; [discriminate|].
    destruct (beqb k k'); cbn; auto. rewrite <- IH; auto.
  - rewrite dset_new by auto. rewrite map_app. cbn. apply dget_None in E.
    apply (NoDup_Add (a := k) (l := map fst d ++ [])); [apply Add_app|]. rewrite app_nil_r. auto.
Qed.

Lemma assign_keys d : forall acc, NoDup (map fst acc) -> NoDup (map fst (assign d acc)).
Proof. induction d as [|[k v] d IH]; intros acc N; cbn; auto. apply dset_keys. apply IH. auto. Qed.

Lemma ser_items_app a b x y : ser_items a = Ok x -> ser_items b = Ok y -> ser_items (a ++ b) = Ok (x ++ y).
Proof.
  revert x. induction a as [|v a IH]; intros x E1 E2; cbn [ser_items app] in *.
  - inversion E1. auto.
  - destruct (ser 0 v); cbn [bind] in *; try discriminate.
    destruct (ser_items a) eqn:E; cbn [bind] in *; try discriminate.
    erewrite IH; eauto. cbn [bind]. inversion E1. rewrite <- !app_assoc. auto.
Qed.

Theorem parse_pairs d txt pre tail :
  Forall2 (fun kv kt => fst kt = fst kv /\ name_tok (fst kv) /\ wfv (snd kv) /\ serialize (snd kv) = Ok (snd kt)) d txt ->
  tail = [] \/ follows tail ->
  exists d', parse_obj (pre ++ dict_text txt ++ tail) (length pre) = Ok (PDict d') /\
    NoDup (map fst d') /\
    (forall k, dget k d' = None <-> ~ In k (map fst d)) /\
    (forall k v, dget k d = Some v -> exists v', dget k d' = Some v' /\ peq v v').
Proof.
  intros F T.
  assert (WP : Forall wfv (flat_pairs d)).
  { unfold flat_pairs. apply Forall_flat_map. clear T. induction F; constructor; auto.
    destruct H as (_ & H1 & H2 & _). constructor; [apply wf_name; auto|]. constructor; auto. }
  destruct (items_readback (flat_pairs d)) as (b & cs & E & N1 & N2 & C & R).
  { eapply Forall_impl; [|exact WP]. intros o W depth. eapply wfv_readback; eauto. }
  assert (TX : [60; 60; 32] ++ b ++ repeat 32 0 ++ [62; 62] = dict_text txt).
  { assert (Q : forall d' t', Forall2 (fun kv kt : bytes * _ => fst kt = fst kv /\ name_tok (fst kv) /\ wfv (snd kv) /\ serialize (snd kv) = Ok (snd kt)) d' t' ->
      forall b, ser_items (flat_pairs d') = Ok b -> 32 :: b = flat_map pair_text t' ++ [32]).
    { clear - ZL. induction 1 as [|[k v] [k' v'] d t (H1 & H2 & H3 & H4) F IH]; intros b E.
      - cbn in E. inversion E. auto.
      - cbn [fst snd] in *. subst k'.
        change (flat_pairs ((k, v) :: d)) with (PStr k :: v :: flat_pairs d) in E.
        destruct (name_readback k H2) as [_ A].
        cbn [ser_items ser to_str] in E. change (ser 0 v) with (serialize v) in E. rewrite A, H4 in E. cbn [bind] in E.
        destruct (ser_items (flat_pairs d)) as [y| |]; cbn [bind] in E; try discriminate.
        inversion E. specialize (IH _ eq_refl).
        change (flat_map pair_text ((k, v') :: t)) with (pair_text (k, v') ++ flat_map pair_text t).
        unfold pair_text at 1. cbn [fst snd]. rewrite <- app_assoc, <- IH. cbn [app].
        rewrite <- !app_assoc. cbn [app]. auto. }
    specialize (Q d txt F b E). unfold dict_text. cbn [repeat app].
    change (60 :: 60 :: 32 :: b ++ [62; 62]) with ([60; 60] ++ (32 :: b) ++ [62; 62]). rewrite Q, <- app_assoc. auto. }
  rewrite <- TX.
  assert (TS : snd (next_token tail 0) <> Some TStream).
  { destruct T as [->|T]; [discriminate|]. apply follows_not_stream; auto. }
  exists (assign (map (fun kv => match kv with (k, v) => (k, rv v) end) d) []).
  split; [|split; [|split]].
  - unfold parse_obj.
    rewrite (pobj_dict_gen b cs d 0); [| exact N2 | | | | exact TS].
    + rewrite map_rv_pairs, pair_up_assign. reflexivity.
    + cbn [repeat]. rewrite app_nil_r. exact C.
    + eapply Forall2_impl; [|exact R]. cbn beta. intros c x Q. apply Q. rewrite !app_length. cbn [length]. lia.
    + apply replace_ref_toks. eapply Forall_impl; [|exact WP]. apply wfv_notR.
  - apply assign_keys. constructor.
  - intros k. rewrite dget_assign. cbn [dget].
    assert (KE : map fst (map (fun kv : bytes * obj => match kv with (k, v) => (k, rv v) end) d) = map fst d).
    { rewrite map_map. apply map_ext. intros [? ?]; auto. }
    destruct (dget k (map (fun kv : bytes * obj => match kv with (k, v) => (k, rv v) end) d)) eqn:Q.
    + split; [discriminate|]. intros NI. rewrite <- KE, <- dget_None in NI. congruence.
    + split; auto. intros _. apply dget_None in Q. congruence.
  - intros k v Q. exists (rv v). rewrite dget_assign.
    replace (dget k (map (fun kv : bytes * obj => match kv with (k, v) => (k, rv v) end) d)) with (Some (rv v)).
    + split; auto. apply wfv_peq. apply dget_In in Q. clear - F Q.
      induction F; [inversion Q|]. destruct Q as [->|Q]; auto. destruct H as (_ & _ & H & _). auto.
    + clear - Q. induction d as [|[k' v'] d IH]; cbn in *; [discriminate|].
      destruct (beqb k k'); auto. inversion Q; auto.
Qed.

End WithZlib.
