(* A file made of sections written one after the other: what loading it finds. *)
From Coq Require Import String Sorted.
From Verif Require Import PyBase Model_Filters Model_Objects Model_Filestruct Model_Text Model_Docstruct Model_Api.
From Verif Require Import Spec_Objects Spec_Filestruct Spec_Docstruct Spec_Api Spec_Save.
From Verif Require Import Facts_Base Facts_Token Facts_Ser Facts_Top Facts_Stream Facts_Indirect Facts_Revision Facts_Doc Facts_Commit Facts_Xref Facts_Prov Facts_Index Facts_Write.
From Coq Require Import ZifyBool ZifyNat.

Section WithZlib.
Context {ZL : Zlib}.

(* ---------- one section ---------- *)
Definition section_entry (x tp : Z) : ient :=
  mk_ient 0 0 None None (Some (AInt tp)) None None None false (Some x) None None None false None.

Lemma table_section elems d nf txt : format_xref_table elems (PDict d) nf = Ok txt ->
  Forall (elem_ok nf) elems -> wfv (PDict d) -> exists pr, (pr < length txt)%nat /\
  forall pre post, follows (10 :: post) ->
    (forall p len rest startx, read_at p (Z.of_nat (length pre)) len = Ok (pre ++ txt ++ post, length pre, rest) ->
      read_section p (Z.of_nat (length pre)) (Z.of_nat (length pre) + len) startx
      = Ok (section_entry (Z.of_nat (length pre)) (Z.of_nat (length pre + pr)) :: flat_map in_use_entry elems, rvd d, pre ++ txt ++ post)) /\
    (forall p len rest e nx, n_pos e = Some (AInt (Z.of_nat (length pre + pr))) -> n_next e = Some nx -> len = nx - Z.of_nat (length pre + pr) ->
      read_at p (Z.of_nat (length pre + pr)) len = Ok (pre ++ txt ++ post, (length pre + pr)%nat, rest) ->
      trailer_at p e = Ok (rvd d)).
Proof.
  intros FX F W. destruct (choose_line nf elems F) as (f & FF).
  set (g := group_runs (map (fun x => (x, xe_num x)) elems)).
  pose proof (group_runs_maximal xe_num elems) as MX. fold g in MX.
  destruct (format_text f elems (PDict d) nf txt) as (v & SE & ET); auto.
  { eapply Forall_impl; [|exact FF]. intros a (? & ? & ? & ? & ? & ?); auto. }
  fold g in ET. set (ls := group_lines f g) in *.
  destruct MX as (EE & RU & GA).
  assert (LO : Forall line_ok ls).
  { apply group_lines_ok; auto; rewrite <- EE.
    - eapply Forall_impl; [|exact FF]. intros a (? & ? & ? & ? & ? & ?); auto.
    - eapply Forall_impl; [|exact F]. intros a (A & _); auto. }
  assert (NU : Facts_Xref.numbered None ls).
  { apply lines_numbered; auto. rewrite <- EE. eapply Forall_impl; [|exact FF]. intros a (? & ? & ? & ? & ? & ?); auto. }
  assert (CK : forallb xtab_check ls = true).
  { apply forallb_forall. intros l I. unfold ls, group_lines in I. apply in_flat_map in I as (a & Ia & I).
    destruct I as [<-|I]; [reflexivity|]. apply in_map_iff in I as (e & <- & I).
    rewrite Forall_forall in FF. apply FF. rewrite EE. apply in_flat_map. eauto. }
  assert (EN : flat_map xtab_entry ls = flat_map in_use_entry elems).
  { rewrite EE in FF |- *. unfold ls. clear -FF. induction g as [|[n es] g IH]; auto.
    unfold group_lines in *. cbn [flat_map fst snd app] in *. apply Forall_app in FF as [F1 F2].
    rewrite !flat_map_app, IH by auto. cbn [xtab_entry app]. f_equal.
    clear -F1. induction es as [|e es IH]; auto. inversion F1; subst. cbn [map flat_map]. rewrite IH by auto.
    f_equal. match goal with H : _ /\ _ |- _ => destruct H as (? & ? & ? & ? & ? & ?) end; auto. }
  assert (TE : table_pre ls ++ W_trailer ++ [10] ++ v ++ [10] = txt).
  { rewrite ET. unfold table_pre. rewrite <- !app_assoc. reflexivity. }
  exists (length (table_pre ls)). split.
  { rewrite <- TE, !app_length. change (length W_trailer) with 7%nat. lia. }
  intros pre post FO.
  destruct (read_table ls (PDict d) v pre post LO NU W ltac:(eauto) SE FO) as (P1 & P2 & P3 & P4 & P5 & P6).
  replace (pre ++ table_pre ls ++ W_trailer ++ [10] ++ v ++ [10] ++ post) with (pre ++ txt ++ post) in *
    by (rewrite <- TE, <- !app_assoc; reflexivity).
  assert (PX : parse_xref_table (pre ++ txt ++ post) (length pre)
      = Ok (section_entry (Z.of_nat (length pre)) (Z.of_nat (length pre + length (table_pre ls))) :: flat_map in_use_entry elems)).
  { unfold parse_xref_table. rewrite P1. cbn [bind xt_lines]. rewrite CK, EN, P2. cbn [znat]. rewrite app_length. reflexivity. }
  split.
  - intros p len rest startx RA. unfold read_section.
    replace (Z.of_nat (length pre) + len - Z.of_nat (length pre)) with len by lia. rewrite RA. cbn [bind].
    rewrite P3. replace (beqb W_xref W_xref) with true by reflexivity. rewrite PX. cbn [bind]. rewrite P2. cbn [znat].
    replace (Z.of_nat (length (pre ++ table_pre ls)) <? 0) with false by lia. rewrite Nat2Z.id, P4, P5.
    replace (sub _ _ _) with v.
    2:{ symmetry. replace (pre ++ txt ++ post) with ((pre ++ table_pre ls ++ W_trailer ++ [10]) ++ v ++ [10] ++ post)
          by (rewrite <- TE, <- !app_assoc; reflexivity). apply sub_app_exact; auto. rewrite !app_length. lia. }
    rewrite P6. cbn [bind rv]. reflexivity.
  - intros p len rest e nx PE NE LE RA. unfold trailer_at, entry_bytes, pos_int. rewrite PE. cbn [bind]. rewrite NE. cbn [of_opt bind].
    rewrite <- LE, RA. cbn [bind]. rewrite <- app_length, P4.
    replace (sub (pre ++ txt ++ post) (length (pre ++ table_pre ls)) (length (pre ++ table_pre ls ++ W_trailer))) with W_trailer.
    2:{ symmetry. replace (pre ++ txt ++ post) with ((pre ++ table_pre ls) ++ W_trailer ++ [10] ++ v ++ [10] ++ post)
          by (rewrite <- TE, <- !app_assoc; reflexivity). apply sub_app_exact; auto. rewrite !app_length. lia. }
    change (beqb W_trailer W_trailer) with true. rewrite P5.
    pose proof (top_parse _ (PDict d) v (pre ++ table_pre ls ++ W_trailer ++ [10]) ([10] ++ post) (wt_val _ W ltac:(discriminate)) SE) as TP.
    destruct (follows_not_stream _ FO) as [SEP NST].
    rewrite <- !app_assoc in TP. replace (pre ++ txt ++ post) with (pre ++ table_pre ls ++ W_trailer ++ [10] ++ v ++ [10] ++ post)
      by (rewrite <- TE, <- !app_assoc; reflexivity).
    rewrite TP; auto.
Qed.

(* ---------- sections one after the other ---------- *)
Record sect := mk_sect { s_x : nat; s_elems : list xelem; s_tr : dict; s_nf : list (Z * Z); s_txt : bytes }.
Definition entries (s : sect) : list ient := flat_map in_use_entry (s_elems s).
Definition tail_text (x : nat) : bytes := B "startxref" ++ [10] ++ dec (Z.of_nat x) ++ [10] ++ B "%%EOF" ++ [10].
Record sect_ok (F : bytes) (secs : list sect) (s : sect) : Prop := {
  so_fmt : format_xref_table (s_elems s) (PDict (s_tr s)) (s_nf s) = Ok (s_txt s);
  so_elems : Forall (elem_ok (s_nf s)) (s_elems s);
  so_wf : wfv (PDict (s_tr s));
  so_stm : dget K_XRefStm (s_tr s) = None;
  so_prev : dget K_Prev (s_tr s) = match secs with [] => None | s' :: _ => Some (PInt (Z.of_nat (s_x s'))) end;
  so_rng : Forall (fun e => forall c, xe_cnt e = Some c -> blen F < c < Z.of_nat (s_x s)) (s_elems s);
  so_nodup : NoDup (map xe_num (s_elems s));
  so_gen : Forall (fun e => xe_free e = false -> xe_gen e = 0) (s_elems s)
}.
(* newest section first *)
Inductive chain : bytes -> list sect -> Prop :=
| ch_nil h : (5 <= length h)%nat -> chain h []
| ch_cons F secs body s : chain F secs -> sect_ok F secs s -> s_x s = length (F ++ body) ->
    chain ((F ++ body) ++ s_txt s ++ tail_text (s_x s)) (s :: secs).

Definition sect_in (F : bytes) (s : sect) : Prop :=
  exists pre post, F = pre ++ s_txt s ++ tail_text (s_x s) ++ post /\ length pre = s_x s.
Lemma chain_in F secs : chain F secs -> forall q, Forall (sect_in (F ++ q)) secs.
Proof.
  induction 1 as [h L|F secs body s C IH OK X]; intro q; constructor.
  - exists (F ++ body), q. split; [rewrite <- !app_assoc; reflexivity|auto].
  - rewrite <- !app_assoc. apply IH.
Qed.

Lemma chain_pos F secs : chain F secs -> (5 <= length F)%nat.
Proof. induction 1 as [|F secs body s C IH OK X]; auto. rewrite !app_length. lia. Qed.
Lemma tail_length x : (18 <= length (tail_text x))%nat.
Proof.
  unfold tail_text. rewrite !app_length. change (length (B "startxref")) with 9%nat. change (length (B "%%EOF")) with 5%nat.
  cbn [length]. pose proof (proj2 (dec_dig (Z.of_nat x) ltac:(lia))) as D. destruct (dec (Z.of_nat x)); [congruence|cbn [length]; lia].
Qed.
Lemma tail_follows x post : follows (10 :: tail_text x ++ post).
Proof.
  exists [10], (tail_text x ++ post). split; [reflexivity|]. split; [discriminate|]. split; [constructor; [unfold white; lia|constructor]|].
  right. exists 115, ((skipn 1 (B "startxref") ++ [10] ++ dec (Z.of_nat x) ++ [10] ++ B "%%EOF" ++ [10]) ++ post).
  split; [reflexivity|]. split; [left; unfold letter; lia|]. intros [r Q]. discriminate.
Qed.

(* the section as loading finds it *)
Definition opened (F : bytes) (s : sect) (c : list ient) : Prop :=
  exists tp sx ep, c = close_section (section_entry (Z.of_nat (s_x s)) tp :: entries s) false sx ep /\
    Z.of_nat (s_x s) <= tp < Z.of_nat (s_x s + length (s_txt s)) /\ Z.of_nat (s_x s) <= ep < blen F /\
    forall e nx, n_pos e = Some (AInt tp) -> n_next e = Some nx -> tp < nx -> trailer_at (PvSingle F) e = Ok (rvd (s_tr s)).

Lemma single_at F x len : (x < length F)%nat -> -1 <= len -> exists n, read_at (PvSingle F) (Z.of_nat x) len = Ok (F, x, n).
Proof.
  intros X L. destruct (single_read F (Z.of_nat x) len) as (n & R & _); [intros ->; cbn in X; lia|unfold blen; lia|auto|].
  exists n. rewrite R. replace (Z.of_nat x <? 0) with false by lia. now rewrite Nat2Z.id.
Qed.

Lemma section_found F F0 secs s q : sect_ok F0 secs s -> sect_in F s -> F = q -> exists tp,
  Z.of_nat (s_x s) <= tp < Z.of_nat (s_x s + length (s_txt s)) /\ Z.of_nat (s_x s + length (s_txt s)) <= blen F /\
  (forall last startx, Z.of_nat (s_x s) <= last -> read_section (PvSingle F) (Z.of_nat (s_x s)) last startx
     = Ok (section_entry (Z.of_nat (s_x s)) tp :: entries s, rvd (s_tr s), F)) /\
  forall e nx, n_pos e = Some (AInt tp) -> n_next e = Some nx -> tp < nx -> trailer_at (PvSingle F) e = Ok (rvd (s_tr s)).
Proof.
  intros OK (pre & post & E & L) _. destruct (table_section _ _ _ _ (so_fmt _ _ _ OK) (so_elems _ _ _ OK) (so_wf _ _ _ OK)) as (pr & PR & T).
  destruct (T pre (tail_text (s_x s) ++ post) (tail_follows _ _)) as [T1 T2]. clear T. rewrite <- E in *.
  assert (LF : length F = (length pre + length (s_txt s) + length (tail_text (s_x s)) + length post)%nat) by (rewrite E, !app_length; lia).
  exists (Z.of_nat (length pre + pr)). rewrite <- L. split; [lia|]. split; [unfold blen; lia|]. split.
  - intros last startx LE. destruct (single_at F (length pre) (last - Z.of_nat (length pre))) as (n & R); [lia|lia|].
    specialize (T1 (PvSingle F) _ _ startx R). replace (Z.of_nat (length pre) + (last - Z.of_nat (length pre))) with last in T1 by lia. exact T1.
  - intros e nx P N LT. destruct (single_at F (length pre + pr) (nx - Z.of_nat (length pre + pr))) as (n & R); [lia|lia|].
    eapply T2; eauto.
Qed.

Lemma find_from_ge p s : forall i k, find_from p s i = Some k -> (i <= k)%nat /\ (k + length p <= i + length s)%nat.
Proof.
  induction s as [|c s IH]; intros i k; cbn [find_from].
  - destruct (starts p []) eqn:S; [|discriminate]. intro H. injection H as <-. apply starts_iff in S as (b & E). destruct p; [cbn; lia|discriminate].
  - destruct (starts p (c :: s)) eqn:S.
    + intro H. injection H as <-. apply starts_iff in S as (b & E). rewrite E, app_length. lia.
    + intro H. apply IH in H. cbn [length]. lia.
Qed.
Lemma find_from_some p a b : forall i, exists k, find_from p (a ++ p ++ b) i = Some k.
Proof.
  induction a as [|c a IH]; intro i; cbn [app].
  - assert (S : starts p (p ++ b) = true) by (apply starts_iff; exists b; auto). destruct (p ++ b); cbn [find_from]; rewrite S; eauto.
  - cbn [find_from]. destruct (starts p (c :: a ++ p ++ b)); eauto.
Qed.
Lemma find_within p pre a b : p <> [] -> exists k, find p (pre ++ a ++ p ++ b) (length pre) = Some k /\ (length pre <= k < length (pre ++ a ++ p ++ b))%nat.
Proof.
  intro N. unfold find. replace (Nat.ltb _ _) with false by (symmetry; apply Nat.ltb_ge; rewrite app_length; lia).
  rewrite skipn_app, skipn_all, Nat.sub_diag. cbn [app skipn]. destruct (find_from_some p a b (length pre)) as [k K].
  exists k. split; auto. apply find_from_ge in K. destruct p; [congruence|]. rewrite !app_length in *. cbn [length] in *. lia.
Qed.

Lemma marker_found F s : sect_in F s -> exists ep, find W_EOF F (s_x s) = Some ep /\ (s_x s <= ep < length F)%nat.
Proof.
  intros (pre & post & -> & <-). unfold tail_text.
  replace (pre ++ s_txt s ++ (B "startxref" ++ [10] ++ dec (Z.of_nat (length pre)) ++ [10] ++ B "%%EOF" ++ [10]) ++ post)
    with (pre ++ (s_txt s ++ B "startxref" ++ [10] ++ dec (Z.of_nat (length pre)) ++ [10]) ++ W_EOF ++ ([10] ++ post)) by (rewrite <- !app_assoc; reflexivity).
  apply find_within. discriminate.
Qed.

Lemma wfv_nodup d : wfv (PDict d) -> NoDup (map fst d).
Proof. intro W. inversion W; auto. Qed.

Definition head_x (secs : list sect) : Z := match secs with [] => 0 | s :: _ => Z.of_nat (s_x s) end.
Lemma prev_entry F secs s : sect_ok F secs s -> int_entry K_XRefStm (rvd (s_tr s)) = Ok 0 /\ int_entry K_Prev (rvd (s_tr s)) = Ok (head_x secs) /\ dhas K_XRefStm (rvd (s_tr s)) = false.
Proof.
  intro OK. pose proof (wfv_nodup _ (so_wf _ _ _ OK)) as ND. unfold int_entry, dhas. rewrite !dget_rvd by auto.
  rewrite (so_stm _ _ _ OK), (so_prev _ _ _ OK). destruct secs; cbn; auto.
Qed.

Lemma chain_rest F' secs : chain F' secs -> forall F q, F = F' ++ q -> forall f, (length secs <= f)%nat ->
  exists cs, xref_chain f (PvSingle F) F (head_x secs) 0 = Ok cs /\ Forall2 (opened F) secs cs.
Proof.
  induction 1 as [h L|F0 secs body s C IH OK X]; intros F q E f LF.
  - exists []. split; [destruct f; reflexivity|constructor].
  - destruct f as [|f]; [cbn in LF; lia|]. cbn [length] in LF. cbn [head_x xref_chain].
    pose proof (chain_pos _ _ C). assert (5 <= s_x s)%nat by (rewrite X, app_length; lia).
    replace (Z.of_nat (s_x s) =? 0) with false by lia. cbn [andb]. change (0 =? 0) with true. cbn [andb].
    replace (Z.of_nat (s_x s) <? 0) with false by lia. rewrite Nat2Z.id.
    assert (SI : sect_in F s). { rewrite E. exists (F0 ++ body), q. split; [rewrite <- !app_assoc; reflexivity|auto]. }
    destruct (marker_found F s SI) as (ep & FE & EP). rewrite FE. cbn [znat].
    destruct (section_found F F0 secs s F OK SI eq_refl) as (tp & TP & TB & RS & TA).
    rewrite RS by lia. cbn [bind]. destruct (prev_entry _ _ _ OK) as (P1 & P2 & P3). rewrite P1, P2. cbn [bind].
    destruct (IH F (body ++ s_txt s ++ tail_text (s_x s) ++ q) ltac:(rewrite E, <- !app_assoc; reflexivity) f ltac:(lia)) as (cs & R & O).
    change (0 =? 0) with true. cbn [bind]. rewrite R. cbn [bind]. eexists. split; [reflexivity|]. constructor; auto. rewrite P3.
    exists tp, (znat (find W_startxref F (s_x s))), (Z.of_nat ep). split; [reflexivity|]. split; [lia|]. split; [unfold blen; lia|]. exact TA.
Qed.

Lemma last_by_head (c : Z) p a r t : t = a ++ (c :: p) ++ r -> ~ In c (p ++ r) -> forall a' b', t = a' ++ (c :: p) ++ b' -> (length a' <= length a)%nat.
Proof.
  intros E N a' b' E'. destruct (Nat.le_gt_cases (length a') (length a)) as [|G]; [auto|]. exfalso. apply N.
  rewrite E in E'. assert (T : nth_error (a ++ (c :: p) ++ r) (length a') = Some c). { rewrite E', nth_error_app2, Nat.sub_diag by lia. reflexivity. }
  rewrite nth_error_app2 in T by lia. cbn [app] in T. destruct (length a' - length a)%nat as [|k] eqn:K; [lia|]. cbn [nth_error] in T. eapply nth_error_In; eauto.
Qed.
Lemma dec_not c n : 0 <= n -> (c < 48 \/ 57 < c) -> ~ In c (dec n).
Proof. intros N C I. destruct (dec_dig n N) as [D _]. rewrite Forall_forall in D. specialize (D _ I). red in D. lia. Qed.

Lemma chain_inv F s secs : chain F (s :: secs) -> exists F0 body, (F0 ++ body) ++ s_txt s ++ tail_text (s_x s) = F /\ chain F0 secs /\ sect_ok F0 secs s /\ s_x s = length (F0 ++ body).
Proof. intro C. inversion C; subst. eauto 10. Qed.
Lemma first_section F s secs : chain F (s :: secs) -> (100 <= length F)%nat -> blen F < 10 ^ 10 ->
  forall f, (length secs <= f)%nat -> exists tp sx cs,
    xref_chrono f (PvSingle F) = Ok (close_section (section_entry (Z.of_nat (s_x s)) tp :: entries s) false sx (blen F - 6) :: cs) /\
    Forall2 (opened F) (s :: secs) (close_section (section_entry (Z.of_nat (s_x s)) tp :: entries s) false sx (blen F - 6) :: cs).
Proof.
  intros CH L1 L2 f LF. destruct (chain_inv _ _ _ CH) as (F0 & body & EF & C & OK & X).
  set (pre := (F0 ++ body) ++ s_txt s). set (x := s_x s) in *.
  set (tl1 := [10] ++ dec (Z.of_nat x) ++ [10] ++ B "%%EOF" ++ [10]).
  assert (E1 : F = pre ++ W_startxref ++ tl1) by (rewrite <- EF; unfold pre, tail_text, tl1; rewrite <- !app_assoc; reflexivity).
  assert (XF : (x < length F)%nat). { rewrite E1, X. unfold pre. rewrite !app_length. change (length W_startxref) with 9%nat. lia. }
  assert (LD : (length (dec (Z.of_nat x)) <= 10)%nat).
  { unfold dec. replace (_ <? 0) with false by lia. apply dec_nat_length_le; [unfold blen in L2; lia|lia]. }
  assert (LT : (length tl1 <= 18)%nat). { unfold tl1. rewrite !app_length. change (length (B "%%EOF")) with 5%nat. cbn [length]. lia. }
  assert (LP : (length F = length pre + 9 + length tl1)%nat) by (rewrite E1, !app_length; reflexivity || (change (length W_startxref) with 9%nat; lia)).
  unfold xref_chrono. destruct (single_read F (-100) (-1)) as (n & R & _); [intros ->; cbn in L1; lia|unfold blen; lia|lia|].
  cbn [Z.ltb Z.compare] in R. rewrite R. cbn [bind].
  assert (RX : rfind W_startxref F (Z.to_nat (-100 + blen F)) = Some (length pre)).
  { eapply rfind_last; [discriminate|exact E1|unfold blen; lia|]. intros a' b' E'.
    eapply (last_by_head 115 (skipn 1 W_startxref) pre tl1 F E1); [|exact E'].
    intros I. apply in_app_or in I as [I|I]; [cbn in I; lia|]. unfold tl1 in I. apply in_app_or in I as [I|I]; [cbn in I; lia|].
    apply in_app_or in I as [I|I]; [eapply dec_not; [| |exact I]; lia|]. cbn in I. lia. }
  assert (RE : rfind W_EOF F (Z.to_nat (-100 + blen F)) = Some (length F - 6)%nat).
  { assert (E2 : F = (pre ++ W_startxref ++ [10] ++ dec (Z.of_nat x) ++ [10]) ++ W_EOF ++ [10]) by (rewrite E1; unfold tl1; rewrite <- !app_assoc; reflexivity).
    set (a := pre ++ W_startxref ++ [10] ++ dec (Z.of_nat x) ++ [10]) in *.
    assert (LA : (length F = length a + 6)%nat) by (rewrite E2, !app_length; reflexivity).
    replace (length F - 6)%nat with (length a) by lia. eapply rfind_last; [discriminate|exact E2|unfold blen; lia|].
    intros a' b' E'. destruct (Nat.le_gt_cases (length a') (length a)) as [|G]; [auto|]. exfalso.
    rewrite E2 in E'. assert (SK : skipn (length a') (a ++ W_EOF ++ [10]) = W_EOF ++ b') by (rewrite E', skipn_app, skipn_all, Nat.sub_diag; reflexivity).
    rewrite skipn_app, skipn_all2 in SK by lia. cbn [app] in SK.
    destruct (length a' - length a)%nat as [|[|k]] eqn:K; [lia|discriminate SK|]. apply (f_equal (@length Z)) in SK. rewrite skipn_length in SK.
    rewrite !app_length in SK. change (length W_EOF) with 5%nat in SK. cbn [length] in SK. lia. }
  rewrite RX, RE. cbn [znat].
  assert (NT : next_token F (Z.to_nat (Z.of_nat (length pre) + 9))
     = ((length pre + 10)%nat, (length pre + 10 + length (dec (Z.of_nat x)))%nat, Some TInteger)).
  { pose proof (next_token_white (pre ++ W_startxref) [10] (dec (Z.of_nat x)) TInteger ([10] ++ B "%%EOF" ++ [10])
      ltac:(constructor; [unfold white; lia|constructor]) (dec_tok _) (or_intror (sep_cons 10 _ ltac:(unfold white; lia)))) as N.
    rewrite <- !app_assoc in N. replace F with (pre ++ W_startxref ++ [10] ++ dec (Z.of_nat x) ++ [10] ++ B "%%EOF" ++ [10]) by (rewrite E1; reflexivity).
    replace (Z.to_nat (Z.of_nat (length pre) + 9)) with (length (pre ++ W_startxref)) by (rewrite app_length; change (length W_startxref) with 9%nat; lia).
    rewrite N. rewrite !app_length. change (length W_startxref) with 9%nat. cbn [length]. repeat f_equal; lia. }
  rewrite NT. replace (sub F (length pre + 10) (length pre + 10 + length (dec (Z.of_nat x)))) with (dec (Z.of_nat x)).
  2:{ symmetry. replace F with ((pre ++ W_startxref ++ [10]) ++ dec (Z.of_nat x) ++ [10] ++ B "%%EOF" ++ [10]) by (rewrite E1; unfold tl1; rewrite <- !app_assoc; reflexivity).
      apply sub_app_exact; rewrite !app_length; change (length W_startxref) with 9%nat; cbn [length]; lia. }
  assert (PI : py_int 10 (dec (Z.of_nat x)) = Some (Z.of_nat x)).
  { destruct (dec_dig (Z.of_nat x) ltac:(lia)) as [D N]. rewrite py_int_digs by auto. f_equal. unfold dec. replace (_ <? 0) with false by lia. apply dec_nat_val. lia. }
  rewrite PI. cbn [of_opt bind].
  assert (SI : sect_in F s). { exists (F0 ++ body), []. split; [rewrite <- EF, app_nil_r; reflexivity|auto]. }
  destruct (section_found F F0 secs s F OK SI eq_refl) as (tp & TP & TB & RS & TA).
  assert (XP : (x <= length pre)%nat). { unfold pre. rewrite app_length. lia. }
  fold x in RS. rewrite RS by lia. cbn [bind]. destruct (prev_entry _ _ _ OK) as (P1 & P2 & P3). rewrite P1, P2, P3. cbn [bind].
  destruct (chain_rest F0 secs C F (body ++ s_txt s ++ tail_text (s_x s)) ltac:(rewrite <- EF, <- !app_assoc; reflexivity) f LF) as (cs & RC & O).
  rewrite RC. cbn [bind]. exists tp, (Z.of_nat (length pre)), cs.
  replace (Z.of_nat (length F - 6)) with (blen F - 6) by (unfold blen; lia). split; [reflexivity|]. constructor; auto.
  exists tp, (Z.of_nat (length pre)), (blen F - 6). split; [reflexivity|]. split; [exact TP|]. split; [|exact TA]. fold x. unfold blen. lia.
Qed.

(* ---------- the index of such a file ---------- *)
Definition fin (nxt : list (Z * Z)) (c : slot) : slot :=
  match c with
  | SDict e => match n_pos e with
               | Some (AInt p) => match zlookup p nxt with Some x => SDict (with_next (Some x) e) | None => c end
               | _ => c
               end
  | _ => c
  end.
Definition located (nxt : list (Z * Z)) (e : ient) : Prop := exists p x, n_pos e = Some (AInt p) /\ zlookup p nxt = Some x.
Lemma history_in num secs : forall k h v e, In (v, e) (history num k h secs) -> In (v, e) h \/
  exists j sec, nth_error secs j = Some sec /\ v = k + Z.of_nat j /\ In e (tl sec) /\ n_num e = num.
Proof.
  induction secs as [|s secs IH]; intros k h v e I; cbn [history] in I; auto.
  apply IH in I as [I|(j & sec & N & V & E)].
  - assert (G : forall l h, In (v, e) (fold_left (remember k) l h) -> In (v, e) h \/ (v = k /\ In e l)).
    { clear. induction l as [|a l IH]; intros h I; cbn [fold_left] in I; auto. apply IH in I as [I|[-> I]]; [|right; split; [auto|right; auto]].
      assert (R : In (v, e) h \/ (v = k /\ a = e)).
      { unfold remember in I. destruct h as [|[v0 e0] h]; [destruct I as [I|[]]; inversion I; auto|].
        destruct (n_pos e0); [destruct (n_pos a); [destruct (apos_eqb _ _); auto|]|]; destruct I as [I|I]; auto; inversion I; auto. }
      destruct R as [|[-> ->]]; auto. right. split; auto. left. auto. }
    apply G in I as [I|[-> I]]; auto. right. apply filter_In in I as [I NE]. exists 0%nat, s. split; auto. split; [lia|]. split; auto. lia.
  - right. exists (S j), sec. split; auto. split; [lia|]. exact E.
Qed.

Lemma index_direct chrono nxt nb : 0 <= nb -> increasing 0 (rev chrono) ->
  Forall (Forall (fun e => n_next e = None)) chrono ->
  Forall (fun s => Forall (fun o => ok_num nb (n_num o)) (tl s)) chrono ->
  Forall (Forall (located nxt)) chrono ->
  exists idx, build_index chrono nxt nb = Ok idx /\ length idx = length chrono /\
    forall k row sec, nth_error idx k = Some row -> nth_error (rev chrono) k = Some sec ->
      length row = Z.to_nat (nb + 2) /\
      (exists t es, sec = t :: es /\ cell row 0 (fin nxt (SDict (with_dver (Some (Z.of_nat k)) (with_over (Some (Z.of_nat k)) t))))) /\
      forall n, ok_num nb n -> pyget row n = Ok (fin nxt (cell_of (history n 0 [] (firstn (S k) (rev chrono))))).
Proof.
  intros NB INC FN FO FL.
  assert (LC : forall k sec, nth_error (rev chrono) k = Some sec -> Forall (located nxt) sec /\ Forall (fun e => n_next e = None) sec).
  { intros k sec E. apply nth_error_In, in_rev in E. rewrite Forall_forall in FL, FN. auto. }
  assert (LH : forall n m, Forall (fun x => located nxt (snd x) /\ n_next (snd x) = None /\ 0 <= fst x < Z.of_nat (length chrono)) (history n 0 [] (firstn m (rev chrono)))).
  { intros n m. apply Forall_forall. intros [v e] I. apply history_in in I as [[]|(j & sec & N & -> & I & _)].
    assert (J : nth_error (rev chrono) j = Some sec).
    { rewrite <- (firstn_skipn m (rev chrono)). rewrite nth_error_app1; auto. apply nth_error_Some. congruence. }
    pose proof J as J2. apply LC in J2 as [J2 J3]. assert (I2 : In e sec) by (destruct sec; [contradiction|right; exact I]).
    rewrite Forall_forall in J2, J3. cbn [fst snd]. split; auto. split; auto.
    assert (j < length (rev chrono))%nat by (apply nth_error_Some; congruence). rewrite rev_length in *. lia. }
  assert (TOT : exists idx, build_index chrono nxt nb = Ok idx).
  { unfold build_index. rewrite hybrid_none by (eapply increasing_stm; eauto). cbn [rev app bind].
    assert (FO' : Forall (fun s => Forall (fun o => ok_num nb (n_num o)) (tl s)) (rev chrono)) by (apply Forall_rev; auto).
    assert (RL : related nb (repeat SNone (Z.to_nat (nb + 2))) (fun _ => [])).
    { split; [rewrite repeat_length; lia|]. intros n N. split; [|constructor].
      destruct (pyidx_ok (repeat SNone (Z.to_nat (nb + 2))) nb n NB) as (i & PI & I1 & I2); auto; [rewrite repeat_length; lia|].
      rewrite (pyget_slot _ _ _ PI). rewrite repeat_length in I1. rewrite (nth_error_nth' _ SNone) by (rewrite repeat_length; lia).
      rewrite nth_repeat. reflexivity. }
    destruct (build_rows_ok nb (rev chrono) NB FO' [] false (repeat SNone (Z.to_nat (nb + 2))) (-1) 0 _ RL INC) as (rows & EB & LB & RB).
    rewrite EB. cbn [rev app bind]. apply map_res_all. intros row I. apply map_res_all. intros c Ic.
    apply In_nth_error in I as [k K]. destruct (nth_error (rev chrono) k) as [sec|] eqn:ES.
    2:{ apply nth_error_None in ES. assert (k < length rows)%nat by (apply nth_error_Some; congruence). lia. }
    rewrite rev_length in LB. assert (KB : (k < length rows)%nat) by (apply nth_error_Some; congruence).
    assert (CP : forall e v, located nxt e -> n_next e = None -> n_dver e = Some v -> 0 <= v < Z.of_nat (length chrono) -> exists y, complete_slot rows nxt (SDict e) = Ok y).
    { intros e v (p & x & P & Z) N V VB. cbn [complete_slot]. unfold complete. rewrite N, V. cbn [of_opt bind].
      destruct (pyget_range rows v) as [rw CR]; [lia|]. apply pyget_cell in CR; [|lia]. rewrite CR. cbn [bind]. rewrite P, Z. cbn [of_opt bind]. eauto. }
    destruct (RB k row sec K ES) as (t & es & -> & R0 & RL1 & RR). replace (-1 + 1 + Z.of_nat k) with (Z.of_nat k) in R0 by lia. change (-1 + 1) with 0 in RR.
    apply In_nth_error in Ic as [i IC]. assert (LI : (i < length row)%nat) by (apply nth_error_Some; congruence).
    destruct (LC _ _ ES) as [L1 L2]. inversion L1; subst. inversion L2; subst.
    destruct i as [|i].
    - rewrite R0 in IC. injection IC as <-. eapply CP; [| |reflexivity|]; [|auto|lia].
      match goal with H : located nxt t |- _ => destruct H as (p & x & P & Z) end. exists p, x. auto.
    - set (n := if Z.of_nat (S i) =? nb + 1 then -1 else Z.of_nat (S i)).
      assert (ON : ok_num nb n) by (unfold n, ok_num; destruct (Z.of_nat (S i) =? nb + 1) eqn:E; [left; auto|right; lia]).
      destruct (RR n ON) as [PG _]. destruct (pyidx_ok row nb n NB RL1 ON) as (i' & PI & I1 & I2).
      rewrite (pyget_slot _ _ _ PI) in PG. assert (i' = S i) by (unfold n in I2; destruct (Z.of_nat (S i) =? nb + 1) eqn:E; destruct (_ =? -1) eqn:E2 in I2; lia).
      subst i'. rewrite IC in PG. cbn [of_opt] in PG.
      assert (EC : c = cell_of (history n 0 [] (firstn (S k) (rev chrono)))) by congruence. rewrite EC. clear EC PG IC.
      pose proof (LH n (S k)) as HH. destruct (history n 0 [] (firstn (S k) (rev chrono))) as [|[v e] h]; cbn [cell_of].
      + cbn. eauto.
      + inversion HH as [|? ? (Q1 & Q2 & Q3) _]; subst. cbn [fst snd] in *. eapply CP; [|exact Q2|reflexivity|exact Q3].
        destruct Q1 as (p & x & P & Z). exists p, x. auto. }
  destruct TOT as [idx EI]. exists idx. split; auto.
  destruct (index_rows chrono nxt nb idx NB INC FN FO EI) as (LI & raw & LR & RW). split; auto.
  intros k row sec K SE. destruct (RW k row sec K SE) as (L & (t & es & c & -> & C0 & CC) & rrow & RK & RN).
  assert (FC : forall e c', located nxt e -> completed raw nxt (SDict e) c' -> c' = fin nxt (SDict e)).
  { intros e c' (p & x & P & Z) C. inversion C as [|? ? ? P' Z'|? ? ? ? ? ? ? ? P']; subst; [|congruence]. cbn [fin]. rewrite P'. rewrite Z'. reflexivity. }
  split; [exact L|]. split.
  - exists t, es. split; auto. split; [lia|]. cbn [Z.to_nat]. rewrite C0. f_equal. apply FC; auto.
    destruct (LC _ _ SE) as [L1 _]. inversion L1 as [|? ? (p & x & P & Z) _]; subst. exists p, x. auto.
  - intros n ON. destruct (RN n ON) as (_ & c' & PC & CP). rewrite PC. f_equal.
    pose proof (LH n (S k)) as HH. destruct (history n 0 [] (firstn (S k) (rev chrono))) as [|[v e] h]; cbn [cell_of] in *.
    + inversion CP. reflexivity.
    + apply FC; auto. inversion HH as [|? ? ((p & x & P & Z) & _) _]; subst. exists p, x. auto.
Qed.

Definition table_entry (n z : Z) : ient :=
  mk_ient n 0 None None (Some (AInt z)) None None None false None None None None false None.
Definition eof_entry (ep : Z) : ient := with_pos (Some (AInt ep)) (ient0 (-1) (-1)).
Definition entry_of (s : sect) (n : Z) : option ient := List.find (fun e => n_num e =? n) (entries s).
(* the position that the newest section gives to an object *)
Fixpoint latest (secs : list sect) (n : Z) : option Z :=
  match secs with
  | [] => None
  | s :: r => match entry_of s n with
              | Some e => match n_pos e with Some (AInt z) => Some z | _ => None end
              | None => latest r n
              end
  end.

Lemma entries_shape F secs s : sect_ok F secs s -> Forall (fun e => exists n z, e = table_entry n z /\ 1 <= n /\ blen F < z < Z.of_nat (s_x s)) (entries s).
Proof.
  intros [_ EO _ _ _ RG _ GN]. apply Forall_forall. intros e I. unfold entries in I. apply in_flat_map in I as (x & X & I).
  rewrite Forall_forall in EO, RG, GN. specialize (EO _ X). specialize (RG _ X). specialize (GN _ X). unfold in_use_entry in I.
  destruct (xe_cnt x) as [c|]; [|destruct I]. destruct (xe_free x || (xe_num x =? 0)) eqn:Q; [destruct I|]. destruct I as [<-|[]].
  apply orb_false_elim in Q as [Q1 Q2]. exists (xe_num x), c. destruct EO as (E1 & E2 & E3). rewrite (GN Q1). split; [reflexivity|]. split; [lia|]. auto.
Qed.
Lemma entries_nodup F secs s : sect_ok F secs s -> NoDup (map n_num (entries s)).
Proof.
  intros [_ _ _ _ _ _ ND _]. unfold entries. induction (s_elems s) as [|x l IH]; cbn [flat_map map]; [constructor|].
  cbn [map] in ND. inversion ND as [|? ? NI ND']; subst. rewrite map_app. unfold in_use_entry at 1.
  destruct (xe_cnt x); [|apply IH; auto]. destruct (xe_free x || (xe_num x =? 0)); [apply IH; auto|]. cbn [map app n_num]. constructor; [|apply IH; auto].
  intro I. apply NI. clear -I. apply in_map_iff in I as (e & E & I). apply in_flat_map in I as (y & Y & I). unfold in_use_entry in I.
  destruct (xe_cnt y); [|destruct I]. destruct (xe_free y || _); [destruct I|]. destruct I as [<-|[]]. cbn [n_num] in E. rewrite <- E. apply in_map. auto.
Qed.
Lemma filter_find l n : NoDup (map n_num l) -> filter (fun e => n_num e =? n) l = match List.find (fun e => n_num e =? n) l with Some e => [e] | None => [] end.
Proof.
  induction l as [|e l IH]; cbn [map filter List.find]; intro ND; auto. inversion ND as [|? ? NI ND']; subst. destruct (n_num e =? n) eqn:Q; auto.
  f_equal. rewrite IH by auto. destruct (List.find _ l) as [e'|] eqn:Fi; auto. exfalso. apply find_some in Fi as [I Q']. apply NI.
  replace (n_num e) with (n_num e') by lia. apply in_map. auto.
Qed.
Lemma entry_of_in s n e : entry_of s n = Some e -> In e (entries s) /\ n_num e = n.
Proof. intro H. apply find_some in H as [I Q]. split; auto. lia. Qed.
Lemma entry_of_none s n : entry_of s n = None <-> ~ In n (map n_num (entries s)).
Proof.
  unfold entry_of. split.
  - intros H I. apply in_map_iff in I as (e & E & I). eapply find_none in H; eauto. cbn in H. lia.
  - intro H. destruct (List.find _ _) as [e|] eqn:Q; auto. exfalso. apply H. apply find_some in Q as [I Q]. replace n with (n_num e) by lia. apply in_map. auto.
Qed.
Lemma latest_range F secs : chain F secs -> forall n z, latest secs n = Some z -> 1 <= n /\ 5 < z < blen F.
Proof.
  induction 1 as [|F secs body s C IH OK X]; intros n z; cbn [latest]; [discriminate|].
  pose proof (chain_pos _ _ C) as CP. assert (LE : blen F <= blen ((F ++ body) ++ s_txt s ++ tail_text (s_x s))) by (unfold blen; rewrite !app_length; lia).
  destruct (entry_of s n) as [e|] eqn:E.
  - apply entry_of_in in E as [I N]. pose proof (entries_shape _ _ _ OK) as ES. rewrite Forall_forall in ES. destruct (ES _ I) as (n' & z' & -> & N1 & Z1).
    cbn [n_pos table_entry n_num] in *. intro H. injection H as <-. unfold blen in *. rewrite !app_length. pose proof (tail_length (s_x s)). rewrite app_length in X. lia.
  - intro H. apply IH in H. lia.
Qed.

Lemma increasing_snoc p t es : forall l prev, increasing prev l -> n_pos t = Some (AInt p) -> n_stm t = false -> prev < p ->
  (forall t' es' p', In (t' :: es') l -> n_pos t' = Some (AInt p') -> p' < p) -> increasing prev (l ++ [t :: es]).
Proof.
  induction l as [|c l IH]; intros prev I P S L A; cbn [app increasing] in *.
  - exists t, es, p. repeat split; auto.
  - destruct I as (t' & es' & p' & -> & P' & S' & L' & I). exists t', es', p'. repeat split; auto. apply IH; auto.
    + eapply (A t' es'); [left; auto|auto].
    + intros. eapply A; [right; eauto|auto].
Qed.

Definition plain_entry (F : bytes) (e : ient) : Prop :=
  n_next e = None /\ n_env e = None /\ exists p, n_pos e = Some (AInt p) /\ 0 <= p < blen F.
Lemma opened_facts F' secs : chain F' secs -> forall F q cs, F = F' ++ q -> Forall2 (opened F) secs cs ->
  Forall (Forall (plain_entry F)) cs /\ Forall (fun c => Forall (fun e => n_num e = -1 \/ 1 <= n_num e) (tl c)) cs /\
  increasing 0 (rev cs) /\ (forall t es p, In (t :: es) cs -> n_pos t = Some (AInt p) -> p < blen F').
Proof.
  induction 1 as [h L|F0 secs body s C IH OK X]; intros F q cs EF O; inversion O as [|? c ? cs' OC O']; subst.
  - cbn. repeat split; auto. intros ? ? ? [].
  - set (F := ((F0 ++ body) ++ s_txt s ++ tail_text (s_x s)) ++ q) in *.
    destruct (IH F ((body ++ s_txt s ++ tail_text (s_x s)) ++ q) cs' ltac:(unfold F; rewrite <- !app_assoc; reflexivity) O') as (I1 & I2 & I3 & I4).
    destruct OC as (tp & sx & ep & -> & TP & EP & _). pose proof (entries_shape _ _ _ OK) as ES. cbn [close_section].
    assert (LF : blen F = blen F0 + blen body + blen (s_txt s) + blen (tail_text (s_x s)) + blen q) by (unfold F, blen; rewrite !app_length; lia).
    assert (LX : Z.of_nat (s_x s) = blen F0 + blen body) by (unfold blen; rewrite X, app_length; lia).
    assert (B5 : 5 <= blen F0) by (unfold blen; pose proof (chain_pos _ _ C); lia).
    assert (LT : 18 <= blen (tail_text (s_x s))) by (unfold blen; pose proof (tail_length (s_x s)); lia).
    assert (P0 : 0 <= blen body /\ 0 <= blen q) by (unfold blen; lia).
    assert (TX : Z.of_nat (s_x s + length (s_txt s)) = Z.of_nat (s_x s) + blen (s_txt s)) by (unfold blen; lia).
    split; [|split; [|split]].
    + constructor; auto. constructor.
      * split; [reflexivity|]. split; [reflexivity|]. exists tp. split; [reflexivity|]. lia.
      * apply Forall_app. split.
        -- eapply Forall_impl; [|exact ES]. intros e (n & z & -> & N & Z). split; [reflexivity|]. split; [reflexivity|]. exists z. split; [reflexivity|].
           cbn [app] in *. unfold blen in *. rewrite app_length in *. cbn [length] in *. lia.
        -- constructor; [|constructor]. split; [reflexivity|]. split; [reflexivity|]. exists ep. split; [reflexivity|]. lia.
    + constructor; auto. cbn [tl]. apply Forall_app. split.
      * eapply Forall_impl; [|exact ES]. intros e (n & z & -> & N & Z). right. exact N.
      * constructor; [left; reflexivity|constructor].
    + cbn [rev]. eapply increasing_snoc; [exact I3|reflexivity|reflexivity|lia|].
      intros t' es' p' I P. apply in_rev in I. specialize (I4 _ _ _ I P). cbn [n_pos section_entry with_stm with_sx] in *. lia.
    + intros t es p I P. assert (LF' : blen ((F0 ++ body) ++ s_txt s ++ tail_text (s_x s)) = blen F0 + blen body + blen (s_txt s) + blen (tail_text (s_x s))) by (unfold blen; rewrite !app_length; lia).
      destruct I as [I|I]; [|specialize (I4 _ _ _ I P); unfold blen in *; lia].
      injection I as <- <-. cbn [n_pos section_entry with_stm with_sx] in P. injection P as <-. lia.
Qed.

Lemma history_snoc n c : forall a k h, history n k h (a ++ [c]) = remember_all n (k + Z.of_nat (length a)) (history n k h a) c.
Proof.
  induction a as [|x a IH]; intros k h; cbn [app history length]; [f_equal; lia|]. rewrite IH. f_equal. lia.
Qed.
Lemma history_latest F secs cs : Forall2 (opened F) secs cs -> Forall (fun s => exists F0 rest, sect_ok F0 rest s) secs -> forall n, 1 <= n ->
  match history n 0 [] (rev cs) with
  | [] => latest secs n = None
  | (v, e) :: _ => exists z, latest secs n = Some z /\ e = table_entry n z
  end.
Proof.
  induction 1 as [|s c secs cs O F2 IH]; intros FO n N; cbn [rev latest]; [reflexivity|].
  inversion FO as [|? ? (F0 & rest & OK) FO']; subst. specialize (IH FO' n N). rewrite history_snoc. unfold remember_all.
  destruct O as (tp & sx & ep & -> & _). cbn [close_section tl]. rewrite filter_app. cbn [filter with_pos ient0 n_num].
  replace (-1 =? n) with false by lia. rewrite app_nil_r, (filter_find _ _ (entries_nodup _ _ _ OK)). unfold entry_of.
  destruct (List.find (fun e => n_num e =? n) (entries s)) as [e|] eqn:Q; cbn [fold_left]; [|exact IH].
  apply find_some in Q as [I Q]. pose proof (entries_shape _ _ _ OK) as ES. rewrite Forall_forall in ES. destruct (ES _ I) as (n' & z & -> & N1 & Z1).
  cbn [n_num table_entry n_pos] in *. assert (n' = n) by lia. subst n'. unfold remember. destruct (history n 0 [] (rev cs)) as [|[v e] h]; [eauto|].
  destruct IH as (z' & L & ->). cbn [n_pos table_entry]. cbn [apos_eqb]. destruct (z' =? z) eqn:ZZ; [|eauto].
  exists z. split; auto. replace z' with z by lia. reflexivity.
Qed.
Lemma chain_ok F secs : chain F secs -> Forall (fun s => exists F0 rest, sect_ok F0 rest s) secs.
Proof. induction 1; constructor; eauto. Qed.

Lemma rev_tail {A} (l : list A) k : (k < length l)%nat -> exists x r, skipn (length l - S k) l = x :: r /\ nth_error (rev l) k = Some x /\ firstn (S k) (rev l) = rev r ++ [x].
Proof.
  intro K. pose proof (firstn_rev (S k) l) as FR. destruct (skipn (length l - S k) l) as [|x r] eqn:E.
  - apply (f_equal (@length A)) in E. rewrite skipn_length in E. cbn in E. lia.
  - exists x, r. split; auto. assert (LR : length r = k) by (apply (f_equal (@length A)) in E; rewrite skipn_length in E; cbn in E; lia).
    cbn [rev] in FR. split; auto. rewrite <- (firstn_skipn (S k) (rev l)), FR, nth_error_app1 by (rewrite app_length, rev_length; cbn; lia).
    rewrite nth_error_app2 by (rewrite rev_length; lia). rewrite rev_length, LR, Nat.sub_diag. reflexivity.
Qed.
Lemma Forall2_skipn {A B} (R : A -> B -> Prop) l1 l2 : Forall2 R l1 l2 -> forall k, Forall2 R (skipn k l1) (skipn k l2).
Proof. induction 1; intros [|k]; cbn [skipn]; auto. Qed.
Lemma Forall2_len {A B} (R : A -> B -> Prop) l1 l2 : Forall2 R l1 l2 -> length l1 = length l2.
Proof. induction 1; cbn; auto. Qed.
Lemma Forall_skipn {A} (P : A -> Prop) l : Forall P l -> forall k, Forall P (skipn k l).
Proof. induction 1; intros [|k]; cbn [skipn]; auto. Qed.

Lemma history_eof F s c a : opened F s c -> (exists F0 rest, sect_ok F0 rest s) -> exists tp sx ep v e h,
  c = close_section (section_entry (Z.of_nat (s_x s)) tp :: entries s) false sx ep /\
  history (-1) 0 [] (a ++ [c]) = (v, e) :: h /\ n_pos e = Some (AInt ep).
Proof.
  intros (tp & sx & ep & -> & _) (F0 & rest & OK). exists tp, sx, ep. rewrite history_snoc. unfold remember_all. cbn [close_section tl]. rewrite filter_app.
  replace (filter (fun e => n_num e =? -1) (entries s)) with (@nil ient).
  2:{ symmetry. pose proof (entries_shape _ _ _ OK) as ES. induction ES as [|e l (n & z & -> & N & _) _ IH]; auto. cbn [filter n_num table_entry]. replace (n =? -1) with false by lia. auto. }
  cbn [app filter with_pos ient0 n_num]. change (-1 =? -1) with true. cbn [fold_left]. unfold remember.
  destruct (history (-1) 0 [] a) as [|[v e] h]; [do 3 eexists; repeat split; reflexivity|]. change (n_pos (with_pos (Some (AInt ep)) (ient0 (-1) (-1)))) with (Some (AInt ep)). cbv beta iota.
  destruct (n_pos e) as [q|] eqn:Q; [|do 3 eexists; repeat split; reflexivity].
  destruct (apos_eqb q (AInt ep)) eqn:E; [|do 3 eexists; repeat split; reflexivity].
  exists v, e, h. split; auto. split; auto. rewrite Q. f_equal. destruct q; cbn in E; try discriminate. f_equal. lia.
Qed.

Lemma latest_in secs s e : Forall (fun s => exists F0 rest, sect_ok F0 rest s) secs -> In s secs -> In e (entries s) -> exists z, latest secs (n_num e) = Some z.
Proof.
  induction 1 as [|s' secs (F0 & rest & OK) FO IH]; intros I E; [destruct I|]; destruct I as [->|I]; cbn [latest].
  - destruct (entry_of s (n_num e)) as [e'|] eqn:Q.
    + apply entry_of_in in Q as [I' _]. pose proof (entries_shape _ _ _ OK) as ES. rewrite Forall_forall in ES. destruct (ES _ I') as (n & z & -> & _). cbn. eauto.
    + apply entry_of_none in Q. exfalso. apply Q. apply in_map. auto.
  - destruct (entry_of s' (n_num e)) as [e'|] eqn:Q; auto.
    apply entry_of_in in Q as [I' _]. pose proof (entries_shape _ _ _ OK) as ES. rewrite Forall_forall in ES. destruct (ES _ I') as (n & z & -> & _). cbn. eauto.
Qed.
Lemma latest_from secs n z : latest secs n = Some z -> exists s e, In s secs /\ In e (entries s) /\ n_num e = n.
Proof.
  induction secs as [|s secs IH]; cbn [latest]; [discriminate|]. destruct (entry_of s n) as [e|] eqn:Q.
  - intros _. apply entry_of_in in Q as [I N]. exists s, e. repeat split; auto. left. auto.
  - intro H. destruct (IH H) as (s' & e & I & J & N). exists s', e. split; [right|]; auto.
Qed.

Lemma seq_in F (c : list ient) e : In e c -> plain_entry F e -> exists p, n_pos e = Some (AInt p) /\ In (p, n_num e) (seq_of c).
Proof.
  intros I (_ & NE & p & P & _). exists p. split; auto. unfold seq_of. apply in_flat_map. exists e. split; auto. rewrite NE, P. left. auto.
Qed.

Definition loaded_row (F : bytes) (nb : Z) (secs : list sect) (lastrow : bool) (row : list slot) : Prop :=
  length row = Z.to_nat (nb + 2) /\
  (exists ep e, pyget row (-1) = Ok (SDict e) /\ n_pos e = Some (AInt ep) /\ 0 <= ep < blen F /\ (lastrow = true -> ep = blen F - 6)) /\
  (exists s older e0, secs = s :: older /\ cell row 0 (SDict e0) /\ n_num e0 = 0 /\ n_gen e0 = 0 /\ n_env e0 = None /\ n_del e0 = false /\
     n_xsn e0 = None /\ n_xs e0 = None /\ n_xt e0 = Some (Z.of_nat (s_x s)) /\ trailer_at (PvSingle F) e0 = Ok (rvd (s_tr s))) /\
  (forall n, 1 <= n <= nb -> exists c, cell row n c /\
     match latest secs n with
     | None => c = SNone
     | Some z => exists v o x, c = SDict (with_next (Some x) (with_dver (Some v) (with_over (Some o) (table_entry n z)))) /\ z < x
     end).

Lemma loaded_index F secs : chain F secs -> secs <> [] -> (100 <= length F)%nat -> blen F < 10 ^ 10 ->
  forall f, (length secs <= S f)%nat -> exists chrono nxt nb idx,
    build_xref_sequence f (PvSingle F) = Ok (chrono, nxt, nb) /\ build_index chrono nxt nb = Ok idx /\ length idx = length secs /\ 0 <= nb /\
    (forall n z, latest secs n = Some z -> n <= nb) /\ (nb = 0 \/ exists z, latest secs nb = Some z) /\
    (forall k row, nth_error idx k = Some row -> loaded_row F nb (skipn (length secs - S k) secs) (S k =? length secs)%nat row) /\
    (forall k row row' s r, nth_error idx k = Some row -> nth_error idx (S k) = Some row' -> skipn (length secs - S (S k)) secs = s :: r ->
       forall n, 1 <= n <= nb -> entry_of s n = None -> pyget row' n = pyget row n).
Proof.
  intros CH NE L1 L2 f LF. destruct secs as [|s0 secs0]; [congruence|]. clear NE. cbn [length] in LF.
  destruct (first_section F s0 secs0 CH L1 L2 f ltac:(lia)) as (tp & sx & cs & XC & O). set (secs := s0 :: secs0) in *.
  set (chrono := close_section _ false sx (blen F - 6) :: cs) in *.
  destruct (opened_facts F secs CH F [] chrono ltac:(now rewrite app_nil_r) O) as (P1 & P2 & P3 & _).
  pose proof (chain_ok _ _ CH) as CO. pose proof (Forall2_len _ _ _ O) as LC.
  assert (BL : blen F = Z.of_nat (length F)) by reflexivity.
  destruct (finish_seq chrono (blen F)) as [[nxt nb]| |] eqn:FS.
  2,3: exfalso; revert FS; unfold finish_seq, chrono; cbn [close_section flat_map]; unfold seq_of; cbn [flat_map section_entry with_stm with_sx n_env n_pos app]; discriminate.
  destruct (following_position _ _ _ _ FS) as (FP & NI & NM).
  { apply Forall_forall. intros [p n] I. apply in_flat_map in I as (c & C & I). unfold seq_of in I. apply in_flat_map in I as (e & E & I).
    rewrite Forall_forall in P1. specialize (P1 _ C). rewrite Forall_forall in P1. destruct (P1 _ E) as (_ & N2 & q & Q & QB). rewrite N2, Q in I.
    destruct I as [I|[]]. injection I as <- <-. cbn [fst]. lia. }
  assert (INS : forall c e, In c chrono -> In e c -> exists p, n_pos e = Some (AInt p) /\ 0 <= p < blen F /\ In p (map fst (flat_map seq_of chrono)) /\ n_num e <= nb).
  { intros c e C E. pose proof P1 as Q. rewrite Forall_forall in Q. specialize (Q _ C). rewrite Forall_forall in Q. pose proof (Q _ E) as PE.
    destruct (seq_in F c e E PE) as (p & P & S). exists p. split; auto. destruct PE as (_ & _ & q & P' & QB). assert (q = p) by congruence. subst q. split; auto.
    assert (S2 : In (p, n_num e) (flat_map seq_of chrono)) by (apply in_flat_map; eauto).
    split; [apply (in_map fst) in S2; exact S2|]. rewrite Forall_forall in NM. specialize (NM _ S2). exact NM. }
  assert (LX : forall p, In p (map fst (flat_map seq_of chrono)) -> p < blen F -> exists x, zlookup p nxt = Some x /\ p < x).
  { intros p I PB. assert (G : forall l, exists b, least_above (blen F :: l) p b).
    { clear -PB. induction l as [|a l (b & B1 & B2 & B3)]; [exists (blen F); split; [left; auto|split; auto]; intros c [<-|[]]; lia|].
      destruct (Z_lt_dec p a) as [PA|PA]; [destruct (Z_le_dec a b) as [AB|AB]|].
      - exists a. split; [right; left; auto|]. split; auto. intros c [<-|[<-|C]] PC; try lia; [specialize (B3 (blen F) (or_introl eq_refl)); lia|specialize (B3 c (or_intror C) PC); lia].
      - exists b. split; [destruct B1; [left|right; right]; auto|]. split; auto. intros c [<-|[<-|C]] PC; try lia; apply B3; cbn [In]; auto.
      - exists b. split; [destruct B1; [left|right; right]; auto|]. split; auto. intros c [<-|[<-|C]] PC; try lia; apply B3; cbn [In]; auto. }
    destruct (G (map fst (flat_map seq_of chrono))) as (b & B). exists b. split; [apply FP; auto|]. destruct B as (_ & B & _). exact B. }
  assert (NB : 0 <= nb).
  { destruct (INS (hd [] chrono) (with_stm false (with_sx (Some sx) (section_entry (Z.of_nat (s_x s0)) tp)))) as (_ & _ & _ & _ & Q); [left; reflexivity|left; reflexivity|exact Q]. }
  assert (FL : Forall (Forall (located nxt)) chrono).
  { apply Forall_forall. intros c C. apply Forall_forall. intros e E. destruct (INS c e C E) as (p & P & PB & IP & _). destruct (LX p IP ltac:(lia)) as (x & X & _).
    exists p, x. auto. }
  destruct (index_direct chrono nxt nb NB P3) as (idx & BI & LI & RW).
  { eapply Forall_impl; [|exact P1]. intros c Q. eapply Forall_impl; [|exact Q]. intros e (A & _). exact A. }
  { apply Forall_forall. intros c C. apply Forall_forall. intros e E. rewrite Forall_forall in P2. specialize (P2 _ C). rewrite Forall_forall in P2. specialize (P2 _ E).
    assert (E' : In e c) by (destruct c; [contradiction|right; exact E]). destruct (INS c e C E') as (_ & _ & _ & _ & Q). unfold ok_num. lia. }
  { exact FL. }
  exists chrono, nxt, nb, idx. split; [|split; [exact BI|split; [rewrite LI; symmetry; exact LC|split; [exact NB|split; [|split; [|split]]]]]].
  - unfold build_xref_sequence. rewrite XC. cbn [bind]. rewrite single_length. cbn [bind]. rewrite FS. reflexivity.
  - intros n z H. destruct (latest_from _ _ _ H) as (s & e & IS & IE & <-).
    apply In_nth_error in IS as [i I]. destruct (nth_error chrono i) as [c|] eqn:CI; [|apply nth_error_None in CI; assert (i < length secs)%nat by (apply nth_error_Some; congruence); lia].
    assert (OC : opened F s c). { clear -O I CI. revert i I CI. induction O; intros [|i] I CI; cbn in *; try discriminate; [congruence|eauto]. }
    destruct OC as (tp' & sx' & ep & -> & _). apply nth_error_In in CI. edestruct (INS _ e CI) as (_ & _ & _ & _ & Q); [|exact Q]. cbn [close_section]. right. apply in_or_app. auto.
  - apply in_map_iff in NI as ([p n] & <- & I). cbn [snd]. apply in_flat_map in I as (c & C & I). unfold seq_of in I. apply in_flat_map in I as (e & E & I).
    assert (EN : n_num e = n) by (destruct (n_env e); [destruct I|]; destruct (n_pos e) as [[]|]; try (destruct I as [I|[]]; congruence); destruct I).
    apply In_nth_error in C as [i CI]. destruct (nth_error secs i) as [s|] eqn:I'; [|apply nth_error_None in I'; assert (i < length chrono)%nat by (apply nth_error_Some; congruence); lia].
    assert (OC : opened F s c). { clear -O I' CI. revert i I' CI. induction O; intros [|i] I CI; cbn in *; try discriminate; [congruence|eauto]. }
    destruct OC as (tp' & sx' & ep & -> & _). cbn [close_section] in E. destruct E as [<-|E]; [left; cbn in EN; auto|]. apply in_app_or in E as [E|[<-|[]]].
    + right. rewrite <- EN. eapply latest_in; eauto. eapply nth_error_In; eauto.
    + cbn [with_pos ient0 n_num] in EN. cbn [snd] in NB. lia.
  - intros k row K. assert (KL : (k < length chrono)%nat) by (rewrite <- LI; apply nth_error_Some; congruence).
    destruct (rev_tail chrono k KL) as (c & r & SK & NR & FR). destruct (RW k row c K NR) as (RL & (t & es & EC & C0) & RN). rewrite FR in RN.
    pose proof (Forall2_skipn _ _ _ O (length chrono - S k)) as O2. rewrite SK in O2. rewrite <- LC in O2. destruct (skipn (length secs - S k) secs) as [|s older] eqn:ES; [inversion O2|].
    assert (OCR : opened F s c /\ Forall2 (opened F) older r) by (inversion O2; auto). destruct OCR as [OC OR]. unfold loaded_row.
    pose proof (Forall_skipn _ _ CO (length secs - S k)) as CO2. rewrite ES in CO2. assert (OK : exists F0 rest, sect_ok F0 rest s) by (inversion CO2; auto).
    split; [exact RL|]. split; [|split].
    + destruct (history_eof F s c (rev r) OC OK) as (tp' & sx' & ep & v & e & h & Ec & HE & PE).
      specialize (RN (-1) (or_introl eq_refl)). rewrite HE in RN. cbn [cell_of fin with_dver with_over n_pos] in RN. rewrite PE in RN.
      assert (EB : 0 <= ep < blen F /\ In ep (map fst (flat_map seq_of chrono))).
      { apply nth_error_In, in_rev in NR. destruct (INS c (eof_entry ep) NR) as (p & P & PB & IP & _); [rewrite Ec; cbn [close_section]; right; apply in_or_app; right; left; reflexivity|].
        cbn in P. injection P as <-. auto. }
      destruct (LX ep (proj2 EB) ltac:(lia)) as (x & X & _). rewrite X in RN.
      exists ep. eexists. split; [exact RN|]. split; [exact PE|]. split; [apply EB|]. intro Q. apply Nat.eqb_eq in Q.
      replace (length chrono - S k)%nat with 0%nat in SK by lia. cbn [skipn] in SK. unfold chrono in SK. injection SK as Q1 _. subst c. cbn [close_section] in Ec.
      assert (EE : entries s0 ++ [with_pos (Some (AInt (blen F - 6))) (ient0 (-1) (-1))] = entries s ++ [with_pos (Some (AInt ep)) (ient0 (-1) (-1))]) by congruence.
      apply app_inj_tail in EE as [_ EE].
      assert (EP : Some (AInt (blen F - 6)) = Some (AInt ep)) by exact (f_equal n_pos EE). congruence.
    + destruct OC as (tp' & sx' & ep & Ec & TP & _ & TA). rewrite Ec in EC, NR. cbn [close_section] in EC. injection EC as <- <-.
      cbn [fin with_dver with_over with_stm with_sx section_entry n_pos] in C0.
      apply nth_error_In, in_rev in NR. destruct (INS _ (with_stm false (with_sx (Some sx') (section_entry (Z.of_nat (s_x s)) tp'))) NR) as (p & P & PB & IP & _); [left; reflexivity|].
      cbn in P. injection P as <-. destruct (LX tp' IP ltac:(lia)) as (x & X & XL). rewrite X in C0.
      exists s, older. eexists. split; [reflexivity|]. split; [exact C0|]. repeat (split; [reflexivity|]). eapply TA; [reflexivity|reflexivity|exact XL].
    + intros n N. specialize (RN n ltac:(right; lia)). pose proof (history_latest F (s :: older) (c :: r) ltac:(constructor; auto) CO2 n ltac:(lia)) as HL. cbn [rev] in HL.
      exists (fin nxt (cell_of (history n 0 [] (rev r ++ [c])))). split.
      { apply pyget_cell; [lia|exact RN]. }
      destruct (history n 0 [] (rev r ++ [c])) as [|[v e] h] eqn:HE.
      * rewrite HL. reflexivity.
      * destruct HL as (z & HL & ->). rewrite HL. cbn [cell_of fin with_dver with_over table_entry n_pos].
        assert (HI : In (v, table_entry n z) (history n 0 [] (rev r ++ [c]))) by (rewrite HE; left; auto). apply history_in in HI as [[]|(j & sec & J & _ & IE & _)].
        apply nth_error_In in J. rewrite <- FR in J. assert (J2 : In sec chrono) by (apply in_rev; rewrite <- (firstn_skipn (S k) (rev chrono)); apply in_or_app; auto).
        destruct (INS sec (table_entry n z) J2) as (p & P & PB & IP & _); [destruct sec; [contradiction|right; exact IE]|]. cbn in P. injection P as <-.
        destruct (LX z IP ltac:(lia)) as (x & X & XL). rewrite X. do 3 eexists. split; [reflexivity|exact XL].
  - intros k row row' s r K K' SK n N EN. assert (KL : (S k < length chrono)%nat) by (rewrite <- LI; apply nth_error_Some; congruence).
    destruct (rev_tail chrono (S k) KL) as (c & r1 & SK1 & NR & FR). destruct (nth_error (rev chrono) k) as [c0|] eqn:NR0; [|apply nth_error_None in NR0; rewrite rev_length in NR0; lia].
    destruct (RW k row c0 K NR0) as (_ & _ & RN). destruct (RW (S k) row' c K' NR) as (_ & _ & RN').
    rewrite (RN n ltac:(right; lia)), (RN' n ltac:(right; lia)). f_equal. f_equal. f_equal. rewrite FR.
    assert (F1 : firstn (S k) (rev chrono) = rev r1).
    { assert (FF : firstn (S k) (firstn (S (S k)) (rev chrono)) = firstn (S k) (rev chrono)) by (rewrite firstn_firstn; f_equal; lia). rewrite <- FF, FR, firstn_app.
      assert (H : length (rev r1) = S k). { apply (f_equal (@length (list ient))) in FR. rewrite firstn_length, app_length, rev_length in FR. cbn [length] in FR. lia. }
      rewrite H, Nat.sub_diag. rewrite firstn_O. rewrite app_nil_r. rewrite firstn_all2; auto. lia. }
    rewrite F1, history_snoc. unfold remember_all.
    pose proof (Forall2_skipn _ _ _ O (length chrono - S (S k))) as O2. rewrite SK1 in O2. rewrite <- LC, SK in O2. inversion O2 as [|? ? ? ? OC OR]; subst.
    destruct OC as (tp' & sx' & ep & -> & _). cbn [close_section tl]. rewrite filter_app. cbn [filter with_pos ient0 n_num]. replace (-1 =? n) with false by lia. rewrite app_nil_r.
    assert (OK : exists F0 rest, sect_ok F0 rest s). { pose proof (Forall_skipn _ _ CO (length secs - S (S k))) as CO2. rewrite SK in CO2. inversion CO2; auto. }
    destruct OK as (F0 & rest & OK). rewrite (filter_find _ _ (entries_nodup _ _ _ OK)). unfold entry_of in EN. rewrite EN. reflexivity.
Qed.

End WithZlib.
