(* Facts about the bytes written for a document *)
From Coq Require Import String.
From Verif Require Import PyBase Model_Filters Model_Objects Model_Filestruct Model_Text Model_Docstruct Model_Api.
From Verif Require Import Spec_Objects Spec_Filestruct Spec_Docstruct Spec_Api.
From Verif Require Import Facts_Base Facts_Revision Facts_Doc Facts_Commit Facts_Xref Facts_Prov.
From Coq Require Import ZifyBool ZifyNat.

Section WithZlib.
Context {ZL : Zlib}.

(* ---------- operations that leave the written revisions alone ---------- *)
Definition keeps (d d' : doc) : Prop := d_data d' = d_data d /\ length (d_index d') = length (d_index d).
Lemma keeps_refl d : keeps d d.
Proof. split; reflexivity. Qed.
Lemma keeps_trans a b c : keeps a b -> keeps b c -> keeps a c.
Proof. intros [? ?] [? ?]. split; congruence. Qed.

Ltac step H :=
  match type of H with
  | bind ?x _ = Ok _ => let E := fresh "E" in destruct x eqn:E; cbn [bind] in H; [|discriminate H|discriminate H]
  | (let (_, _) := ?x in _) = Ok _ => destruct x
  | (let '(_, _) := ?x in _) = Ok _ => destruct x
  | (if ?x then _ else _) = Ok _ => let E := fresh "E" in destruct x eqn:E
  | (match ?x with _ => _ end) = Ok _ => let E := fresh "E" in destruct x eqn:E; try discriminate H
  | Ok _ = Ok _ => injection H; clear H; intros; subst
  | Exc _ = Ok _ => discriminate H
  | Loop = Ok _ => discriminate H
  end.
Ltac steps H := repeat step H.

Lemma pyset_length {A} (l : list A) k v l' : pyset l k v = Ok l' -> length l' = length l.
Proof. unfold pyset. intro H. steps H. apply lset_length. Qed.
Lemma keeps_cache d c : keeps d (with_cache d c).
Proof. split; reflexivity. Qed.
Lemma keeps_get d o v d1 : get_object d o = Ok (v, d1) -> keeps d d1.
Proof. unfold get_object. intro H. steps H; try apply keeps_refl. apply keeps_cache. Qed.
Lemma keeps_set_last d row d1 : set_last_row d row = Ok d1 -> keeps d d1.
Proof. unfold set_last_row. intro H. steps H. split; cbn; [reflexivity|]. eapply pyset_length; eauto. Qed.
Lemma keeps_update d n o d1 : update_object d n o = Ok d1 -> keeps d d1.
Proof.
  unfold update_object. intro H. steps H. eapply keeps_trans; [eapply keeps_set_last; eauto|apply keeps_cache].
Qed.
Lemma keeps_add d o d1 r : add_object d o = Ok (d1, r) -> keeps d d1.
Proof.
  unfold add_object. intro H. steps H. eapply keeps_trans; [eapply keeps_set_last; eauto|apply keeps_cache].
Qed.
Lemma keeps_trailer d v d1 : trailer d = Ok (v, d1) -> keeps d d1.
Proof. apply keeps_get. Qed.
Ltac conv E := first [apply keeps_get in E|apply keeps_set_last in E|apply keeps_update in E|apply keeps_add in E|apply keeps_trailer in E].
Ltac fin := repeat match goal with E : _ = Ok _ |- _ => conv E end;
            repeat match goal with E : keeps _ _ |- _ => destruct E end; unfold keeps in *; unfold with_cache in *; cbn [d_data d_index] in *; split; congruence.
Lemma keeps_catalog d v r d1 : catalog d = Ok (v, r, d1) -> keeps d d1.
Proof. unfold catalog. intro H. steps H. fin. Qed.
Ltac conv E ::= first [apply keeps_get in E|apply keeps_set_last in E|apply keeps_update in E|apply keeps_add in E|apply keeps_trailer in E|apply keeps_catalog in E].
Lemma keeps_update_version d v d1 : update_version d v = Ok d1 -> keeps d d1.
Proof. unfold update_version. intro H. steps H; fin. Qed.
Lemma keeps_force d b f d1 : force_xref_stream d b f = Ok d1 -> keeps d d1.
Proof. unfold force_xref_stream. intro H. steps H; fin. Qed.
Lemma keeps_tag l : forall d env d1, tag_env d env l = Ok d1 -> keeps d d1.
Proof.
  induction l as [|o l IH]; intros d env d1 H; cbn [tag_env] in H; [steps H; apply keeps_refl|].
  steps H; try (apply IH in H; fin).
Qed.
Lemma keeps_group d env l d1 : group_obj_into_stream d env l = Ok d1 -> keeps d d1.
Proof. unfold group_obj_into_stream. intro H. steps H; repeat match goal with E : tag_env _ _ _ = Ok _ |- _ => apply keeps_tag in E end; steps E; fin. Qed.

Section Kids.
Context (visit : doc -> obj -> dict -> res (option (list (obj * dict)) * dict * doc)) (V : forall d o i x i' d', visit d o i = Ok (x, i', d') -> keeps d d').
Lemma keeps_kids node m l : forall d inh acc a i d', kids_loop visit node m d inh acc l = Ok (a, i, d') -> keeps d d'.
Proof.
  induction l as [|k l IH]; intros d inh acc a i d' H; cbn [kids_loop] in H; [steps H; apply keeps_refl|].
  steps H; repeat match goal with E : visit _ _ _ = Ok _ |- _ => apply V in E end; try assumption; eapply keeps_trans; eauto.
Qed.
End Kids.
Lemma keeps_page_tree f : forall m d n i x i' d', page_tree f m d n i = Ok (x, i', d') -> keeps d d'.
Proof.
  induction f as [|f IH]; intros m d n i x i' d' H; [discriminate|]. cbn [page_tree] in H.
  steps H; repeat match goal with E : kids_loop _ _ _ _ _ _ _ = Ok _ |- _ => apply keeps_kids in E; [|intros; eapply IH; eauto] end; try steps E; fin.
Qed.
Lemma keeps_flat f d i m x i' d' : flat_page_tree f d i m = Ok (x, i', d') -> keeps d d'.
Proof. apply keeps_page_tree. Qed.
Lemma keeps_page_dicts l : forall d x d', page_dicts d l = Ok (x, d') -> keeps d d'.
Proof.
  induction l as [|[n i] l IH]; intros d x d' H; cbn [page_dicts] in H; [steps H; apply keeps_refl|]. steps H.
  repeat match goal with E : page_dicts _ _ = Ok _ |- _ => apply IH in E end. fin.
Qed.
Lemma keeps_pages f d i m x i' d' : pages f d i m = Ok (x, i', d') -> keeps d d'.
Proof.
  unfold pages. intro H. steps H. repeat match goal with E : page_dicts _ _ = Ok _ |- _ => apply keeps_page_dicts in E end.
  repeat match goal with E : flat_page_tree _ _ _ _ = Ok _ |- _ => apply keeps_flat in E end. fin.
Qed.
Lemma keeps_rotate_one d n o z d1 : rotate_one d n o z = Ok d1 -> keeps d d1.
Proof. unfold rotate_one. intro H. steps H. fin. Qed.
Lemma keeps_rotate_all c z l : forall d d1, rotate_all d c z l = Ok d1 -> keeps d d1.
Proof.
  induction l as [|[n o] l IH]; intros d d1 H; cbn [rotate_all] in H; [steps H; apply keeps_refl|]. steps H. apply IH in H.
  eapply keeps_trans; [eapply keeps_rotate_one; eauto|auto].
Qed.
Lemma keeps_rotate f d i z l d1 i' : rotate f d i z l = Ok (d1, i') -> keeps d d1.
Proof.
  unfold rotate, page_layouts. intro H. steps H. steps E.
  repeat match goal with E : rotate_all _ _ _ _ = Ok _ |- _ => apply keeps_rotate_all in E
         | E : flat_page_tree _ _ _ _ = Ok _ |- _ => apply keeps_flat in E | E : pages _ _ _ _ = Ok _ |- _ => apply keeps_pages in E end. fin.
Qed.
Lemma keeps_filter_one d n f d1 : filter_one d n f = Ok d1 -> keeps d d1.
Proof. unfold filter_one, obj_at. intro H. steps H; steps E; fin. Qed.
Lemma keeps_apply_filter f l : forall d d1, apply_filter d l f = Ok d1 -> keeps d d1.
Proof.
  induction l as [|n l IH]; intros d d1 H; cbn [apply_filter] in H; [steps H; apply keeps_refl|]. steps H. apply IH in H.
  eapply keeps_trans; [eapply keeps_filter_one; eauto|auto].
Qed.
Lemma keeps_annotation f d i n t r o d1 i' : add_text_annotation f d i n t r o = Ok (d1, i') -> keeps d d1.
Proof.
  unfold add_text_annotation. intro H. steps H; repeat match goal with E : flat_page_tree _ _ _ _ = Ok _ |- _ => apply keeps_flat in E end; fin.
Qed.
Section Deps.
Context (deps : doc -> obj -> res (list ref * doc)) (V : forall d o x d', deps d o = Ok (x, d') -> keeps d d').
Lemma keeps_deps_list l : forall d x d', deps_list deps d l = Ok (x, d') -> keeps d d'.
Proof.
  induction l as [|o l IH]; intros d x d' H; cbn [deps_list] in H; [steps H; apply keeps_refl|]. steps H.
  repeat match goal with E : deps_list _ _ _ = Ok _ |- _ => apply IH in E | E : deps _ _ = Ok _ |- _ => apply V in E end. fin.
Qed.
Lemma keeps_deps_dict l : forall d x d', deps_dict deps d l = Ok (x, d') -> keeps d d'.
Proof.
  induction l as [|[k o] l IH]; intros d x d' H; cbn [deps_dict] in H; [steps H; apply keeps_refl|]. steps H; [eauto|].
  repeat match goal with E : deps_dict _ _ _ = Ok _ |- _ => apply IH in E | E : deps _ _ = Ok _ |- _ => apply V in E end. fin.
Qed.
End Deps.
Lemma keeps_dependencies f : forall d o x d', dependencies f d o = Ok (x, d') -> keeps d d'.
Proof.
  induction f as [|f IH]; intros d o x d' H; [discriminate|]. cbn [dependencies] in H. destruct o; try (steps H; apply keeps_refl).
  - steps H. repeat match goal with E : dependencies f _ _ = Ok _ |- _ => apply IH in E end. fin.
  - eapply keeps_deps_list; eauto.
  - eapply keeps_deps_dict; eauto.
Qed.
Lemma keeps_deps_of f l : forall d x d', deps_of f d l = Ok (x, d') -> keeps d d'.
Proof.
  induction l as [|r l IH]; intros d x d' H; cbn [deps_of] in H; [steps H; apply keeps_refl|]. steps H.
  repeat match goal with E : deps_of _ _ _ = Ok _ |- _ => apply IH in E | E : dependencies _ _ _ = Ok _ |- _ => apply keeps_dependencies in E end. fin.
Qed.
Lemma keeps_count_up f : forall d p d', count_up f d p = Ok d' -> keeps d d'.
Proof.
  induction f as [|f IH]; intros d p d' H; [discriminate|]. cbn [count_up] in H. steps H; [|apply keeps_refl]. apply IH in H. fin.
Qed.
Lemma keeps_detach f d r d' : detach f d r = Ok d' -> keeps d d'.
Proof. unfold detach. intro H. steps H. apply keeps_count_up in H. fin. Qed.
Lemma keeps_each {A} (f : doc -> A -> res doc) (V : forall d x d', f d x = Ok d' -> keeps d d') l : forall d d', each f d l = Ok d' -> keeps d d'.
Proof.
  induction l as [|x l IH]; intros d d' H; cbn [each] in H; [steps H; apply keeps_refl|]. steps H. eapply keeps_trans; eauto.
Qed.
Lemma keeps_number_pages d v d1 : number_pages d = Ok (v, d1) -> keeps d d1.
Proof. unfold number_pages. intro H. steps H. fin. Qed.
Lemma keeps_remove ord f d i l d1 i' : remove_pages ord f d i l = Ok (d1, i') -> keeps d d1.
Proof.
  unfold remove_pages. intro H. steps H.
  repeat match goal with E : each (detach _) _ _ = Ok _ |- _ => apply keeps_each in E; [|intros; eapply keeps_detach; eauto]
         | E : each (fun _ _ => update_object _ _ _) _ _ = Ok _ |- _ => apply keeps_each in E; [|intros; eapply keeps_update; eauto]
         | E : deps_of _ _ _ = Ok _ |- _ => apply keeps_deps_of in E | E : flat_page_tree _ _ _ _ = Ok _ |- _ => apply keeps_flat in E end. fin.
Qed.
Lemma keeps_keep ord f d i l d1 i' : keep_pages ord f d i l = Ok (d1, i') -> keeps d d1.
Proof.
  unfold keep_pages. intro H. steps H. apply keeps_remove in H.
  repeat match goal with E : number_pages _ = Ok _ |- _ => apply keeps_number_pages in E end. fin.
Qed.
Lemma keeps_getitem ord f d i k d1 i' : getitem ord f d i k = Ok (d1, i') -> keeps d d1.
Proof.
  unfold getitem. intro H. steps H. apply keeps_keep in H.
  repeat match goal with E : number_pages _ = Ok _ |- _ => apply keeps_number_pages in E end. fin.
Qed.
Lemma keeps_copy l : forall s d m s' d', copy_objs s d m l = Ok (s', d') -> keeps d d'.
Proof.
  induction l as [|r l IH]; intros s d m s' d' H; cbn [copy_objs] in H; [steps H; apply keeps_refl|]. steps H. apply IH in H.
  eapply keeps_trans; [eapply keeps_add; eauto|auto].
Qed.
Lemma keeps_concat l r b d : concat_docs l r b = Ok d -> keeps (if b then l else r) d.
Proof.
  unfold concat_docs. intro H. set (new := if b then l else r) in *. set (source := if b then r else l) in *. clearbody new source. steps H.
  repeat match goal with E : copy_objs _ _ _ _ = Ok _ |- _ => apply keeps_copy in E end.
  fin.
Qed.

(* ---------- the bytes of the closed revisions ---------- *)
Definition base_of (cuts : list datum) : res bytes :=
  match cuts with
  | [] => Ok []
  | y :: _ => let* c := of_opt EKeyError (dt_cut (last cuts y)) in
              let* p := of_opt EKeyError (dt_fdata y) in file_prefix p c
  end.
Definition is_cut (x : datum) : Prop := dt_cut x <> None.
Definition is_frag (x : datum) : Prop := dt_cut x = None /\ dt_bdata x <> None.
(* cuts of the file, fragments, then the open revision *)
Record shaped (d : doc) (cuts frags : list datum) (tl : list datum) : Prop := {
  sh_data : d_data d = cuts ++ frags ++ tl;
  sh_len : (length (d_data d) <= length (d_index d))%nat;
  sh_cuts : Forall is_cut cuts;
  sh_frags : Forall is_frag frags;
  sh_tl : (exists op, tl = [op] /\ dt_cut op = None) \/ (tl = [] /\ frags = [])
}.
Definition closed_bytes (cuts frags : list datum) : res bytes :=
  let* b := base_of cuts in let* m := fragments frags in Ok (b ++ m).

Lemma fragments_app a b : fragments (a ++ b) = let* x := fragments a in let* y := fragments b in Ok (x ++ y).
Proof.
  induction a as [|x a IH]; cbn [app fragments]; [destruct (fragments b); reflexivity|]. rewrite IH.
  destruct (of_opt EKeyError (dt_bdata x)); cbn [bind]; auto. destruct (fragments a); cbn [bind]; auto. destruct (fragments b); cbn [bind]; auto.
  now rewrite app_assoc.
Qed.
Lemma fragments_total l : Forall is_frag l -> exists m, fragments l = Ok m.
Proof.
  induction 1 as [|x l [_ B] _ [m IH]]; cbn [fragments]; [eauto|]. destruct (dt_bdata x); [|congruence]. cbn [of_opt bind]. rewrite IH. cbn [bind]. eauto.
Qed.
Lemma eof_revisions_shape cuts rest : Forall is_cut cuts -> (match rest with x :: _ => dt_cut x = None | [] => True end) -> eof_revisions (cuts ++ rest) = length cuts.
Proof.
  intros F. induction F as [|x l C _ IH]; intro H; cbn [app eof_revisions length].
  - destruct rest as [|x r]; cbn [eof_revisions]; [auto|]. now rewrite H.
  - unfold is_cut in C. destruct (dt_cut x); [|congruence]. now rewrite IH.
Qed.

Lemma commit_shape d cuts frags tl d1 : shaped d cuts frags tl -> commit d = Ok d1 ->
  exists cuts' frags' tl', shaped d1 cuts' frags' tl' /\ forall o, closed_bytes cuts frags = Ok o -> exists r, closed_bytes cuts' frags' = Ok (o ++ r).
Proof.
  intros [SD SL SC SF ST] H. destruct (changes d) as [chg| |] eqn:EC; [|unfold commit in H; rewrite EC in H; discriminate|unfold commit in H; rewrite EC in H; discriminate].
  destruct chg as [|c0 chg0].
  { unfold commit in H. rewrite EC in H. cbn [bind] in H. injection H as <-. exists cuts, frags, tl. split; [constructor; auto|]. intros o O. exists []. now rewrite app_nil_r. }
  destruct (commit_inv d _ d1 EC ltac:(discriminate) H) as (lx & row0 & t0 & x0 & row & x & dx & dl & dl' & row' & cache' & pe & t3 & fd & Ei & C0 & Ex & Erx & Ed & CL & PE & C3 & Ef & ->).
  assert (LN : (length (dx ++ [dl'; mk_datum None None (Some fd)]) <= length (lx ++ [row'; SDict (revision_entry d x0) :: skipn 1 row']))%nat).
  { rewrite Ed, Ei, !app_length in SL. rewrite !app_length. cbn [length] in *. lia. }
  assert (FR : is_frag dl' \/ dl' = dl /\ is_cut dl).
  { destruct CL as [c Ecut|v b ni c' Ecut L1 EB|idx b ni c' q Ecut L1 EI EB Eq NB].
    - right. split; [auto|]. unfold is_cut. congruence.
    - left. split; cbn; [auto|discriminate].
    - left. split; cbn; [auto|discriminate]. }
  assert (CN : is_frag dl' -> dt_cut dl = None).
  { intros [F1 F2]. destruct CL; cbn in F1; congruence. }
  rewrite SD in Ed. destruct ST as [(op & -> & CO)|[-> ->]].
  - rewrite app_assoc in Ed. apply app_inj_tail in Ed. destruct Ed as [<- ->].
    destruct FR as [FR|[_ FR]]; [|unfold is_cut in FR; congruence].
    exists cuts, (frags ++ [dl']), [mk_datum None None (Some fd)]. split.
    + constructor; cbn [d_data d_index]; auto.
      * rewrite <- !app_assoc. reflexivity.
      * apply Forall_app. auto.
      * left. eexists. split; [reflexivity|reflexivity].
    + intros o O. unfold closed_bytes in *. destruct (base_of cuts) as [b| |]; cbn [bind] in *; try discriminate.
      destruct (fragments frags) as [m| |] eqn:EM; cbn [bind] in *; try discriminate. injection O as <-.
      rewrite fragments_app, EM. cbn [bind]. destruct FR as [_ FR]. cbn [fragments]. destruct (dt_bdata dl') as [bd|]; [|congruence]. cbn [of_opt bind]. rewrite app_nil_r.
      exists bd. now rewrite app_assoc.
  - rewrite !app_nil_r in Ed. rewrite Ed in SC. apply Forall_app in SC. destruct SC as [SC SC2]. inversion SC2 as [|? ? CD _]; subst.
    destruct FR as [FR|[-> _]]; [unfold is_cut in CD; rewrite (CN FR) in CD; congruence|].
    exists (dx ++ [dl]), [], [mk_datum None None (Some fd)]. split.
    + constructor; cbn [d_data d_index]; auto.
      * rewrite <- !app_assoc. reflexivity.
      * apply Forall_app. auto.
      * left. eexists. split; [reflexivity|reflexivity].
    + intros o O. exists []. now rewrite app_nil_r.
Qed.

Lemma write_shape d cuts frags tl out d1 : shaped d cuts frags tl -> writefile d = Ok (out, d1) ->
  exists cuts' frags' tl', shaped d1 cuts' frags' tl' /\ closed_bytes cuts' frags' = Ok out /\ commit d = Ok d1 /\
    forall o, closed_bytes cuts frags = Ok o -> starts_with out o.
Proof.
  intros SH H. unfold writefile in H. destruct (commit d) as [dc| |] eqn:EC; cbn [bind] in H; try discriminate.
  destruct (Nat.ltb _ _) eqn:EL; [discriminate|]. apply Nat.ltb_ge in EL.
  destruct (commit_shape d cuts frags tl dc SH EC) as (cuts' & frags' & tl' & SH' & PF). destruct SH' as [SD SL SC SF ST].
  assert (LEN : length (d_data dc) = length (d_index dc)) by lia.
  rewrite <- LEN in H. rewrite firstn_all in H. rewrite SD in H.
  rewrite eof_revisions_shape in H; auto.
  2:{ destruct SF as [|f fr [F1 F2] _]; cbn [app]; [|exact F1]. destruct ST as [(op & -> & CO)|[-> _]]; [exact CO|exact Logic.I]. }
  assert (BASE : forall b, (match length cuts' with
                  | O => Ok []
                  | S i => let* x := pyget (cuts' ++ frags' ++ tl') (Z.of_nat i) in
                           let* c := of_opt EKeyError (dt_cut x) in
                           let* y := pyget (cuts' ++ frags' ++ tl') 0 in
                           let* p := of_opt EKeyError (dt_fdata y) in
                           file_prefix p c
                  end) = Ok b -> base_of cuts' = Ok b).
  { intros b HB. destruct cuts' as [|y c] using rev_ind; [exact HB|]. clear IHc. rewrite app_length in HB. cbn [length] in HB.
    replace (length c + 1)%nat with (S (length c)) in HB by lia.
    assert (G1 : pyget ((c ++ [y]) ++ frags' ++ tl') (Z.of_nat (length c)) = Ok y).
    { apply pyget_cell; [lia|]. split; [lia|]. rewrite Nat2Z.id, <- app_assoc, nth_error_app2, Nat.sub_diag by lia. reflexivity. }
    rewrite G1 in HB. cbn [bind] in HB. destruct c as [|y0 c]; cbn [app] in *.
    - exact HB.
    - unfold base_of. change (last (y0 :: c ++ [y]) y0) with (last ((y0 :: c) ++ [y]) y0). rewrite last_last.
      destruct (of_opt EKeyError (dt_cut y)); cbn [bind] in *; try discriminate.
      exact HB. }
  match type of H with bind ?X _ = _ => destruct X as [base| |] eqn:EB; cbn [bind] in H; try discriminate end. clear EB. pose proof (BASE base eq_refl) as EB.
  rewrite skipn_app, skipn_all, Nat.sub_diag in H. cbn [skipn app] in H.
  assert (FM : firstn (length (cuts' ++ frags' ++ tl') - 1 - length cuts') (frags' ++ tl') = frags').
  { rewrite !app_length. destruct ST as [(op & -> & CO)|[-> ->]]; cbn [length].
    - replace (length cuts' + (length frags' + 1) - 1 - length cuts')%nat with (length frags') by lia. now rewrite firstn_app, Nat.sub_diag, firstn_all, firstn_O, app_nil_r.
    - cbn [app]. now rewrite firstn_nil. }
  rewrite FM in H. destruct (fragments frags') as [m| |] eqn:EM; cbn [bind] in H; try discriminate. injection H as <- <-.
  exists cuts', frags', tl'. split; [constructor; auto|]. unfold closed_bytes at 1. rewrite EB, EM. cbn [bind]. split; [reflexivity|]. split; [reflexivity|].
  intros o O. destruct (PF o O) as [r R]. unfold closed_bytes in R. rewrite EB, EM in R. cbn [bind] in R. injection R as R. exists r. exact R.
Qed.

Lemma keeps_shape d d1 cuts frags tl : keeps d d1 -> shaped d cuts frags tl -> shaped d1 cuts frags tl.
Proof. intros [K1 K2] [SD SL SC SF ST]. constructor; auto; congruence. Qed.

Lemma operation_shape d d1 cuts frags tl : operation d d1 -> shaped d cuts frags tl ->
  exists cuts' frags' tl', shaped d1 cuts' frags' tl' /\ forall o, closed_bytes cuts frags = Ok o -> exists r, closed_bytes cuts' frags' = Ok (o ++ r).
Proof.
  intros O SH.
  assert (K : keeps d d1 -> exists cuts' frags' tl', shaped d1 cuts' frags' tl' /\ forall o, closed_bytes cuts frags = Ok o -> exists r, closed_bytes cuts' frags' = Ok (o ++ r)).
  { intro K. exists cuts, frags, tl. split; [eapply keeps_shape; eauto|]. intros o E. exists []. now rewrite app_nil_r. }
  destruct O.
  - apply K. eapply keeps_get; eassumption.
  - apply K. eapply keeps_update; eassumption.
  - apply K. eapply keeps_add; eassumption.
  - eapply commit_shape; eauto.
  - apply K. eapply keeps_update_version; eassumption.
  - apply K. eapply keeps_force; eassumption.
  - apply K. eapply keeps_group; eassumption.
  - apply K. eapply keeps_rotate; eassumption.
  - apply K. eapply keeps_apply_filter; eassumption.
  - apply K. eapply keeps_annotation; eassumption.
  - apply K. eapply keeps_remove; eassumption.
  - apply K. eapply keeps_keep; eassumption.
  - apply K. eapply keeps_getitem; eassumption.
  - apply K. apply (keeps_concat d e true). assumption.
  - apply K. apply (keeps_concat e d false). assumption.
  - match goal with H : writefile _ = Ok _ |- _ => destruct (write_shape _ _ _ _ _ _ SH H) as (_ & _ & _ & _ & _ & C & _) end. eapply commit_shape; eauto.
Qed.
Lemma operations_shape d d1 : operations d d1 -> forall cuts frags tl, shaped d cuts frags tl ->
  exists cuts' frags' tl', shaped d1 cuts' frags' tl' /\ forall o, closed_bytes cuts frags = Ok o -> exists r, closed_bytes cuts' frags' = Ok (o ++ r).
Proof.
  induction 1 as [d|d d1 d2 O _ IH]; intros cuts frags tl SH.
  - exists cuts, frags, tl. split; [auto|]. intros o E. exists []. now rewrite app_nil_r.
  - destruct (operation_shape _ _ _ _ _ O SH) as (c1 & f1 & t1 & S1 & P1). destruct (IH _ _ _ S1) as (c2 & f2 & t2 & S2 & P2).
    exists c2, f2, t2. split; [auto|]. intros o E. destruct (P1 o E) as [r1 E1]. destruct (P2 _ E1) as [r2 E2]. exists (r1 ++ r2). now rewrite app_assoc.
Qed.

(* what was written once is the beginning of everything written later *)
Theorem written_prefix d cuts frags tl out d1 d2 out2 d3 : shaped d cuts frags tl ->
  writefile d = Ok (out, d1) -> operations d1 d2 -> writefile d2 = Ok (out2, d3) -> starts_with out2 out.
Proof.
  intros SH W O W2. destruct (write_shape _ _ _ _ _ _ SH W) as (c1 & f1 & t1 & S1 & E1 & _ & _).
  destruct (operations_shape _ _ O _ _ _ S1) as (c2 & f2 & t2 & S2 & P2). destruct (P2 _ E1) as [r E2].
  destruct (write_shape _ _ _ _ _ _ S2 W2) as (c3 & f3 & t3 & S3 & E3 & _ & P3). destruct (P3 _ E2) as [r2 R2]. exists (r ++ r2). now rewrite R2, app_assoc.
Qed.

(* ---------- the marker found in a file ---------- *)
Lemma rfind_from_max p s : forall i, (exists a b, s = a ++ p ++ b) -> exists k a b, rfind_from p s i = Some k /\ s = a ++ p ++ b /\ (k = i + length a)%nat /\
  forall a' b', s = a' ++ p ++ b' -> (length a' <= length a)%nat.
Proof.
  induction s as [|c s IH]; intros i (a & b & E).
  - destruct a; [|discriminate]. destruct p; [|discriminate]. exists i, [], []. cbn. split; [auto|split; [auto|split; [lia|]]]. intros a' b' E'. destruct a'; [auto|discriminate].
  - cbn [rfind_from]. destruct (rfind_from p s (S i)) as [k|] eqn:ER.
    + assert (OC : exists a b, s = a ++ p ++ b).
      { clear -ER. revert k ER. generalize (S i). induction s as [|c s IH]; intros n k; cbn [rfind_from].
        - destruct (starts p []) eqn:ES; [|discriminate]. intros _. apply starts_iff in ES as (b & E). exists [], b. auto.
        - destruct (rfind_from p s (S n)) as [k'|] eqn:ER.
          + intros _. destruct (IH _ _ ER) as (a & b & ->). exists (c :: a), b. auto.
          + destruct (starts p (c :: s)) eqn:ES; [|discriminate]. intros _. apply starts_iff in ES as (b & E). exists [], b. auto. }
      destruct (IH (S i) OC) as (k' & a1 & b1 & R & E1 & K & M). rewrite R in ER. injection ER as ->.
      exists k, (c :: a1), b1. split; auto. split; [rewrite E1; reflexivity|]. split; [cbn [length]; lia|].
      intros a' b' E'. destruct a' as [|x a']; cbn [length]; [lia|]. cbn [app] in E'. injection E' as _ E'. apply M in E'. lia.
    + assert (NO : ~ exists a b, s = a ++ p ++ b). { intros OC. destruct (IH (S i) OC) as (k & a' & b' & Q & _). congruence. }
      destruct a as [|x a].
      * cbn [app] in E. replace (starts p (c :: s)) with true by (symmetry; apply starts_iff; exists b; auto).
        exists i, [], b. cbn [app length]. split; [auto|split; [auto|split; [lia|]]].
        intros a' b' E'. destruct a' as [|x a']; [auto|]. cbn [app] in E'. injection E' as _ E'. exfalso. eauto.
      * cbn [app] in E. injection E as _ E. exfalso. eauto.
Qed.
Lemma rfind_last p t i a b : p <> [] -> t = a ++ p ++ b -> (i <= length a)%nat -> (forall a' b', t = a' ++ p ++ b' -> (length a' <= length a)%nat) ->
  rfind p t i = Some (length a).
Proof.
  intros NP E I M. unfold rfind. replace (Nat.ltb (length t) i) with false. 2:{ symmetry. apply Nat.ltb_ge. rewrite E, app_length. lia. }
  assert (SK : skipn i t = skipn i a ++ p ++ b).
  { rewrite E, skipn_app. replace (i - length a)%nat with 0%nat by lia. reflexivity. }
  destruct (rfind_from_max p (skipn i t) i ltac:(eauto)) as (k & a' & b' & R & S1 & K & MX).
  rewrite R. f_equal. assert (L1 : (length (skipn i a) <= length a')%nat) by (apply (MX _ b); exact SK).
  rewrite skipn_length in L1.
  assert (L2 : (length (firstn i t ++ a') <= length a)%nat). { apply (M _ b'). rewrite <- app_assoc, <- S1. symmetry. apply firstn_skipn. }
  rewrite app_length, firstn_length in L2. rewrite E, app_length in L2. lia.
Qed.

Lemma skip_eol_run l : Forall eol l -> forall fuel pre tl, match tl with c :: _ => ~ eol c | [] => True end -> (length l <= fuel)%nat ->
  skip_eol fuel (pre ++ l ++ tl) (length pre) (length (pre ++ l ++ tl)) = (length pre + length l)%nat.
Proof.
  induction 1 as [|c l C F IH]; intros fuel pre tl T L.
  - cbn [app length]. destruct fuel as [|fuel]; cbn [skip_eol]; [lia|]. destruct tl as [|c tl].
    + rewrite app_nil_r. replace (Nat.ltb (length pre) (length pre)) with false by (symmetry; apply Nat.ltb_ge; lia). cbn [andb]. lia.
    + rewrite app_nth2, Nat.sub_diag by lia. cbn [nth]. replace (inb c EOL) with false; [rewrite andb_false_r; lia|]. symmetry. apply inb_eol. unfold eol in T. lia.
  - cbn [length] in L. destruct fuel as [|fuel]; [lia|]. cbn [skip_eol app].
    replace (Nat.ltb _ _) with true. 2:{ symmetry. apply Nat.ltb_lt. rewrite app_length. cbn [length]. lia. }
    rewrite app_nth2, Nat.sub_diag by lia. cbn [nth]. replace (inb c EOL) with true. 2:{ symmetry. destruct C as [->| ->]; reflexivity. }
    cbn [andb]. specialize (IH fuel (pre ++ [c]) tl T ltac:(lia)). rewrite <- app_assoc in IH. cbn [app] in IH. rewrite app_length in IH. cbn [length] in IH. cbn [length].
    replace (S (length pre)) with (length pre + 1)%nat by lia. rewrite IH. lia.
Qed.

(* ---------- the last cell of the last row ---------- *)
Definition ends_at (m : list slot) (ep : Z) : Prop := exists r y, m = r ++ [SDict y] /\ n_pos y = Some (AInt ep).
Lemma last_cell_get {A} (l : list A) x : pyget l (-1) = Ok x <-> exists r, l = r ++ [x].
Proof.
  destruct l as [|a l] using rev_ind.
  - cbn. split; [discriminate|]. intros [r E]. destruct r; discriminate.
  - clear IHl. assert (G : pyget (l ++ [a]) (-1) = Ok a).
    { unfold pyget, pyidx. rewrite app_length. cbn [length]. replace ((0 <=? -1) && _) with false by reflexivity.
      replace (_ && _) with true by lia. replace (Z.to_nat _) with (length l) by lia. rewrite nth_error_app2, Nat.sub_diag by lia. reflexivity. }
    rewrite G. split.
    + intro H. injection H as ->. eauto.
    + intros [r E]. apply app_inj_tail in E. destruct E as [_ ->]. reflexivity.
Qed.
Lemma last_cell_set {A} (l : list A) v l' : pyset l (-1) v = Ok l' -> exists r, l' = r ++ [v].
Proof.
  destruct l as [|a l] using rev_ind; [discriminate|]. clear IHl. unfold pyset, pyidx. rewrite app_length. cbn [length]. replace ((0 <=? -1) && _) with false by reflexivity.
  replace (_ && _) with true by lia. replace (Z.to_nat _) with (length l) by lia. rewrite lset_last. intro H. injection H as <-. eauto.
Qed.
Lemma set_keeps_last {A} (r : list A) x z l' : pyset (r ++ [x]) z x = Ok l' -> exists r', l' = r' ++ [x].
Proof.
  unfold pyset. destruct (pyidx (r ++ [x]) z) as [i|] eqn:E; [|discriminate]. intro H. injection H as <-.
  destruct (Nat.lt_trichotomy i (length r)) as [L|[->|L]].
  - assert (G : forall (l : list A) i t, (i < length l)%nat -> lset (l ++ t) i x = lset l i x ++ t).
    { clear. induction l as [|a l IH]; intros i t L; cbn [length] in L; [lia|]. destruct i; cbn [lset app]; [auto|]. rewrite IH by lia. auto. }
    rewrite G by auto. eauto.
  - rewrite lset_last. eauto.
  - exfalso. unfold pyidx in E. rewrite app_length in E. cbn [length] in E. destruct (_ && _) eqn:E1; [injection E as <-; lia|]. destruct (_ && _) eqn:E2 in E; [injection E as <-; lia|discriminate].
Qed.
Lemma put_last have ver m o m' ep : n_num o = -1 -> n_pos o = Some (AInt ep) -> put_entry have ver m o = Ok m' -> ends_at m' ep.
Proof.
  intros N P H. unfold put_entry in H. rewrite N, P in H. destruct (pyget m (-1)) as [old| |] eqn:EG; cbn [bind] in H; try discriminate.
  apply last_cell_get in EG. destruct EG as [r ->]. destruct old as [|oe|l].
  - apply last_cell_set in H. destruct H as [r' ->]. eexists _, _. split; [reflexivity|]. exact P.
  - destruct have; [|discriminate]. cbn [as_dict bind] in H. destruct (n_pos oe) as [a|] eqn:PE.
    + destruct (apos_eqb a (AInt ep)) eqn:EA.
      * destruct a; cbn in EA; try discriminate. apply Z.eqb_eq in EA. subst. apply set_keeps_last in H. destruct H as [r' ->]. eexists _, _. split; [reflexivity|]. exact PE.
      * destruct (of_opt EKeyError (n_over oe)); cbn [bind] in H; try discriminate. apply last_cell_set in H. destruct H as [r' ->]. eexists _, _. split; [reflexivity|]. exact P.
    + destruct (of_opt EKeyError (n_over oe)); cbn [bind] in H; try discriminate. apply last_cell_set in H. destruct H as [r' ->]. eexists _, _. split; [reflexivity|]. exact P.
  - destruct have; discriminate.
Qed.
Lemma put_entries_app have ver l1 l2 : forall m, put_entries have ver m (l1 ++ l2) = let* m1 := put_entries have ver m l1 in put_entries have ver m1 l2.
Proof. induction l1 as [|o l1 IH]; intro m; cbn [app put_entries bind]; [auto|]. destruct (put_entry have ver m o); cbn [bind]; auto. Qed.
Lemma rows_end xs t os e ep : n_num e = -1 -> n_pos e = Some (AInt ep) -> forall done have m ver prev rows, (have = false -> done = []) ->
  build_rows done have m ver prev (xs ++ [t :: os ++ [e]]) = Ok rows -> rows = [] \/ exists rs row, rows = rs ++ [row] /\ ends_at row ep.
Proof.
  intros N P. induction xs as [|x xs IH]; intros done have m ver prev rows HD H; cbn [app build_rows] in H.
  - destruct (pos_int t) as [tp| |]; cbn [bind] in H; try discriminate. destruct (of_opt EIndexError (nth_error m 0)) as [m0| |]; cbn [bind] in H; try discriminate.
    rewrite put_entries_app in H. match type of H with context[put_entries ?a ?b ?c os] => destruct (put_entries a b c os) as [m1| |]; cbn [bind] in H; try discriminate end.
    cbn [put_entries] in H. match type of H with context[put_entry ?a ?b m1 e] => destruct (put_entry a b m1 e) as [m2| |] eqn:EP; cbn [bind] in H; try discriminate end.
    injection H as <-. apply (put_last _ _ _ _ _ _ N P) in EP.
    destruct (prev <? tp).
    + right. cbn [rev]. eauto.
    + destruct have; [|left; rewrite HD; auto]. right. cbn [rev]. eauto.
  - destruct x as [|t1 os1]; [discriminate|]. destruct (pos_int t1) as [tp| |]; cbn [bind] in H; try discriminate. destruct (of_opt EIndexError (nth_error m 0)) as [m0| |]; cbn [bind] in H; try discriminate.
    match type of H with context[put_entries ?a ?b ?c os1] => destruct (put_entries a b c os1) as [m1| |]; cbn [bind] in H; try discriminate end.
    eapply IH; [|exact H]. destruct (prev <? tp); [discriminate|auto].
Qed.
Lemma hybrid_end acc xs t os : n_stm t = false -> forall seq, hybrid_merge acc (xs ++ [t :: os]) = Ok seq -> exists ys, seq = ys ++ [t :: os].
Proof.
  intro N. revert acc. induction xs as [|x xs IH]; intros acc seq H; cbn [app hybrid_merge] in H.
  - rewrite N in H. injection H as <-. cbn [rev]. eauto.
  - destruct x as [|t1 os1]; [discriminate|]. destruct (n_stm t1).
    + destruct acc as [|[|pt pr] acc]; try discriminate. eapply IH; eauto.
    + eapply IH; eauto.
Qed.
Lemma map_res_snoc {A C} (f : A -> res C) l x r : map_res f (l ++ [x]) = Ok r -> exists l' y, r = l' ++ [y] /\ f x = Ok y /\ map_res f l = Ok l'.
Proof.
  revert r. induction l as [|a l IH]; intros r H; cbn [app map_res] in H.
  - destruct (f x) as [y| |] eqn:E; cbn [bind] in H; try discriminate. injection H as <-. exists [], y. split; auto.
  - destruct (f a) as [b| |] eqn:E; cbn [bind] in H; try discriminate. destruct (map_res f (l ++ [x])) as [t| |] eqn:E2; cbn [bind] in H; try discriminate. injection H as <-.
    destruct (IH _ eq_refl) as (l' & y & -> & E3 & E4). exists (b :: l'), y. split; auto. split; auto. cbn [map_res]. rewrite E, E4. reflexivity.
Qed.
Lemma index_end chrono t os e ep rest nxt nb idx : n_num e = -1 -> n_pos e = Some (AInt ep) -> n_stm t = false ->
  chrono = (t :: os ++ [e]) :: rest -> build_index chrono nxt nb = Ok idx -> idx = [] \/ exists rs row, idx = rs ++ [row] /\ ends_at row ep.
Proof.
  intros N P ST -> H. unfold build_index in H. cbn [rev] in H. destruct (hybrid_merge [] (rev rest ++ [t :: os ++ [e]])) as [seq| |] eqn:EH; cbn [bind] in H; try discriminate.
  apply hybrid_end in EH; auto. destruct EH as [ys ->].
  match type of H with context[build_rows ?a ?b ?c ?d ?e' ?f] => destruct (build_rows a b c d e' f) as [rows| |] eqn:ER; cbn [bind] in H; try discriminate end.
  apply (rows_end _ _ _ _ _ N P) in ER; auto. destruct ER as [->|(rs & row & -> & r & y & -> & PY)].
  - left. cbn in H. congruence.
  - right. set (ff := map_res (complete_slot (rs ++ [r ++ [SDict y]]) nxt)) in *. apply map_res_snoc in H. destruct H as (l' & row' & -> & H & _). exists l', row'. split; auto.
    unfold ff in H. apply map_res_snoc in H. destruct H as (r' & s & -> & H & _). cbn [complete_slot] in H.
    match type of H with context[complete ?a ?b y] => destruct (complete a b y) as [y'| |] eqn:EC; cbn [bind] in H; try discriminate end. injection H as <-.
    exists r', y'. split; auto. unfold complete in EC. destruct (n_next y) as [z|].
    + destruct (z =? 0); [discriminate|]. congruence.
    + destruct (of_opt EKeyError (n_dver y)); cbn [bind] in EC; try discriminate. destruct (pyget (rs ++ _) _); cbn [bind] in EC; try discriminate. rewrite PY in EC.
      destruct (of_opt EKeyError (zlookup ep nxt)); cbn [bind] in EC; try discriminate. injection EC as <-. exact PY.
Qed.

Lemma eof_data_cuts p index : forall data, eof_data p index = Ok data -> Forall is_cut data /\ (length data <= length index)%nat /\ Forall (fun x => dt_fdata x = Some p) data.
Proof.
  induction index as [|row r IH]; intros data H; cbn [eof_data] in H; [injection H as <-; cbn; auto|].
  destruct (pyget row (-1)) as [s| |]; cbn [bind] in H; try discriminate.
  assert (G : match as_dict s with Ok e => bind (pos_int e) (fun q => bind (eof_cut q p) (fun c => bind (eof_data p r) (fun t => Ok (mk_datum (Some c) None (Some p) :: t)))) | Exc x => Exc x | Loop => Loop end = Ok data ->
    Forall is_cut data /\ (length data <= S (length r))%nat /\ Forall (fun x => dt_fdata x = Some p) data).
  { intro G. destruct (as_dict s); try discriminate. destruct (pos_int _); cbn [bind] in G; try discriminate. destruct (eof_cut _ p); cbn [bind] in G; try discriminate.
    destruct (eof_data p r) as [t| |]; cbn [bind] in G; try discriminate. injection G as <-. destruct (IH t eq_refl) as (I1 & I2 & I3). split; [constructor; [discriminate|auto]|]. cbn [length]. split; [lia|]. constructor; auto. }
  destruct s.
  - destruct (IH _ H) as (I1 & I2 & I3). cbn [length]. auto.
  - apply G. exact H.
  - discriminate.
Qed.
Lemma eof_data_app p a b : eof_data p (a ++ b) = let* x := eof_data p a in let* y := eof_data p b in Ok (x ++ y).
Proof.
  induction a as [|row a IH]; cbn [app eof_data].
  - cbn [bind]. destruct (eof_data p b); reflexivity.
  - destruct (pyget row (-1)) as [s| |]; cbn [bind]; auto. rewrite IH. destruct s as [|e|sl]; cbn [as_dict bind]; auto.
    destruct (pos_int e) as [q| |]; cbn [bind]; auto. destruct (eof_cut q p); cbn [bind]; auto. destruct (eof_data p a); cbn [bind]; auto. destruct (eof_data p b); cbn [bind]; auto.
Qed.

Lemma single_read f s l : f <> [] -> - blen f <= s < blen f -> -1 <= l ->
  exists n, read_at (PvSingle f) s l = Ok (f, Z.to_nat (if s <? 0 then s + blen f else s), n) /\ n = blen (file_bytes f (Z.to_nat (if s <? 0 then s + blen f else s)) l).
Proof.
  intros N S1 L. destruct (single_contract f s l N S1 L) as (r & R & _ & RC & i & n & -> & ->). exists n. unfold read_at. rewrite R. cbn [bind].
  replace (_ <? 0) with false by lia. rewrite Nat2Z.id. split; [reflexivity|]. exact RC.
Qed.
Lemma cut_single f body l tail : last_marker f body l tail -> eof_cut (Z.of_nat (length body)) (PvSingle f) = Ok (Z.of_nat (length (body ++ B "%%EOF" ++ l))).
Proof.
  intros (E & F & T & _). unfold eof_cut. rewrite single_length. cbn [bind].
  assert (LF : blen f = Z.of_nat (length body) + 5 + Z.of_nat (length l) + Z.of_nat (length tail)). { rewrite E. unfold blen. rewrite !app_length. change (length (B "%%EOF")) with 5%nat. lia. }
  destruct (single_read f (Z.of_nat (length body)) (blen f - Z.of_nat (length body))) as (n & R & N); [|lia|lia|].
  { intros ->. cbn in LF. lia. }
  replace (Z.of_nat (length body) <? 0) with false in * by lia. rewrite Nat2Z.id in *. rewrite R. cbn [bind]. f_equal. f_equal.
  rewrite file_bytes_length in N by (unfold blen in *; lia). replace (_ =? -1) with false in N by lia.
  replace (Z.to_nat _) with (length f) by (unfold blen in *; lia).
  replace (length body + 5)%nat with (length (body ++ B "%%EOF")) by (rewrite app_length; reflexivity).
  replace f with ((body ++ B "%%EOF") ++ l ++ tail) at 2 3 by (rewrite <- app_assoc; symmetry; exact E).
  rewrite skip_eol_run; auto; [rewrite !app_length; lia|unfold blen in LF; lia].
Qed.
Lemma prefix_single f c : f <> [] -> (c <= length f)%nat -> file_prefix (PvSingle f) (Z.of_nat c) = Ok (firstn c f).
Proof.
  intros N L. unfold file_prefix. pose proof (blen_pos f N). destruct (single_read f 0 (Z.of_nat c) N ltac:(lia) ltac:(lia)) as (n & R & _). cbn [Z.ltb Z.compare] in R. rewrite R. cbn [bind].
  replace (_ <? 0) with false by lia. rewrite Nat2Z.id. unfold sub. cbn. now rewrite Nat.sub_0_r.
Qed.

Lemma initial_shape fuel f d xi tr t body l tail : doc_initial fuel (PvSingle f) = Ok d ->
  last_section f = Ok (xi, tr, t) -> dget K_XRefStm tr = None -> last_marker f body l tail ->
  (length f <= length body + 100)%nat -> (100 <= length f)%nat ->
  exists cuts, shaped d cuts [] [] /\ closed_bytes cuts [] = Ok (body ++ B "%%EOF" ++ l).
Proof.
  intros H LS NS LM L1 L2. pose proof LM as (E & _ & _ & MX). 
  assert (NE : f <> []) by (intros ->; cbn in L2; lia).
  unfold doc_initial, build_xref_sequence, xref_chrono in H. unfold last_section in LS.
  destruct (single_read f (-100) (-1) NE ltac:(unfold blen; lia) ltac:(lia)) as (n & R & _). cbn [Z.ltb Z.compare] in R. rewrite R in *. cbn [bind] in *.
  set (sx := znat (rfind W_startxref f (Z.to_nat (-100 + blen f)))) in *. destruct (next_token f (Z.to_nat (sx + 9))) as [[i j] k].
  destruct (of_opt EValueError (py_int 10 (sub f i j))) as [x| |]; cbn [bind] in *; try discriminate. rewrite LS in H. cbn [bind] in H.
  assert (RF : rfind W_EOF f (Z.to_nat (-100 + blen f)) = Some (length body)).
  { apply (rfind_last W_EOF f _ body (l ++ tail)); [discriminate|exact E|unfold blen; lia|]. intros a' b' E'. apply (MX a' b'). exact E'. }
  rewrite RF in H. cbn [znat] in H. unfold dhas in H. rewrite NS in H. cbn [bind] in H.
  destruct (int_entry K_XRefStm tr); cbn [bind] in H; try discriminate. destruct (int_entry K_Prev tr); cbn [bind] in H; try discriminate.
  destruct (xref_chain _ _ _ _ _) as [rest| |]; cbn [bind] in H; try discriminate. rewrite single_length in H. cbn [bind] in H.
  destruct (finish_seq _ _) as [[nxt nb]| |]; cbn [bind] in H; try discriminate.
  destruct (build_index _ nxt nb) as [idx| |] eqn:EI; cbn [bind] in H; try discriminate.
  destruct (eof_data (PvSingle f) idx) as [data| |] eqn:ED; cbn [bind] in H; try discriminate.
  destruct (build_cache _ _) as [cache| |] eqn:EB; cbn [bind] in H; try discriminate. injection H as <-.
  assert (IE : idx = [] \/ exists rs row, idx = rs ++ [row] /\ ends_at row (Z.of_nat (length body))).
  { destruct xi as [|t0 r0]; cbn [close_section] in EI.
    - unfold build_index in EI. cbn [rev] in EI. exfalso.
      assert (G : forall acc xs, exists e, hybrid_merge acc (xs ++ [[]]) = Exc e).
      { clear. intros acc xs. revert acc. induction xs as [|x xs IH]; intro acc; cbn [app hybrid_merge]; [eauto|]. destruct x as [|t r]; [eauto|]. destruct (n_stm t); [|apply IH].
        destruct acc as [|[|]]; eauto. }
      destruct (G [] (rev rest)) as [e G1]. rewrite G1 in EI. discriminate.
    - eapply index_end; [| | |reflexivity|exact EI]; reflexivity. }
  destruct IE as [->|(rs & row & -> & r & y & -> & PY)]; [discriminate EB|].
  destruct (eof_data_cuts _ _ _ ED) as (C1 & C2 & C3).
  rewrite eof_data_app in ED. destruct (eof_data (PvSingle f) rs) as [d0| |]; cbn [bind] in ED; try discriminate.
  cbn [eof_data] in ED. replace (pyget (r ++ [SDict y]) (-1)) with (@Ok slot (SDict y)) in ED by (symmetry; apply last_cell_get; eauto).
  cbn [bind as_dict] in ED. unfold pos_int in ED. rewrite PY in ED. cbn [bind] in ED. rewrite (cut_single _ _ _ _ LM) in ED. cbn [bind] in ED. injection ED as <-.
  set (c := length (body ++ B "%%EOF" ++ l)) in *.
  exists (d0 ++ [mk_datum (Some (Z.of_nat c)) None (Some (PvSingle f))]). split.
  - constructor; cbn [d_data d_index]; auto.
    + now rewrite !app_nil_r.
    + rewrite map_length. exact C2.
  - unfold closed_bytes. cbn [fragments bind].
    assert (BS : base_of (d0 ++ [mk_datum (Some (Z.of_nat c)) None (Some (PvSingle f))]) = file_prefix (PvSingle f) (Z.of_nat c)).
    { destruct d0 as [|y0 d0]; [reflexivity|]. cbn [app base_of]. change (y0 :: d0 ++ ?x) with ((y0 :: d0) ++ x). rewrite last_last. cbn [dt_cut of_opt bind].
      inversion C3 as [|? ? C4 _]; subst. rewrite C4. reflexivity. }
    rewrite BS, prefix_single; auto.
    + cbn [bind]. rewrite app_nil_r. f_equal. unfold c. rewrite E at 1. rewrite !app_assoc, <- (app_assoc body), firstn_app.
      rewrite firstn_all. replace (_ - _)%nat with 0%nat by lia. now rewrite firstn_O, app_nil_r, !app_assoc.
    + unfold c. rewrite E, !app_length. lia.
Qed.
Theorem original_prefix fuel f d xi tr t body l tail d2 out d3 : loads fuel f = Ok d ->
  last_section f = Ok (xi, tr, t) -> dget K_XRefStm tr = None -> last_marker f body l tail ->
  (length f <= length body + 100)%nat -> (100 <= length f)%nat ->
  operations d d2 -> writefile d2 = Ok (out, d3) -> starts_with out (body ++ B "%%EOF" ++ l).
Proof.
  intros H LS NS LM L1 L2 O W. unfold loads, doc_constructor in H. destruct (doc_initial fuel (PvSingle f)) as [d0| |] eqn:EI; cbn [bind] in H; try discriminate.
  destruct (initial_shape _ _ _ _ _ _ _ _ _ EI LS NS LM L1 L2) as (cuts & SH & CB).
  destruct (operations_shape d0 d2 (Os_cons _ _ _ (Op_commit _ _ H) O) _ _ _ SH) as (c2 & f2 & t2 & S2 & P2). destruct (P2 _ CB) as [r E2].
  destruct (write_shape _ _ _ _ _ _ S2 W) as (c3 & f3 & t3 & S3 & E3 & _ & P3). destruct (P3 _ E2) as [r2 R2]. exists (r ++ r2). rewrite R2, !app_assoc. reflexivity.
Qed.
Lemma loaded_shape fuel p d : doc_constructor fuel p = Ok d -> exists cuts frags tl, shaped d cuts frags tl.
Proof.
  intro H. unfold doc_constructor in H. destruct (doc_initial fuel p) as [d0| |] eqn:EI; cbn [bind] in H; try discriminate.
  assert (SH : exists cuts, shaped d0 cuts [] []).
  { unfold doc_initial in EI. steps EI. match goal with X : eof_data _ _ = Ok _ |- _ => destruct (eof_data_cuts _ _ _ X) as (C1 & C2 & _) end.
    eexists. constructor; cbn [d_data d_index]; [rewrite !app_nil_r; reflexivity|rewrite map_length; exact C2|exact C1|auto|auto]. }
  destruct SH as [cuts SH]. destruct (commit_shape _ _ _ _ _ SH H) as (a & b & c & S1 & _). eauto.
Qed.
Lemma blank_shape size d : blank size = Ok d -> exists cuts frags tl, shaped d cuts frags tl.
Proof.
  unfold blank. intro H. destruct (of_opt EKeyError (paper_size size PAPER_SIZES)) as [[x y]| |]; cbn [bind] in H; try discriminate.
  eapply commit_shape in H as (a & b & c & S1 & _); [eauto|]. apply (Build_shaped _ [] [] [mk_datum None None (Some (PvDummy blank_header))]); cbn; auto. left. eexists. split; reflexivity.
Qed.

(* ---------- rewind ---------- *)
Lemma get_index d o v d1 : get_object d o = Ok (v, d1) -> d_index d1 = d_index d /\ d_data d1 = d_data d.
Proof. unfold get_object. intro H. steps H; auto. Qed.
Lemma read_all_index l : forall d d1, read_all d l = Ok d1 -> d_index d1 = d_index d /\ d_data d1 = d_data d.
Proof.
  induction l as [|r l IH]; intros d d1 H; cbn [read_all] in H; [injection H as <-; auto|]. steps H. apply IH in H. apply get_index in E. destruct H as [-> ->]. exact E.
Qed.
Lemma rewind_index d d1 : rewind d = Ok d1 -> d_index d1 = (if Nat.eqb (length (d_index d)) 1 then d_index d else removelast (d_index d)) /\
  (length (d_index d) = 1%nat -> d1 = d).
Proof.
  unfold rewind. destruct (Nat.eqb (length (d_index d)) 1) eqn:E; intro H.
  - injection H as <-. auto.
  - apply Nat.eqb_neq in E. steps H. apply read_all_index in H. cbn [d_index] in H. destruct H as [H _]. split; [exact H|contradiction].
Qed.
Lemma removelast_firstn_len {A} (l : list A) : removelast l = firstn (length l - 1) l.
Proof. destruct l as [|a l] using rev_ind; [reflexivity|]. rewrite removelast_last, app_length. cbn [length]. replace (_ - 1)%nat with (length l) by lia. now rewrite firstn_app, Nat.sub_diag, firstn_all, firstn_O, app_nil_r. Qed.
Theorem rewinds_index n d d1 : rewinds n d d1 -> (1 <= length (d_index d))%nat ->
  d_index d1 = firstn (Nat.max 1 (length (d_index d) - n)) (d_index d) /\ ((length (d_index d) <= S n)%nat -> rewind d1 = Ok d1).
Proof.
  induction 1 as [d|n d d1 d2 R _ IH]; intro L.
  - replace (Nat.max 1 _) with (length (d_index d)) by lia. rewrite firstn_all. split; auto. intro. unfold rewind. replace (Nat.eqb _ 1) with true; auto. symmetry. apply Nat.eqb_eq. lia.
  - apply rewind_index in R. destruct R as [R R1]. destruct (Nat.eqb (length (d_index d)) 1) eqn:E.
    + apply Nat.eqb_eq in E. rewrite (R1 E) in *. destruct (IH L) as [I1 I2]. split; [|intro; apply I2; lia]. rewrite I1. f_equal. lia.
    + apply Nat.eqb_neq in E. rewrite removelast_firstn_len in R. assert (L1 : length (d_index d1) = (length (d_index d) - 1)%nat) by (rewrite R, firstn_length; lia).
      destruct IH as [I1 I2]; [lia|]. split; [|intro; apply I2; lia]. rewrite I1, L1, R, firstn_firstn. f_equal. lia.
Qed.
Theorem rewind_commit d chg d1 d2 : changes d = Ok chg -> chg <> [] -> commit d = Ok d1 -> rewind d1 = Ok d2 ->
  exists lx row row' last, d_index d = lx ++ [row] /\ d_index d1 = lx ++ [row'; last] /\ d_index d2 = lx ++ [row'] /\ tl last = tl row'.
Proof.
  intros EC NE H R. destruct (commit_inv d _ d1 EC NE H) as (lx & row0 & t0 & x0 & row & x & dx & dl & dl' & row' & cache' & pe & t3 & fd & Ei & C0 & Ex & Erx & Ed & CL & PE & C3 & Ef & ->).
  exists lx, row0, row', (SDict (revision_entry d x0) :: skipn 1 row'). split; [auto|]. cbn [d_index]. split; [reflexivity|].
  apply rewind_index in R. destruct R as [R _]. cbn [d_index] in R. rewrite app_length in R. cbn [length] in R.
  replace (Nat.eqb _ 1) with false in R by (symmetry; apply Nat.eqb_neq; lia). rewrite R. change [row'; ?y] with ([row'] ++ [y]). rewrite app_assoc, removelast_last.
  split; [reflexivity|]. destruct row'; reflexivity.
Qed.
Definition simpleb (d : doc) : bool :=
  match last_row d, fdata_at d (-1), first_xsn d with
  | Ok row, Ok _, Ok x => forallb (fun s => match s with SDict e => match n_env e with None => true | _ => false end | _ => true end) row
      && Nat.eqb (length (d_cache d)) (length row) && Nat.leb 1 (length row) && match x with Some z => negb (z =? -1) | None => true end
  | _, _, _ => false
  end.
Lemma simpleb_ok d : simpleb d = true -> simple d.
Proof.
  unfold simpleb. destruct (last_row d) as [row| |] eqn:Er; try discriminate. destruct (fdata_at d (-1)) as [p| |] eqn:Ef; try discriminate.
  destruct (first_xsn d) as [x| |] eqn:Ex; try discriminate. rewrite !andb_true_iff. intros [[[F L1] L2] X]. rewrite forallb_forall in F.
  apply last_open in Er. apply Nat.eqb_eq in L1. apply Nat.leb_le in L2.
  assert (U : forall r, open_row d r -> r = row). { destruct Er as [l El]. intros r [l' El']. rewrite El in El'. apply app_inj_tail in El'. symmetry. tauto. }
  split; [|split; [|split]].
  - intros r k e Or [_ C]. rewrite (U r Or) in C. apply nth_error_In in C. apply F in C. destruct (n_env e); [discriminate|reflexivity].
  - exists p. apply fdata_provider. exact Ef.
  - intros r Or. rewrite (U r Or). auto.
  - rewrite Ex. intro H. injection H as ->. discriminate X.
Qed.
Lemma blank_ready size d : blank size = Ok d -> ready d /\ simple d.
Proof.
  intro H. unfold blank in H. assert (G : forall l x y, paper_size size l = Some (x, y) -> In (x, y) (map snd l)).
  { induction l as [|[k v] l IH]; intros x y P; cbn [paper_size] in P; [discriminate|]. cbn [map snd]. destruct (beqb size k); [left; congruence|right; auto]. }
  destruct (paper_size size PAPER_SIZES) as [[x y]|] eqn:P; cbn [of_opt bind] in H; [|discriminate]. apply G in P. clear G.
  cbn in P. repeat (destruct P as [P|P]; [injection P as <- <-; vm_compute in H; injection H as <-;
    split; [apply readyb_ok; vm_compute; reflexivity|apply simpleb_ok; vm_compute; reflexivity] |]). contradiction.
Qed.
End WithZlib.
