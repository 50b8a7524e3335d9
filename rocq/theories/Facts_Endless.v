(* Proofs about page trees without end *)
From Coq Require Import String.
From Verif Require Import PyBase Model_Filters Model_Objects Model_Filestruct Model_Docstruct Model_Api.
From Verif Require Import Spec_Objects Spec_Filestruct Spec_Docstruct Spec_Pages Spec_Endless.
From Verif Require Import Facts_Base Facts_Obj Facts_Doc Facts_Edit Facts_Pages.
From Coq Require Import ZifyBool ZifyNat.

Section WithZlib.
Context {ZL : Zlib}.

Lemma kids_at f d num o n nd ks inh dn : points_at dn o n (PDict nd) -> dget K_Type nd = Some (PStr K_Pages) -> dget K_Kids nd = Some (PList ks) ->
  (if obj_truthy num then get_object d num else let* (c, _, dc) := catalog d in let* pr := item K_Pages c in get_object dc pr) = Ok (PDict nd, dn) ->
  page_tree (S f) None d num inh = let* (accu, inh', d2) := kids_loop (page_tree f None) nd None dn inh [] ks in Ok (Some accu, inh', d2).
Proof. intros P T K G. cbn [page_tree]. rewrite G. cbn [bind item]. rewrite T. cbn [of_opt bind]. unfold str_is. rewrite beqb_refl. cbn [dict_of bind]. rewrite K. reflexivity. Qed.

(* a finite tree is listed, or there was not enough fuel *)
Lemma kids_or_loop f nd after : (forall t d inh, coherent d -> holds d t -> page_tree f None d (tref t) inh = Loop \/ exists l inh' d1, page_tree f None d (tref t) inh = Ok (Some l, inh', d1) /\ read_only d d1) ->
  forall before d inh accu, coherent d -> Forall (holds d) before ->
  kids_loop (page_tree f None) nd None d inh accu (map tref before ++ after) = Loop \/
  exists inh' accu' d1, kids_loop (page_tree f None) nd None d inh accu (map tref before ++ after) = kids_loop (page_tree f None) nd None d1 inh' accu' after /\ read_only d d1.
Proof.
  intros V. induction before as [|t before IH]; intros d inh accu C H; cbn [map app].
  - right. exists inh, accu, d. split; [reflexivity|]. now apply read_only_refl.
  - cbn [kids_loop]. destruct (V t d (dupdate inh (inheritable nd)) C (Forall_inv H)) as [E|(l & i2 & d1 & E & R)]; rewrite E; cbn [bind]; [left; reflexivity|].
    destruct (IH d1 (dupdate inh (inheritable nd)) (accu ++ l) (ro_coherent _ _ R)) as [L|(i3 & a3 & d3 & E3 & R3)].
    + apply Forall_inv_tail in H. rewrite Forall_forall in *. intros k I. eapply holds_ro; eauto.
    + left. exact L.
    + right. exists i3, a3, d3. split; [exact E3|]. eapply read_only_trans; eauto.
Qed.
Lemma tree_or_loop f : forall t d inh, coherent d -> holds d t -> page_tree f None d (tref t) inh = Loop \/ exists l inh' d1, page_tree f None d (tref t) inh = Ok (Some l, inh', d1) /\ read_only d d1.
Proof.
  induction f as [|f IH]; intros t d inh C H; [left; reflexivity|]. inversion H as [o n p P T|o n nd kids P T K FH]; subst; cbn [tref].
  - destruct (tree_spec (Leaf o p) (S f) d inh C H ltac:(cbn; lia)) as (l & i & d1 & E & R & _). right. exists l, i, d1. auto.
  - destruct (points_read d o n _ C P) as (dn & G & R).
    rewrite (kids_at f d o o n nd (map tref kids) inh dn (points_ro _ _ _ _ _ R P) T K) by (rewrite (truthy_ref _ _ _ _ P); exact G).
    destruct (kids_or_loop f nd [] IH kids dn inh [] (ro_coherent _ _ R)) as [E|(i & a & d1 & E & R1)].
    + rewrite Forall_forall in *. intros k I. eapply holds_ro; eauto.
    + rewrite app_nil_r in E. rewrite E. left. reflexivity.
    + rewrite app_nil_r in E. rewrite E. cbn [kids_loop bind]. right. exists a, i, d1. split; [reflexivity|]. eapply read_only_trans; eauto.
Qed.

Lemma endless_ro d d1 P : read_only d d1 -> endless d P -> endless d1 P.
Proof.
  intros R E o H. destruct (E o H) as (n & nd & before & k & after & A & T & K & F & Q). exists n, nd, before, k, after. split; [eapply points_ro; eauto|]. split; [exact T|]. split; [exact K|]. split; [|exact Q].
  rewrite Forall_forall in *. intros t I. eapply holds_ro; eauto.
Qed.
Lemma endless_loop P f : forall d o inh, coherent d -> endless d P -> P o -> page_tree f None d o inh = Loop.
Proof.
  induction f as [|f IH]; intros d o inh C E H; [reflexivity|]. destruct (E o H) as (n & nd & before & k & after & A & T & K & F & Q). destruct (points_read d o n _ C A) as (dn & G & R).
  rewrite (kids_at f d o o n nd _ inh dn (points_ro _ _ _ _ _ R A) T K) by (rewrite (truthy_ref _ _ _ _ A); exact G).
  destruct (kids_or_loop f nd (k :: after) (tree_or_loop f) before dn inh [] (ro_coherent _ _ R)) as [L|(i & a & d1 & L & R1)].
  - rewrite Forall_forall in *. intros t I. eapply holds_ro; eauto.
  - rewrite L. reflexivity.
  - rewrite L. cbn [kids_loop]. rewrite (IH d1 k); [reflexivity|exact (ro_coherent _ _ R1)| |exact Q]. eapply endless_ro; [exact R1|]. eapply endless_ro; [exact R|exact E].
Qed.
(* a kid that is not true, such as null, stands for the root *)
Lemma null_loop f : forall d c cat o n nd before k after num inh, coherent d -> catalog_at d c cat -> dget K_Pages cat = Some o -> points_at d o n (PDict nd) ->
  dget K_Type nd = Some (PStr K_Pages) -> dget K_Kids nd = Some (PList (map tref before ++ k :: after)) -> Forall (holds d) before -> obj_truthy k = false -> obj_truthy num = false ->
  page_tree f None d num inh = Loop.
Proof.
  induction f as [|f IH]; intros d c cat o n nd before k after num inh C CA PG A T K F NK NN; [reflexivity|].
  destruct (catalog_read d c cat C CA) as (g & dc & EC & RC). destruct (points_read dc o n _ (ro_coherent _ _ RC) (points_ro _ _ _ _ _ RC A)) as (dn & G & R).
  pose proof (read_only_trans _ _ _ RC R) as RR.
  rewrite (kids_at f d num o n nd _ inh dn (points_ro _ _ _ _ _ RR A) T K) by (rewrite NN, EC; cbn [bind item]; rewrite PG; cbn [of_opt bind]; exact G).
  assert (F1 : forall d1, read_only d d1 -> Forall (holds d1) before) by (intros d1 R1; rewrite Forall_forall in *; intros t I; eapply holds_ro; eauto).
  destruct (kids_or_loop f nd (k :: after) (tree_or_loop f) before dn inh [] (ro_coherent _ _ R) (F1 dn RR)) as [L|(i & a & d1 & L & R1)]; rewrite L; [reflexivity|]. cbn [kids_loop].
  pose proof (read_only_trans _ _ _ RR R1) as R2. destruct CA as (t & r & V0 & DR & PA).
  rewrite (IH d1 c cat o n nd before k after k); [reflexivity|exact (ro_coherent _ _ R1)| |exact PG|eapply points_ro; eauto|exact T|exact K|exact (F1 d1 R2)|exact NK|exact NK].
  exists t, r. split; [|split; [exact DR|eapply points_ro; eauto]]. rewrite <- V0. apply (ro_values _ _ R2). lia.
Qed.
Theorem null_pages d c cat o n nd before k after f base : coherent d -> catalog_at d c cat -> dget K_Pages cat = Some o -> points_at d o n (PDict nd) ->
  dget K_Type nd = Some (PStr K_Pages) -> dget K_Kids nd = Some (PList (map tref before ++ k :: after)) -> Forall (holds d) before -> obj_truthy k = false ->
  flat_page_tree f d base None = Loop.
Proof. intros C CA PG A T K F NK. unfold flat_page_tree. eapply null_loop; eauto. Qed.
Theorem endless_pages d c cat P o f base : coherent d -> catalog_at d c cat -> dget K_Pages cat = Some o -> endless d P -> P o ->
  flat_page_tree f d base None = Loop /\ pages f d base None = Loop.
Proof.
  intros C CA PG E H. assert (L : flat_page_tree f d base None = Loop).
  { destruct f as [|f]; [reflexivity|]. destruct (E o H) as (n & nd & before & k & after & A & T & K & F & Q). unfold flat_page_tree.
    destruct (catalog_read d c cat C CA) as (g & dc & EC & RC). destruct (points_read dc o n _ (ro_coherent _ _ RC) (points_ro _ _ _ _ _ RC A)) as (dn & G & R).
    pose proof (read_only_trans _ _ _ RC R) as RR.
    rewrite (kids_at f d PNone o n nd _ base dn (points_ro _ _ _ _ _ RR A) T K) by (cbn [obj_truthy]; rewrite EC; cbn [bind item]; rewrite PG; cbn [of_opt bind]; exact G).
    destruct (kids_or_loop f nd (k :: after) (tree_or_loop f) before dn base [] (ro_coherent _ _ R)) as [L|(i & a & d1 & L & R1)].
    - rewrite Forall_forall in *. intros t I. eapply holds_ro; eauto.
    - rewrite L. reflexivity.
    - rewrite L. cbn [kids_loop]. rewrite (endless_loop P f d1 k); [reflexivity|exact (ro_coherent _ _ R1)| |exact Q]. eapply endless_ro; [exact R1|]. eapply endless_ro; [exact RR|exact E]. }
  split; [exact L|]. unfold pages. rewrite L. reflexivity.
Qed.
End WithZlib.
