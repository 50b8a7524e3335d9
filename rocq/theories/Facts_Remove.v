(* Removing pages *)
From Coq Require Import String Permutation.
From Verif Require Import PyBase Model_Filters Model_Objects Model_Filestruct Model_Text Model_Docstruct Model_Api.
From Verif Require Import Spec_Objects Spec_Filestruct Spec_Docstruct Spec_Pages.
From Verif Require Import Facts_Base Facts_Obj Facts_Revision Facts_Doc Facts_Commit Facts_Write Facts_Edit Facts_Pages.
From Coq Require Import ZifyBool ZifyNat.

Section WithZlib.
Context {ZL : Zlib}.

(* ---------- lists ---------- *)
Lemma nodup_app_l {A} (l m : list A) : NoDup (l ++ m) -> NoDup l.
Proof. induction l as [|x l IH]; intro H; [constructor|]. cbn in H. inversion H; subst. constructor; [rewrite in_app_iff in *; tauto|auto]. Qed.
Lemma nodup_app_r {A} (l m : list A) : NoDup (l ++ m) -> NoDup m.
Proof. induction l as [|x l IH]; intro H; [exact H|]. cbn in H. inversion H; subst. auto. Qed.
Lemma nodup_app_disj {A} (l m : list A) x : NoDup (l ++ m) -> In x l -> In x m -> False.
Proof. induction l as [|y l IH]; intros H I J; [destruct I|]. cbn in H. inversion H; subst. destruct I as [<-|I]; [|auto]. apply H2. apply in_app_iff. auto. Qed.
Lemma nodup_flat {A C} (f : A -> list C) l : NoDup (flat_map f l) -> (forall x, In x l -> NoDup (f x)) /\
  forall a b x, In a l -> In b l -> In x (f a) -> In x (f b) -> a = b.
Proof.
  induction l as [|y l IH]; cbn [flat_map]; intro H; [split; [intros x []|intros a b x []]|]. destruct (IH (nodup_app_r _ _ H)) as [I1 I2]. split.
  - intros x [<-|I]; [exact (nodup_app_l _ _ H)|auto].
  - intros a b x [<-|Ia] [<-|Ib] Xa Xb; auto.
    + exfalso. eapply nodup_app_disj; [exact H|exact Xa|]. apply in_flat_map. eauto.
    + exfalso. eapply nodup_app_disj; [exact H|exact Xb|]. apply in_flat_map. eauto.
    + eapply I2; eauto.
Qed.

(* ---------- the parent chain ---------- *)
(* the dictionaries met from cur by following /Parent, with their numbers *)
Inductive chain (d : doc) : dict -> list (Z * dict * Z) -> Prop :=
| Ch_end cur : dget K_Parent cur = None -> chain d cur []
| Ch_up cur g n nd c l : dget K_Parent cur = Some (PRef g n) -> 0 < n -> value d n = Ok (PDict nd) -> dget K_Count nd = Some (PInt c) ->
    chain d nd l -> chain d cur ((n, nd, c) :: l).
Definition chain_nums (l : list (Z * dict * Z)) : list Z := map (fun x => fst (fst x)) l.
Definition lowered (x : Z * dict * Z) : obj := PDict (dset K_Count (PInt (snd x - 1)) (snd (fst x))).
Lemma chain_other d d1 cur cur' l : chain d cur l -> dget K_Parent cur' = dget K_Parent cur -> (forall n, In n (chain_nums l) -> value d1 n = value d n) -> chain d1 cur' l.
Proof.
  intro H. revert cur'. induction H as [cur E|cur g n nd c l E N V C H IH]; intros cur' E' O; [constructor; congruence|].
  apply (Ch_up d1 cur' g n nd c l); auto; [congruence| |].
  - rewrite O; [auto|]. now left.
  - apply IH; auto. intros m I. apply O. now right.
Qed.
Lemma count_up_spec l : forall f d cur, editable d -> chain d cur l -> NoDup (chain_nums l) -> (length l < f)%nat ->
  exists d', count_up f d cur = Ok d' /\ editable d' /\ d_data d' = d_data d /\
    (forall x, In x l -> value d' (fst (fst x)) = Ok (lowered x)) /\
    (forall n, 0 <= n -> ~ In n (chain_nums l) -> value d' n = value d n).
Proof.
  induction l as [|[[n nd] c] l IH]; intros f d cur ED CH ND F; (destruct f as [|f]; [cbn in F; lia|]); cbn [count_up].
  - inversion CH as [? E|]; subst. rewrite E. exists d. split; [auto|]. split; [auto|]. split; [auto|]. split; [intros x []|auto].
  - inversion CH as [|? g ? ? ? ? E N V C CH']; subst. rewrite E. destruct (read_ok d g n _ (editable_coherent d ED) ltac:(lia) V) as (d1 & G & R). rewrite G. cbn [bind item]. rewrite C. cbn [of_opt bind minus_one dict_of ref_of snd].
    destruct (update_ok d1 n (PDict (dset K_Count (PInt (c - 1)) nd)) (PDict nd)) as (d2 & U & US); [eapply editable_ro; eauto|auto|rewrite (ro_values _ _ R); [auto|lia]|]. rewrite U. cbn [bind].
    cbn [chain_nums map fst] in ND. inversion ND as [|? ? NI ND']; subst.
    assert (POS : forall m, In m (chain_nums l) -> 0 < m). { clear -CH'. induction CH' as [|cur g n nd c l E N V C H IH]; intros m; [intros []|]. intros [<-|I]; [exact N|auto]. }
    assert (V2 : forall m, 0 <= m -> m <> n -> value d2 m = value d m). { intros m M NE. rewrite (up_other _ _ _ _ US) by auto. now apply (ro_values _ _ R). }
    destruct (IH f d2 (dset K_Count (PInt (c - 1)) nd) (up_editable _ _ _ _ US)) as (d' & E' & ED' & D' & L' & O').
    + eapply chain_other; eauto; [apply dget_dset_neq; discriminate|]. intros m I. apply V2; [specialize (POS m I); lia|]. intros ->. contradiction.
    + auto.
    + cbn [length] in F. lia.
    + exists d'. split; [auto|]. split; [auto|]. split; [rewrite D', (up_data _ _ _ _ US); apply (ro_data _ _ R)|]. split.
      * intros x [<-|I]; [|auto]. cbn [fst]. rewrite O'; [apply (up_value _ _ _ _ US)|lia|auto].
      * intros m M NI'. cbn [chain_nums map fst In] in NI'. rewrite O'; [apply V2; auto|auto|]; intro; apply NI'; auto.
Qed.
Lemma remove_first_ok r l : In (PRef (fst r) (snd r)) l -> NoDup l -> remove_first r l = Ok (filter (fun x => negb (match x with PRef g n => ref_eqb r (g, n) | _ => false end)) l).
Proof.
  destruct r as [rg rn]. cbn [fst snd]. induction l as [|x l IH]; [intros []|]. intros I ND. inversion ND as [|? ? NI ND']; subst.
  assert (SKIP : In (PRef rg rn) l -> (forall g n, x = PRef g n -> ref_eqb (rg, rn) (g, n) = false) -> remove_first (rg, rn) l = Ok (filter (fun x => negb (match x with PRef g n => ref_eqb (rg, rn) (g, n) | _ => false end)) l)) by auto.
  assert (SAME : ~ In (PRef rg rn) l -> filter (fun x => negb (match x with PRef g n => ref_eqb (rg, rn) (g, n) | _ => false end)) l = l).
  { clear. induction l as [|y l IH]; intro H; cbn [filter]; [auto|]. assert (E : match y with PRef g n => ref_eqb (rg, rn) (g, n) | _ => false end = false).
    { destruct y; auto. destruct (ref_eqb (rg, rn) (gen, num)) eqn:E; auto. apply ref_eqb_eq in E. injection E as -> ->. exfalso. apply H. now left. }
    rewrite E. cbn [negb]. f_equal. apply IH. intro J. apply H. now right. }
  destruct x as [| | | | | |xg xn| | |]; cbn [remove_first filter negb]; try (destruct I as [I|I]; [discriminate|]; rewrite IH by auto; reflexivity).
  destruct (ref_eqb (rg, rn) (xg, xn)) eqn:E; cbn [negb].
  - apply ref_eqb_eq in E. injection E as -> ->. now rewrite SAME.
  - destruct I as [I|I]; [injection I as -> ->; rewrite (proj2 (ref_eqb_eq _ _) eq_refl) in E; discriminate|]. rewrite IH by auto. reflexivity.
Qed.

(* ---------- inner nodes ---------- *)
Definition node := (obj * dict * list ptree)%type.
Definition nnum (x : node) : Z := match fst (fst x) with PRef _ n => n | _ => 0 end.
Definition ndict (x : node) : dict := snd (fst x).
Definition nkids (x : node) : list ptree := snd x.
Definition under (x : node) : list leaf := flat_map leaves (nkids x).
Fixpoint nodes (t : ptree) : list node :=
  match t with Leaf _ _ => [] | Node o nd kids => (o, nd, kids) :: flat_map nodes kids end.
Lemma node_nums_map t : node_nums t = map nnum (nodes t).
Proof.
  revert t. apply (ptree_rect2 (fun t => node_nums t = map nnum (nodes t))); [reflexivity|]. intros o nd kids IH. cbn [node_nums nodes map]. f_equal.
  induction IH as [|k kids H F IHk]; cbn [flat_map]; [reflexivity|]. now rewrite map_app, H, IHk.
Qed.
Lemma node_ind (P : node -> Prop) t : (forall o nd kids, t = Node o nd kids -> P (o, nd, kids)) -> (forall x k, In k (match t with Node _ _ kids => kids | _ => [] end) -> In x (nodes k) -> P x) -> forall x, In x (nodes t) -> P x.
Proof. destruct t as [o p|o nd kids]; cbn [nodes]; intros H1 H2 x; [intros []|]. intros [<-|I]; [auto|]. apply in_flat_map in I. destruct I as (k & Ik & Ix). eauto. Qed.
Lemma node_props d t : holds d t -> sound t -> forall x, In x (nodes t) ->
  (exists g n, fst (fst x) = PRef g n /\ 0 < n /\ value d n = Ok (PDict (ndict x))) /\ dget K_Type (ndict x) = Some (PStr K_Pages) /\
  dget K_Kids (ndict x) = Some (PList (map tref (nkids x))) /\ dget K_Count (ndict x) = Some (PInt (Z.of_nat (length (under x)))) /\
  Forall (child_of (nnum x)) (nkids x) /\ Forall (holds d) (nkids x).
Proof.
  revert t. apply (ptree_rect2 (fun t => holds d t -> sound t -> forall x, In x (nodes t) ->
  (exists g n, fst (fst x) = PRef g n /\ 0 < n /\ value d n = Ok (PDict (ndict x))) /\ dget K_Type (ndict x) = Some (PStr K_Pages) /\
  dget K_Kids (ndict x) = Some (PList (map tref (nkids x))) /\ dget K_Count (ndict x) = Some (PInt (Z.of_nat (length (under x)))) /\
  Forall (child_of (nnum x)) (nkids x) /\ Forall (holds d) (nkids x))).
  - intros o p _ _ x [].
  - intros o nd kids IH H S x. inversion H as [|? n ? ? (g & -> & N & V) T K FH]; subst. inversion S as [|? ? ? CT CH SK]; subst. cbn [nodes]. intros [<-|I].
    + cbn [fst snd ndict nkids nnum]. split; [eauto|]. split; [auto|]. split; [auto|]. split; [|auto]. rewrite CT. unfold under. cbn [nkids snd]. rewrite leaves_node, map_length. reflexivity.
    + apply in_flat_map in I. destruct I as (k & Ik & Ix). rewrite Forall_forall in IH, FH, SK. apply (IH k Ik); auto.
Qed.
(* the nodes above a leaf, the nearest first *)
Inductive above : ptree -> leaf -> list node -> Prop :=
| Ab_here o nd kids r p : In (Leaf r p) kids -> above (Node o nd kids) (r, p, []) [(o, nd, kids)]
| Ab_up o nd kids k x l : In k kids -> above k x l -> above (Node o nd kids) x (l ++ [(o, nd, kids)]).
Lemma above_exists t : forall x, In x (leaves t) -> (exists o nd kids, t = Node o nd kids) -> exists l, above t (fst x, []) l.
Proof.
  revert t. apply (ptree_rect2 (fun t => forall x, In x (leaves t) -> (exists o nd kids, t = Node o nd kids) -> exists l, above t (fst x, []) l)).
  - intros o p x _ (a & b & c & E). discriminate.
  - intros o nd kids IH x I _. rewrite leaves_node in I. apply in_map_iff in I. destruct I as (y & <- & I). apply in_flat_map in I. destruct I as (k & Ik & Iy). cbn [fst].
    destruct k as [ok pk|ok ndk kk].
    + cbn [leaves] in Iy. destruct Iy as [<-|[]]. cbn [fst]. eexists. apply Ab_here. exact Ik.
    + rewrite Forall_forall in IH. destruct (IH _ Ik y Iy) as [l A]; [eauto|]. eexists. eapply Ab_up; eauto.
Qed.
(* the same leaf, whatever its ancestors *)
Definition same_leaf (x y : leaf) : Prop := fst x = fst y.
Lemma under_node o nd kids x : In x (under (o, nd, kids)) -> exists y, In y (leaves (Node o nd kids)) /\ fst y = fst x.
Proof. unfold under. cbn [nkids snd]. intro I. rewrite leaves_node. eexists. split; [apply in_map; exact I|reflexivity]. Qed.
Lemma node_leaf o nd kids x : In x (leaves (Node o nd kids)) -> exists y, In y (under (o, nd, kids)) /\ fst y = fst x.
Proof. rewrite leaves_node. intro I. apply in_map_iff in I. destruct I as (y & <- & I). exists y. auto. Qed.
Lemma above_in t x l : above t x l -> (forall y, In y l -> In y (nodes t) /\ exists z, In z (under y) /\ fst z = fst x) /\ (exists l' o nd kids, l = l' ++ [(o, nd, kids)] /\ t = Node o nd kids).
Proof.
  induction 1 as [o nd kids r p I|o nd kids k x l I A [IH1 IH2]].
  - split; [|exists [], o, nd, kids; auto]. intros y [<-|[]]. split; [now left|]. exists (r, p, []). split; [|auto]. unfold under. cbn [nkids snd]. apply in_flat_map. exists (Leaf r p). split; [auto|]. now left.
  - split; [|exists l, o, nd, kids; auto]. intros y Iy. apply in_app_iff in Iy. destruct Iy as [Iy|[<-|[]]].
    + destruct (IH1 y Iy) as [J K]. split; [|auto]. cbn [nodes]. right. apply in_flat_map. eauto.
    + split; [now left|]. destruct IH2 as (l' & ok & ndk & kk & -> & ->). destruct (IH1 (ok, ndk, kk)) as [_ (z & Iz & E)]; [apply in_app_iff; right; now left|].
      destruct (under_node _ _ _ _ Iz) as (w & Iw & Ew). exists w. split; [|congruence]. unfold under. cbn [nkids snd]. apply in_flat_map. eauto.
Qed.
Lemma leaves_nums o nd kids : map leaf_num (leaves (Node o nd kids)) = flat_map (fun k => map leaf_num (leaves k)) kids.
Proof. rewrite leaves_node, map_map. change (map leaf_num (flat_map leaves kids) = flat_map (fun k => map leaf_num (leaves k)) kids). induction kids as [|k kids IH]; cbn [flat_map map]; [reflexivity|]. now rewrite map_app, IH. Qed.
Lemma node_under_num t y x : In y (nodes t) -> In x (under y) -> In (leaf_num x) (map leaf_num (leaves t)).
Proof.
  revert t. apply (ptree_rect2 (fun t => In y (nodes t) -> In x (under y) -> In (leaf_num x) (map leaf_num (leaves t)))).
  - intros o p [].
  - intros o nd kids IH. cbn [nodes]. intros [<-|I] X; rewrite leaves_nums; apply in_flat_map.
    + unfold under in X. cbn [nkids snd] in X. apply in_flat_map in X. destruct X as (k & Ik & Ix). exists k. split; [auto|]. now apply in_map.
    + apply in_flat_map in I. destruct I as (k & Ik & Iy). rewrite Forall_forall in IH. exists k. split; [auto|]. apply IH; auto.
Qed.
Lemma above_all t x l : above t x l -> NoDup (map leaf_num (leaves t)) -> forall y z, In y (nodes t) -> In z (under y) -> leaf_num z = leaf_num x -> In y l.
Proof.
  induction 1 as [o nd kids r p I|o nd kids k x l I A IH]; intros ND y z Iy Iz E; rewrite leaves_nums in ND; destruct (nodup_flat _ _ ND) as [ND1 ND2]; cbn [nodes] in Iy; (destruct Iy as [<-|Iy]; [apply in_app_iff || idtac; auto using in_or_app, in_eq|]).
  - apply in_flat_map in Iy. destruct Iy as (k & Ik & Iy). pose proof (node_under_num k y z Iy Iz) as Z. rewrite E in Z.
    assert (k = Leaf r p). { eapply ND2; eauto. cbn. now left. } subst k. destruct Iy.
  - apply in_flat_map in Iy. destruct Iy as (k' & Ik & Iy). pose proof (node_under_num k' y z Iy Iz) as Z. rewrite E in Z.
    destruct (above_in _ _ _ A) as [AI (l' & ok & ndk & kk & -> & ->)]. destruct (AI (ok, ndk, kk)) as [_ (w & Iw & Ew)]; [apply in_app_iff; right; now left|].
    assert (leaf_num w = leaf_num x) by (unfold leaf_num, leaf_ref; now rewrite Ew).
    pose proof (node_under_num (Node ok ndk kk) (ok, ndk, kk) w (or_introl eq_refl) Iw) as W. rewrite H in W.
    assert (k' = Node ok ndk kk) by (eapply ND2; eauto). subst k'. apply in_app_iff. left. apply (IH (ND1 _ I) y z); auto.
Qed.
Lemma above_nodup t x l : above t x l -> NoDup (node_nums t) -> NoDup (map nnum l).
Proof.
  induction 1 as [o nd kids r p I|o nd kids k x l I A IH]; intro ND; [constructor; [intros []|constructor]|]. cbn [node_nums] in ND. inversion ND as [|? ? NI ND']; subst.
  destruct (nodup_flat _ _ ND') as [ND1 _]. rewrite map_app. cbn [map]. specialize (IH (ND1 k I)).
  apply NoDup_rev in IH. rewrite <- (rev_involutive (map nnum l ++ _)). apply NoDup_rev. rewrite rev_app_distr. cbn [rev app]. constructor; [|exact IH].
  rewrite <- in_rev. intro J. apply NI. apply in_flat_map. exists k. split; [auto|]. rewrite node_nums_map. apply in_map_iff in J. destruct J as (y & E & Iy).
  destruct (above_in _ _ _ A) as [AI _]. destruct (AI y Iy) as [In0 _]. change (tnum (Node o nd kids)) with (nnum (o, nd, kids)). rewrite <- E. now apply in_map.
Qed.

(* ---------- dictionaries ---------- *)
Lemma dset_same k v d : dget k d = Some v -> dset k v d = d.
Proof.
  induction d as [|[k' w] d IH]; cbn [dget dset]; [discriminate|]. destruct (beqb k k') eqn:E; intro H; [|f_equal; auto].
  injection H as ->. apply beqb_eq in E. now subst.
Qed.
Lemma dset_comm k k' v w d : k <> k' -> dget k d <> None -> dset k v (dset k' w d) = dset k' w (dset k v d).
Proof.
  intros NE. induction d as [|[q x] d IH]; cbn [dget]; [congruence|]. intro H. cbn [dset].
  destruct (beqb k' q) eqn:E1, (beqb k q) eqn:E2; cbn [dset]; rewrite ?E1, ?E2; auto.
  - apply beqb_eq in E1, E2. congruence.
  - rewrite IH; auto.
Qed.

(* ---------- the tree while pages are taken out of it ---------- *)
Definition memz (n : Z) (l : list Z) : bool := existsb (Z.eqb n) l.
Lemma memz_in n l : memz n l = true <-> In n l.
Proof. unfold memz. rewrite existsb_exists. split; [intros (x & I & E); apply Z.eqb_eq in E; now subst|intro I; exists n; split; [auto|apply Z.eqb_refl]]. Qed.
Lemma memz_out n l : memz n l = false <-> ~ In n l.
Proof. rewrite <- memz_in. destruct (memz n l); split; congruence. Qed.
Definition gone (R : list Z) (t : ptree) : bool := match t with Leaf _ _ => memz (tnum t) R | _ => false end.
Definition staying (R : list Z) (kids : list ptree) : list ptree := filter (fun k => negb (gone R k)) kids.
Definition still (R : list Z) (l : list leaf) : list leaf := filter (fun x => negb (memz (leaf_num x) R)) l.
Definition cnt (R : list Z) (x : node) : Z := Z.of_nat (length (still R (under x))).
Definition dict_after (R : list Z) (x : node) : dict :=
  dset K_Count (PInt (cnt R x)) (dset K_Kids (PList (map tref (staying R (nkids x)))) (ndict x)).
Record taken (d0 : doc) (t : ptree) (R : list Z) (d : doc) : Prop := {
  tk_editable : editable d;
  tk_data : d_data d = d_data d0;
  tk_nodes : forall x, In x (nodes t) -> value d (nnum x) = Ok (PDict (dict_after R x));
  tk_other : forall n, 0 <= n -> ~ In n (node_nums t) -> value d n = value d0 n
}.
Lemma staying_nil kids : staying [] kids = kids.
Proof. unfold staying. induction kids as [|k kids IH]; cbn [filter]; [auto|]. rewrite IH. destruct k; reflexivity. Qed.
Lemma still_nil l : still [] l = l.
Proof. unfold still. induction l as [|k l IH]; [auto|]. cbn [filter]. rewrite IH. reflexivity. Qed.
Lemma still_cons n R l : NoDup (map leaf_num l) -> ~ In n R ->
  length (still R l) = (length (still (n :: R) l) + (if memz n (map leaf_num l) then 1 else 0))%nat.
Proof.
  intros ND NR. induction l as [|x l IH]; [reflexivity|]. cbn [map] in ND. inversion ND as [|? ? NI ND']; subst. specialize (IH ND'). unfold still, memz in *. cbn [existsb] in IH. cbn [filter map existsb].
  destruct (leaf_num x =? n) eqn:E.
  - apply Z.eqb_eq in E. rewrite E in *. rewrite Z.eqb_refl. cbn [orb negb]. apply memz_out in NR. unfold memz in NR. rewrite NR. cbn [negb length].
    apply memz_out in NI. unfold memz in NI. rewrite NI in IH. lia.
  - replace (n =? leaf_num x) with false by lia. cbn [orb]. destruct (existsb (Z.eqb (leaf_num x)) R); cbn [negb length]; lia.
Qed.
Section Take.
Context (d0 : doc) (t : ptree) (WF : well_formed d0 t).
Lemma wf_parts : holds d0 t /\ sound t /\ dget K_Parent (tdict t) = None /\ NoDup (map leaf_num (leaves t)) /\ NoDup (node_nums t) /\ exists o nd kids, t = Node o nd kids.
Proof. destruct WF as ((c & cat & _ & _ & _ & _ & H & E) & S & P & N1 & N2). auto 10. Qed.
Lemma take_nothing : editable d0 -> taken d0 t [] d0.
Proof.
  intro ED. destruct wf_parts as (H & S & _). constructor; auto. intros x I. destruct (node_props d0 t H S x I) as ((g & n & E & N & V) & _ & K & C & _).
  unfold nnum. rewrite E, V. do 2 f_equal. unfold dict_after. rewrite staying_nil, (dset_same K_Kids) by auto. rewrite dset_same; [auto|]. rewrite C. unfold cnt. now rewrite still_nil.
Qed.
Lemma leaf_not_node x : In x (leaves t) -> ~ In (leaf_num x) (node_nums t).
Proof.
  intros I J. destruct wf_parts as (H & S & _). rewrite node_nums_map in J. apply in_map_iff in J. destruct J as (y & E & Iy). destruct (node_props d0 t H S y Iy) as ((g & n & Er & N & V) & T & _).
  destruct (leaf_types d0 t (leaf_num x) (PDict (ndict y)) H) as (p & Ep & Tp); [now apply in_map|rewrite <- E; unfold nnum; now rewrite Er|]. injection Ep as <-. rewrite T in Tp. discriminate.
Qed.
Lemma leaf_value x : In x (leaves t) -> exists g n, leaf_ref x = PRef g n /\ leaf_num x = n /\ 0 < n /\ value d0 n = Ok (PDict (leaf_page x)).
Proof.
  intro I. destruct wf_parts as (H & _). pose proof (leaf_holds d0 t H) as LH. rewrite Forall_forall in LH. destruct (LH x I) as (n & (g & E & N & V) & _). exists g, n. unfold leaf_num. rewrite E. auto.
Qed.
Lemma under_nodup_gen t' : NoDup (map leaf_num (leaves t')) -> forall x, In x (nodes t') -> NoDup (map leaf_num (under x)).
Proof.
  revert t'. apply (ptree_rect2 (fun t' => NoDup (map leaf_num (leaves t')) -> forall x, In x (nodes t') -> NoDup (map leaf_num (under x)))).
  - intros o p _ x [].
  - intros o nd kids IH ND x. cbn [nodes]. rewrite leaves_nums in ND. intros [<-|I].
    + unfold under. cbn [nkids snd]. clear IH. revert ND. assert (E : map leaf_num (flat_map leaves kids) = flat_map (fun k => map leaf_num (leaves k)) kids) by (clear; induction kids as [|k kids IH]; cbn [flat_map map]; [auto|]; now rewrite map_app, IH). now rewrite E.
    + apply in_flat_map in I. destruct I as (k & Ik & Ix). destruct (nodup_flat _ _ ND) as [N1 _]. rewrite Forall_forall in IH. exact (IH k Ik (N1 k Ik) x Ix).
Qed.
Lemma under_nodup x : In x (nodes t) -> NoDup (map leaf_num (under x)).
Proof. apply under_nodup_gen. destruct wf_parts as (_ & _ & _ & N & _). exact N. Qed.
Lemma kid_leaf_in x r p : In (Leaf r p) (nkids x) -> In (r, p, []) (under x).
Proof. intro I. unfold under. apply in_flat_map. exists (Leaf r p). split; [auto|]. now left. Qed.
Lemma parent_unique_gen t' : NoDup (map leaf_num (leaves t')) -> forall y z r p r' p', In y (nodes t') -> In z (nodes t') ->
  In (Leaf r p) (nkids y) -> In (Leaf r' p') (nkids z) -> tnum (Leaf r p) = tnum (Leaf r' p') -> y = z.
Proof.
  revert t'. apply (ptree_rect2 (fun t' => NoDup (map leaf_num (leaves t')) -> forall y z r p r' p', In y (nodes t') -> In z (nodes t') ->
    In (Leaf r p) (nkids y) -> In (Leaf r' p') (nkids z) -> tnum (Leaf r p) = tnum (Leaf r' p') -> y = z)).
  - intros o p _ y z r q r' p' [].
  - intros o nd kids IH ND y z r p r' p' Iy Iz Hy Hz E. rewrite leaves_nums in ND. destruct (nodup_flat _ _ ND) as [N1 N2]. cbn [nodes] in Iy, Iz.
    assert (DEEP : forall y r p, In y (flat_map nodes kids) -> In (Leaf r p) (nkids y) -> exists k, In k kids /\ In y (nodes k) /\ In (tnum (Leaf r p)) (map leaf_num (leaves k))).
    { clear. intros y r p I H. apply in_flat_map in I. destruct I as (k & Ik & Iy). exists k. split; [auto|]. split; [auto|]. exact (node_under_num k y (r, p, []) Iy (kid_leaf_in _ _ _ H)). }
    destruct Iy as [<-|Iy], Iz as [<-|Iz]; auto.
    + destruct (DEEP z r' p' Iz Hz) as (k & Ik & Izk & L). rewrite <- E in L. cbn [nkids snd] in Hy. assert (Leaf r p = k) by (eapply N2; eauto; cbn; now left). subst k. destruct Izk.
    + destruct (DEEP y r p Iy Hy) as (k & Ik & Iyk & L). rewrite E in L. cbn [nkids snd] in Hz. assert (Leaf r' p' = k) by (eapply N2; eauto; cbn; now left). subst k. destruct Iyk.
    + destruct (DEEP z r' p' Iz Hz) as (k & Ik & Izk & L). destruct (DEEP y r p Iy Hy) as (k' & Ik' & Iyk & L'). rewrite E in L'. assert (k = k') by (eapply N2; eauto). subst k'. rewrite Forall_forall in IH. eapply (IH k Ik); eauto.
Qed.
Lemma nnum_inj x y : In x (nodes t) -> In y (nodes t) -> nnum x = nnum y -> x = y.
Proof.
  intros I J E. destruct wf_parts as (_ & _ & _ & _ & N & _). rewrite node_nums_map in N. destruct (In_nth_error _ _ I) as [i Ei]. destruct (In_nth_error _ _ J) as [j Ej].
  pose proof (nodup_nth nnum (nodes t) i j x y N Ei Ej E). subst j. congruence.
Qed.
(* the links of /Parent *)
Inductive seg : dict -> list node -> dict -> Prop :=
| Se_nil cur : seg cur [] cur
| Se_cons cur g z l e : dget K_Parent cur = Some (PRef g (nnum z)) -> seg (ndict z) l e -> seg cur (z :: l) e.
Lemma seg_app cur l e g z : seg cur l e -> dget K_Parent e = Some (PRef g (nnum z)) -> seg cur (l ++ [z]) (ndict z).
Proof. induction 1; intro E; cbn [app]; econstructor; eauto. constructor. Qed.
Lemma above_seg t' x l : above t' x l -> sound t' -> seg (leaf_page x) l (tdict t').
Proof.
  induction 1 as [o nd kids r p I|o nd kids k x l I A IH]; intro S; inversion S as [|? ? ? _ CH SK]; subst; rewrite Forall_forall in CH, SK.
  - destruct (CH _ I) as [g E]. cbn [tdict] in E. econstructor; [exact E|]. constructor.
  - destruct (CH _ I) as [g E]. change (tdict (Node o nd kids)) with (ndict (o, nd, kids)). eapply seg_app; [apply IH; auto|exact E].
Qed.
Lemma seg_chain R d l : (forall x, In x l -> 0 < nnum x /\ value d (nnum x) = Ok (PDict (dict_after R x))) ->
  forall cur e cur', seg cur l e -> dget K_Parent e = None -> dget K_Parent cur' = dget K_Parent cur -> chain d cur' (map (fun z => (nnum z, dict_after R z, cnt R z)) l).
Proof.
  intros V cur e cur' S. revert cur' V. induction S as [cur|cur g z l e E S IH]; intros cur' V EN EC; cbn [map]; [constructor; congruence|].
  destruct (V z (or_introl eq_refl)) as [N Vz]. econstructor; [rewrite EC; exact E|exact N|exact Vz| |].
  - unfold dict_after. apply dget_dset_eq.
  - apply IH; auto. intros; apply V; now right. unfold dict_after. rewrite !dget_dset_neq by discriminate. auto.
Qed.
Lemma kids_nodup x : In x (nodes t) -> NoDup (map tref (nkids x)).
Proof.
  intro I. destruct wf_parts as (H & S & _ & ND & NN & _). destruct (node_props d0 t H S x I) as (_ & _ & _ & _ & _ & FH). pose proof (under_nodup x I) as UN.
  assert (NU : NoDup (flat_map node_nums (nkids x))).
  { clear -I NN. revert I NN. revert t. apply (ptree_rect2 (fun t => In x (nodes t) -> NoDup (node_nums t) -> NoDup (flat_map node_nums (nkids x)))).
    - intros o p [].
    - intros o nd kids IH. cbn [nodes node_nums]. intros [<-|I] N; inversion N as [|? ? N1 N2]; subst; [exact N2|]. apply in_flat_map in I. destruct I as (k & Ik & Ix). rewrite Forall_forall in IH. apply (IH k Ik Ix). destruct (nodup_flat _ _ N2) as [N3 _]. auto. }
  unfold under in UN. assert (UN' : NoDup (flat_map (fun k => map leaf_num (leaves k)) (nkids x))).
  { assert (E : forall kids, map leaf_num (flat_map leaves kids) = flat_map (fun k => map leaf_num (leaves k)) kids) by (clear; induction kids as [|k kids IH]; cbn [flat_map map]; [auto|]; now rewrite map_app, IH). now rewrite <- E. }
  clear UN. revert FH NU UN'. generalize (nkids x). induction l as [|k l IH]; intros FH NU UN; cbn [map]; [constructor|]. inversion FH as [|? ? Hk FH']; subst. cbn [flat_map] in NU, UN.
  constructor; [|apply IH; auto; eapply nodup_app_r; eauto]. intro J. apply in_map_iff in J. destruct J as (k' & E & I'). rewrite Forall_forall in FH'. pose proof (FH' k' I') as Hk'.
  inversion Hk as [o n p P T|o n nd kids P T K F]; subst; inversion Hk' as [o' n' p' P' T'|o' n' nd' kids' P' T' K' F']; subst; cbn [tref] in E; subst o'.
  - apply (nodup_app_disj _ _ (tnum (Leaf o p)) UN); [now left|]. apply in_flat_map. exists (Leaf o p'). split; [auto|]. now left.
  - destruct P as (g & -> & _ & V), P' as (g' & E' & _ & V'). injection E' as <- <-. rewrite V in V'. injection V' as <-. rewrite T in T'. discriminate T'.
  - destruct P as (g & -> & _ & V), P' as (g' & E' & _ & V'). injection E' as <- <-. rewrite V in V'. injection V' as <-. rewrite T in T'. discriminate T'.
  - apply (nodup_app_disj _ _ (tnum (Node o nd kids)) NU); [now left|]. apply in_flat_map. exists (Node o nd' kids'). split; [auto|]. now left.
Qed.
Lemma kid_is_leaf x k r p : In x (nodes t) -> In k (nkids x) -> In (Leaf r p) (nkids x) -> tnum k = tnum (Leaf r p) -> (exists o q, k = Leaf o q) -> k = Leaf r p.
Proof.
  intros I Ik Ir E (o & q & ->). destruct wf_parts as (_ & _ & _ & ND & _). pose proof (under_nodup x I) as UN. unfold under in UN.
  assert (UN' : NoDup (flat_map (fun k => map leaf_num (leaves k)) (nkids x))).
  { assert (E' : forall kids, map leaf_num (flat_map leaves kids) = flat_map (fun k => map leaf_num (leaves k)) kids) by (clear; induction kids as [|k kids IH]; cbn [flat_map map]; [auto|]; now rewrite map_app, IH). now rewrite <- E'. }
  destruct (nodup_flat _ _ UN') as [_ N2]. eapply N2; [exact Ik|exact Ir| |]; [left; reflexivity|]. cbn [leaves map In]. left. symmetry. exact E.
Qed.
Lemma above_head t' x l : above t' x l -> exists y l' r p, l = y :: l' /\ x = (r, p, []) /\ In (Leaf r p) (nkids y).
Proof.
  induction 1 as [o nd kids r p I|o nd kids k x l I A (y & l' & r & p & -> & -> & IH)].
  - exists (o, nd, kids), [], r, p. auto.
  - exists y, (l' ++ [(o, nd, kids)]), r, p. auto.
Qed.
Lemma above_length t' x l : above t' x l -> (length l <= depth t')%nat.
Proof.
  induction 1 as [o nd kids r p I|o nd kids k x l I A IH]; [cbn; lia|]. rewrite app_length. cbn [length]. pose proof (depth_kid o nd kids k I). lia.
Qed.
Lemma filter_filter {A} (f g : A -> bool) l : filter f (filter g l) = filter (fun x => g x && f x) l.
Proof. induction l as [|x l IH]; cbn [filter]; [auto|]. destruct (g x); cbn [andb filter]; [destruct (f x); now rewrite IH|auto]. Qed.
Lemma filter_map_comm {A C} (h : A -> C) (f : C -> bool) l : filter f (map h l) = map h (filter (fun x => f (h x)) l).
Proof. induction l as [|x l IH]; cbn [map filter]; [auto|]. destruct (f (h x)); cbn [map]; now rewrite IH. Qed.
Lemma NoDup_filter_map {A C} (h : A -> C) (f : A -> bool) l : NoDup (map h l) -> NoDup (map h (filter f l)).
Proof. apply NoDup_map_filter. Qed.

Lemma detach_spec f R d x g n : taken d0 t R d -> In x (leaves t) -> leaf_ref x = PRef g n -> ~ In n R -> (depth t < f)%nat ->
  exists d', detach f d (g, n) = Ok d' /\ taken d0 t (n :: R) d'.
Proof.
  intros [ED DD NV OV] Ix Er NR DF. destruct wf_parts as (H & S & RP & ND & NN & ISN).
  destruct (leaf_value x Ix) as (g' & n' & Er' & En & NP & Vx). rewrite Er in Er'. injection Er' as <- <-. pose proof (leaf_not_node x Ix) as NNX. rewrite En in NNX.
  destruct (above_exists t x Ix ISN) as [l A]. destruct (above_head _ _ _ A) as (y & l' & r & p & El & Exl & Ik). destruct (above_in _ _ _ A) as [AI _].
  assert (Efx : fst x = (r, p)) by exact (f_equal fst Exl). assert (r = PRef g n) by (unfold leaf_ref in Er; rewrite Efx in Er; exact Er). subst r.
  assert (PGE : leaf_page x = p) by (unfold leaf_page; now rewrite Efx).
  assert (Iy : In y (nodes t)) by (apply AI; rewrite El; now left).
  destruct (node_props d0 t H S y Iy) as ((yg & yn & Ey & YN & YV) & _ & YK & YC & _ & YH). assert (EYN : nnum y = yn) by (unfold nnum; now rewrite Ey).
  pose proof (above_seg t _ l A S) as SEG. rewrite El in SEG. inversion SEG as [|? pg ? ? ? EP SEG']; subst z l0 e cur. cbn [leaf_page fst snd] in EP.
  assert (PG : dget K_Parent p = Some (PRef pg yn)) by (rewrite <- EYN, <- EP, <- PGE; reflexivity).
  unfold detach. cbn [fst snd].
  destruct (read_ok d g n (PDict p) (editable_coherent d ED) ltac:(lia)) as (d1 & G1 & R1); [rewrite OV by (auto; lia); rewrite Vx; now rewrite PGE|]. rewrite G1. cbn [bind item]. rewrite PG. cbn [of_opt bind].
  destruct (read_ok d1 pg yn (PDict (dict_after R y)) (ro_coherent _ _ R1) ltac:(lia)) as (d2 & G2 & R2); [rewrite (ro_values _ _ R1) by lia; rewrite <- EYN; auto|]. rewrite G2. cbn [bind item].
  assert (KE : dget K_Kids (dict_after R y) = Some (PList (map tref (staying R (nkids y))))) by (unfold dict_after; rewrite dget_dset_neq by discriminate; apply dget_dset_eq).
  assert (CE : dget K_Count (dict_after R y) = Some (PInt (cnt R y))) by (unfold dict_after; apply dget_dset_eq).
  rewrite KE. cbn [of_opt bind].
  assert (FIND : remove_first (g, n) (map tref (staying R (nkids y))) = Ok (map tref (staying (n :: R) (nkids y)))).
  { rewrite remove_first_ok.
    - f_equal. rewrite filter_map_comm. f_equal. unfold staying. rewrite filter_filter. apply filter_ext_in. intros k Kk.
      destruct (node_props d0 t H S y Iy) as (_ & _ & _ & _ & _ & FH). rewrite Forall_forall in FH. pose proof (FH k Kk) as Hk.
      destruct k as [o q|o q kk].
      + inversion Hk as [o1 m q1 (gm & Eo & _ & Vm) _|]. subst o. unfold gone, tnum, tref, memz. cbn [existsb].
        destruct (ref_eqb (g, n) (gm, m)) eqn:E.
        * apply ref_eqb_eq in E. injection E as <- <-. rewrite Z.eqb_refl. cbn [orb negb]. now rewrite andb_false_r.
        * cbn [negb]. rewrite andb_true_r. f_equal. destruct (m =? n) eqn:E2; [|reflexivity]. exfalso. apply Z.eqb_eq in E2. subst m.
          assert (X : Leaf (PRef gm n) q = Leaf (PRef g n) p) by (eapply (kid_is_leaf y); eauto). injection X as -> _. rewrite (proj2 (ref_eqb_eq _ _) eq_refl) in E. discriminate.
      + cbn [gone negb andb tref]. inversion Hk as [|o1 m q1 kk1 (gm & Eo & _ & Vm) Tm _ _]. subst o. destruct (ref_eqb (g, n) (gm, m)) eqn:E; [|reflexivity]. exfalso. apply ref_eqb_eq in E. injection E as <- <-.
        pose proof (leaf_types d0 t n _ H ltac:(rewrite <- En; now apply in_map) Vm) as (p' & E' & T'). injection E' as <-. rewrite Tm in T'. discriminate T'.
    - cbn [fst snd]. apply in_map_iff. exists (Leaf (PRef g n) p). split; [reflexivity|]. unfold staying. apply filter_In. split; [exact Ik|]. cbn [gone tnum tref]. apply memz_out in NR. now rewrite NR.
    - unfold staying. apply NoDup_map_filter. apply kids_nodup. exact Iy. }
  rewrite FIND. cbn [bind]. rewrite CE. cbn [of_opt bind minus_one dict_of ref_of snd].
  assert (INU : memz n (map leaf_num (under y)) = true) by (apply memz_in; exact (in_map leaf_num _ _ (kid_leaf_in y (PRef g n) p Ik))).
  assert (CN : cnt R y - 1 = cnt (n :: R) y). { unfold cnt. pose proof (still_cons n R (under y) (under_nodup y Iy) NR) as C. rewrite INU in C. lia. }
  assert (NP' : dset K_Count (PInt (cnt R y - 1)) (dset K_Kids (PList (map tref (staying (n :: R) (nkids y)))) (dict_after R y)) = dict_after (n :: R) y).
  { rewrite CN. unfold dict_after at 1. rewrite (dset_comm K_Kids K_Count); [|discriminate|rewrite dget_dset_eq; discriminate]. now rewrite !dset_dset. }
  rewrite NP'.
  pose proof (read_only_trans _ _ _ R1 R2) as R12.
  destruct (update_ok d2 yn (PDict (dict_after (n :: R) y)) (PDict (dict_after R y))) as (d3 & U & US); [eapply editable_ro; eauto|auto|rewrite (ro_values _ _ R12) by lia; rewrite <- EYN; auto|]. rewrite U. cbn [bind].
  assert (V3 : forall m, 0 <= m -> m <> yn -> value d3 m = value d m). { intros m M NE. rewrite (up_other _ _ _ _ US) by auto. now apply (ro_values _ _ R12). }
  pose proof (above_nodup _ _ _ A NN) as NDL. rewrite El in NDL. cbn [map] in NDL. apply NoDup_cons_iff in NDL. destruct NDL as [NIY NDL']. subst l.
  assert (IL : forall z, In z l' -> In z (nodes t) /\ z <> y /\ 0 < nnum z).
  { intros z Iz. destruct (AI z) as [Inz _]; [now right|]. split; [auto|]. split; [intros ->; apply NIY; now apply in_map|]. destruct (node_props d0 t H S z Inz) as ((zg & zn & Ez & ZN & _) & _). unfold nnum. now rewrite Ez. }
  destruct (count_up_spec (map (fun z => (nnum z, dict_after R z, cnt R z)) l') f d3 (dict_after (n :: R) y) (up_editable _ _ _ _ US)) as (d4 & E4 & ED4 & D4 & L4 & O4).
  { refine (seg_chain R d3 l' _ _ _ _ SEG' RP _).
    - intros z Iz. destruct (IL z Iz) as (I1 & I2 & I3). split; [auto|]. rewrite V3; [auto|lia|]. intro E. apply I2. apply nnum_inj; auto; congruence.
    - unfold dict_after. rewrite !dget_dset_neq by discriminate. reflexivity. }
  { unfold chain_nums. rewrite map_map. exact NDL'. }
  { rewrite map_length. pose proof (above_length _ _ _ A) as LL. cbn [length] in LL. lia. }
  assert (CNUM : chain_nums (map (fun z => (nnum z, dict_after R z, cnt R z)) l') = map nnum l') by (unfold chain_nums; rewrite map_map; reflexivity).
  exists d4. split; [exact E4|]. constructor; auto.
  - rewrite D4, (up_data _ _ _ _ US), (ro_data _ _ R12). exact DD.
  - intros z Iz. destruct (in_dec Z.eq_dec (nnum z) (map nnum l')) as [J|NJ].
    + apply in_map_iff in J. destruct J as (z' & E & J). destruct (IL z' J) as (I1 & I2 & I3). assert (z' = z) by (apply nnum_inj; auto). subst z'.
      pose proof (L4 _ (in_map (fun z => (nnum z, dict_after R z, cnt R z)) _ _ J)) as LV. cbn [fst] in LV. rewrite LV. unfold lowered. cbn [fst snd].
      destruct (AI z (or_intror J)) as [_ (w & Iw & Ew)]. assert (EW : leaf_num w = n) by (unfold leaf_num, leaf_ref; rewrite Ew; cbn [fst]; rewrite Efx; reflexivity).
      assert (MZ : memz n (map leaf_num (under z)) = true) by (apply memz_in; rewrite <- EW; now apply in_map).
      pose proof (still_cons n R (under z) (under_nodup z Iz) NR) as C. rewrite MZ in C.
      do 2 f_equal. unfold dict_after. rewrite dset_dset. f_equal; [f_equal; unfold cnt; lia|]. f_equal. f_equal. f_equal. unfold staying. apply filter_ext_in. intros k Kk. destruct k as [o q|]; [|reflexivity]. cbn [gone]. unfold memz. cbn [existsb].
      replace (tnum (Leaf o q) =? n) with false; [reflexivity|]. symmetry. apply Z.eqb_neq. intro E0. apply I2. exact (parent_unique_gen t ND z y o q (PRef g n) p Iz Iy Kk Ik E0).
    + rewrite O4; [|destruct (node_props d0 t H S z Iz) as ((zg & zn & Ez & ZN & _) & _); unfold nnum; rewrite Ez; lia|now rewrite CNUM].
      destruct (Z.eq_dec (nnum z) yn) as [E|NE].
      * assert (z = y) by (apply nnum_inj; auto; congruence). subst z. rewrite EYN. apply (up_value _ _ _ _ US).
      * rewrite V3; [|destruct (node_props d0 t H S z Iz) as ((zg & zn & Ez & ZN & _) & _); unfold nnum; rewrite Ez; lia|auto]. rewrite NV by auto. do 2 f_equal.
        assert (NU : ~ In n (map leaf_num (under z))). { intro J. apply in_map_iff in J. destruct J as (w & Ew & Iw). pose proof (above_all _ _ _ A ND z w Iz Iw (eq_trans Ew (eq_sym En))) as [X|X]; [subst z; contradiction|apply NJ; now apply in_map]. }
        apply memz_out in NU. pose proof (still_cons n R (under z) (under_nodup z Iz) NR) as C. rewrite NU in C.
        unfold dict_after. f_equal; [f_equal; unfold cnt; lia|]. f_equal. f_equal. f_equal. unfold staying. apply filter_ext_in. intros k Kk. destruct k as [o q|]; [|reflexivity]. cbn [gone]. unfold memz. cbn [existsb].
        replace (tnum (Leaf o q) =? n) with false; [reflexivity|]. symmetry. apply Z.eqb_neq. intro E0. apply memz_out in NU. apply NU. rewrite <- E0. exact (in_map leaf_num _ _ (kid_leaf_in z o q Kk)).
  - intros m M NM. rewrite O4; [|auto|].
    + rewrite V3; [now apply OV|auto|]. intros ->. apply NM. rewrite node_nums_map, <- EYN. now apply in_map.
    + rewrite CNUM. intro J. apply in_map_iff in J. destruct J as (z & <- & Iz). apply NM. rewrite node_nums_map. apply in_map. now apply IL.
Qed.
End Take.

(* ---------- the tree that remains ---------- *)
Fixpoint prune (R : list Z) (t : ptree) : ptree :=
  match t with
  | Leaf o p => Leaf o p
  | Node o nd kids => Node o (dict_after R (o, nd, kids)) (flat_map (fun k => if gone R k then [] else [prune R k]) kids)
  end.
Lemma prune_kids R kids : flat_map (fun k => if gone R k then [] else [prune R k]) kids = map (prune R) (staying R kids).
Proof. unfold staying. induction kids as [|k kids IH]; cbn [flat_map filter]; [auto|]. destruct (gone R k); cbn [negb map app]; now rewrite IH. Qed.
Lemma prune_node R o nd kids : prune R (Node o nd kids) = Node o (dict_after R (o, nd, kids)) (map (prune R) (staying R kids)).
Proof. cbn [prune]. now rewrite prune_kids. Qed.
Lemma tref_prune R t : tref (prune R t) = tref t.
Proof. destruct t; reflexivity. Qed.
Lemma tnum_prune R t : tnum (prune R t) = tnum t.
Proof. unfold tnum. now rewrite tref_prune. Qed.
Definition alike (x y : leaf) : Prop := fst x = fst y /\ forall k, inh_keyb k = true -> near k (snd x) = near k (snd y).
Lemma dict_after_get R x k : k <> K_Count -> k <> K_Kids -> dget k (dict_after R x) = dget k (ndict x).
Proof. intros H1 H2. unfold dict_after. now rewrite !dget_dset_neq by auto. Qed.
Lemma near_snoc k l nd : near k (l ++ [nd]) = match near k l with Some v => Some v | None => near k [nd] end.
Proof. induction l as [|x l IH]; [reflexivity|]. cbn [app near]. rewrite IH. destruct (dget k x) as [[]|]; reflexivity. Qed.
Lemma still_map R nd (l : list leaf) : still R (map (fun x => (fst x, snd x ++ [nd])) l) = map (fun x => (fst x, snd x ++ [nd])) (still R l).
Proof. unfold still. rewrite filter_map_comm. reflexivity. Qed.
Lemma still_app R l m : still R (l ++ m) = still R l ++ still R m.
Proof. unfold still. apply filter_app. Qed.
Lemma leaves_prune R t : gone R t = false -> Forall2 alike (leaves (prune R t)) (still R (leaves t)).
Proof.
  revert t. apply (ptree_rect2 (fun t => gone R t = false -> Forall2 alike (leaves (prune R t)) (still R (leaves t)))).
  - intros o p G. cbn [prune leaves]. unfold still. cbn [filter]. change (leaf_num (o, p, [])) with (tnum (Leaf o p)). cbn [gone] in G. rewrite G. cbn [negb]. constructor; [split; auto|constructor].
  - intros o nd kids IH _. rewrite prune_node, !leaves_node, still_map. set (nd' := dict_after R (o, nd, kids)).
    assert (F : Forall2 alike (flat_map leaves (map (prune R) (staying R kids))) (still R (flat_map leaves kids))).
    { clear nd'. induction IH as [|k kids H F IHk]; [constructor|]. cbn [flat_map]. rewrite still_app. unfold staying. cbn [filter]. fold (staying R kids). destruct (gone R k) eqn:G; cbn [negb].
      - destruct k as [o' p'|]; [|discriminate]. cbn [leaves]. unfold still at 1. cbn [filter]. change (leaf_num (o', p', [])) with (tnum (Leaf o' p')). cbn [gone] in G. rewrite G. exact IHk.
      - cbn [map flat_map]. apply Forall2_app; auto. }
    apply Forall2_map_r. eapply Forall2_map_l; [|exact F]. cbn beta. intros x y [E N]. split; [exact E|]. cbn [snd]. intros k K. rewrite !near_snoc, (N k K).
    assert (G : dget k nd' = dget k nd). { unfold nd'. apply dict_after_get; intros ->; discriminate K. }
    cbn [near]. now rewrite G.
Qed.
Lemma Forall2_len {A C} (Q : A -> C -> Prop) l m : Forall2 Q l m -> length l = length m.
Proof. induction 1; cbn; auto. Qed.
Lemma sound_prune R t : sound t -> sound (prune R t).
Proof.
  revert t. apply (ptree_rect2 (fun t => sound t -> sound (prune R t))); [constructor|]. intros o nd kids IH S. inversion S as [|? ? ? C CH SK]; subst.
  pose proof (leaves_prune R (Node o nd kids) eq_refl) as L. apply Forall2_len in L. rewrite prune_node in *. constructor.
  - rewrite L. unfold dict_after. rewrite dget_dset_eq. unfold cnt, under. cbn [nkids snd]. rewrite leaves_node, still_map, map_length. reflexivity.
  - apply Forall_map. unfold staying. rewrite Forall_forall in *. intros k I. apply filter_In in I. destruct I as [I _]. destruct (CH k I) as [g E]. exists g.
    change (tnum (Node o (dict_after R (o, nd, kids)) (map (prune R) (filter (fun k0 => negb (gone R k0)) kids)))) with (tnum (Node o nd kids)).
    rewrite <- E. destruct k; [reflexivity|]. rewrite prune_node. cbn [tdict]. apply dict_after_get; discriminate.
  - apply Forall_map. unfold staying. rewrite Forall_forall in *. intros k I. apply filter_In in I. destruct I as [I _]. auto.
Qed.
Lemma node_nums_prune R t : node_nums (prune R t) = node_nums t.
Proof.
  revert t. apply (ptree_rect2 (fun t => node_nums (prune R t) = node_nums t)); [reflexivity|]. intros o nd kids IH. rewrite prune_node. cbn [node_nums]. f_equal.
  induction IH as [|k kids H F IHk]; [reflexivity|]. unfold staying. cbn [filter flat_map]. fold (staying R kids). destruct (gone R k) eqn:G; cbn [negb map flat_map].
  - destruct k; [|discriminate]. exact IHk.
  - now rewrite H, IHk.
Qed.
Lemma holds_prune R d0 d t : holds d0 t -> (forall x, In x (nodes t) -> value d (nnum x) = Ok (PDict (dict_after R x))) ->
  (forall x, In x (leaves t) -> ~ In (leaf_num x) R -> value d (leaf_num x) = value d0 (leaf_num x)) -> gone R t = false -> holds d (prune R t).
Proof.
  revert t. apply (ptree_rect2 (fun t => holds d0 t -> (forall x, In x (nodes t) -> value d (nnum x) = Ok (PDict (dict_after R x))) ->
    (forall x, In x (leaves t) -> ~ In (leaf_num x) R -> value d (leaf_num x) = value d0 (leaf_num x)) -> gone R t = false -> holds d (prune R t))).
  - intros o p H _ L G. inversion H as [? n ? (g & -> & N & V) T|]; subst. cbn [gone] in G. apply memz_out in G. pose proof (L (PRef g n, p, []) (or_introl eq_refl) G) as LV. change (leaf_num (PRef g n, p, [])) with n in LV.
    econstructor; [|exact T]. exists g. split; [reflexivity|]. split; [exact N|]. now rewrite LV.
  - intros o nd kids IH H NV L _. inversion H as [|? n ? ? (g & -> & N & V) T K FH]; subst. rewrite prune_node. econstructor.
    + exists g. split; [reflexivity|]. split; [exact N|]. exact (NV (PRef g n, nd, kids) (or_introl eq_refl)).
    + rewrite dict_after_get by discriminate. exact T.
    + unfold dict_after. rewrite dget_dset_neq by discriminate. rewrite dget_dset_eq. rewrite map_map. do 2 f_equal. apply map_ext. intro k. symmetry. apply tref_prune.
    + apply Forall_map. unfold staying. rewrite Forall_forall in *. intros k I. apply filter_In in I. destruct I as [I G]. apply (IH k I (FH k I)).
      * intros x Ix. apply NV. cbn [nodes]. right. apply in_flat_map. eauto.
      * intros x Ix. rewrite leaves_node in L. apply (L (fst x, snd x ++ [nd])). apply in_map_iff. exists x. split; [auto|]. apply in_flat_map. eauto.
      * now apply negb_true_iff in G.
Qed.

(* ---------- remove_pages ---------- *)
Definition lref (x : leaf) : ref := match leaf_ref x with PRef g n => (g, n) | _ => (0, 0) end.
Lemma ref_in_spec r l : Model_Docstruct.ref_in r l = true <-> In r l.
Proof. unfold Model_Docstruct.ref_in. rewrite existsb_exists. split; [intros (x & I & E); apply ref_eqb_eq in E; now subst|intro I; exists r; split; [auto|]; now apply ref_eqb_eq]. Qed.
Lemma in_dedup r l : In r (dedup l) <-> In r l.
Proof.
  induction l as [|x l IH]; cbn [dedup]; [tauto|]. destruct (Model_Docstruct.ref_in x l) eqn:E; cbn [In]; rewrite IH; [|tauto]. apply ref_in_spec in E. split; [auto|]. intros [<-|H]; auto.
Qed.
Lemma nodup_dedup l : NoDup (dedup l).
Proof. induction l as [|x l IH]; cbn [dedup]; [constructor|]. destruct (Model_Docstruct.ref_in x l) eqn:E; [auto|]. constructor; [|auto]. rewrite in_dedup. intro I. apply ref_in_spec in I. congruence. Qed.
Lemma deps_of_spec f l : forall d rs d1, coherent d -> (forall r, In r l -> nonneg d (PRef (fst r) (snd r))) -> deps_of f d l = Ok (rs, d1) ->
  read_only d d1 /\ forall r, In r rs <-> exists s, In s l /\ reaches d (PRef (fst s) (snd s)) r.
Proof.
  induction l as [|s l IH]; intros d rs d1 C NN; cbn [deps_of].
  - intro E. injection E as <- <-. split; [now apply read_only_refl|]. intro r. split; [intros []|intros (s & [] & _)].
  - destruct (dependencies f d (PRef (fst s) (snd s))) as [[a da]| |] eqn:E1; cbn [bind]; try discriminate.
    destruct (deps_spec f d _ a da C (NN s (or_introl eq_refl)) E1) as (R1 & S1 & _).
    destruct (deps_of f da l) as [[b db]| |] eqn:E2; cbn [bind]; try discriminate. intro E. injection E as <- <-.
    destruct (IH da b db (ro_coherent _ _ R1)) as (R2 & S2); [intros r I; eapply nonneg_ro; eauto; apply NN; now right|auto|].
    split; [eapply read_only_trans; eauto|]. intro r. rewrite in_app_iff, S1, S2. cbn [In]. split.
    + intros [H|(s' & I & H)]; [eauto|]. exists s'. split; [auto|]. now apply (reaches_ro d da).
    + intros (s' & [<-|I] & H); [auto|]. right. exists s'. split; [auto|]. now apply (reaches_ro d da).
Qed.
Lemma deps_of_mono f f' l : (f <= f')%nat -> forall d x, deps_of f d l = Ok x -> deps_of f' d l = Ok x.
Proof.
  intro L. induction l as [|s l IH]; intros d x; cbn [deps_of]; auto. destruct (dependencies f d _) as [[a da]| |] eqn:E1; cbn [bind]; try discriminate. rewrite (deps_mono f f' _ _ _ L E1). cbn [bind].
  destruct (deps_of f da l) as [[b db]| |] eqn:E2; cbn [bind]; try discriminate. now rewrite (IH _ _ E2).
Qed.
Lemma deps_of_total d l : (forall r, In r l -> Acc (fun b a => follows d a b) (PRef (fst r) (snd r)) /\ resolved d (PRef (fst r) (snd r))) ->
  exists f, forall f' d', (f <= f')%nat -> read_only d d' -> forall m, incl m l -> exists x, deps_of f' d' m = Ok x.
Proof.
  intro H. assert (B : exists f, forall r, In r l -> forall d', read_only d d' -> exists x, dependencies f d' (PRef (fst r) (snd r)) = Ok x).
  { clear - H. induction l as [|s l IH]; [exists 0%nat; intros r []|]. destruct (H s (or_introl eq_refl)) as [A RS]. destruct (deps_total d _ A RS) as (f1 & H1). destruct IH as (f2 & H2); [intros; apply H; now right|].
    exists (Nat.max f1 f2). intros r [<-|I] d' R.
    - destruct (H1 d' R) as (x & E). exists x. apply (deps_mono f1); [lia|auto].
    - destruct (H2 r I d' R) as (x & E). exists x. apply (deps_mono f2); [lia|auto]. }
  destruct B as (f & B). exists f. intros f' d' LE R m. revert d' R. induction m as [|s m IH]; intros d' R SUB; cbn [deps_of]; [eauto|].
  destruct (B s (SUB s (or_introl eq_refl)) d' R) as ([a da] & E1). destruct (H s (SUB s (or_introl eq_refl))) as [A RS]. assert (R1 : read_only d da).
  { destruct (deps_spec f d' (PRef (fst s) (snd s)) a da (ro_coherent _ _ R)) as (R1 & _); [eapply nonneg_ro; eauto; now apply resolved_nonneg|auto|]. eapply read_only_trans; eauto. }
  destruct (IH da R1 ltac:(intros r I; apply SUB; now right)) as ([b db] & E2). rewrite (deps_mono f f' _ _ _ LE E1). cbn [bind]. rewrite E2. cbn [bind]. eauto.
Qed.
Lemma each_detach f d0 t : well_formed d0 t -> (depth t < f)%nat -> forall l R d, taken d0 t R d -> NoDup (map snd l) ->
  (forall r : ref, In r l -> ~ In (snd r) R /\ exists x, In x (leaves t) /\ leaf_ref x = PRef (fst r) (snd r)) ->
  exists d' R', each (detach f) d l = Ok d' /\ taken d0 t R' d' /\ forall n, In n R' <-> In n (map snd l) \/ In n R.
Proof.
  intros WF DF. induction l as [|r l IH]; intros R d T ND H; cbn [each].
  - exists d, R. split; [auto|]. split; [auto|]. cbn. tauto.
  - destruct (H r (or_introl eq_refl)) as (NR & x & Ix & Er). destruct (detach_spec d0 t WF f R d x (fst r) (snd r) T Ix Er NR DF) as (d1 & E1 & T1). destruct r as [g n]. cbn [fst snd] in *. rewrite E1. cbn [bind].
    cbn [map snd] in ND. inversion ND as [|? ? NI ND']; subst. destruct (IH (n :: R) d1 T1 ND') as (d' & R' & E' & T' & M').
    + intros r I. destruct (H r (or_intror I)) as (NR' & X). split; [|auto]. cbn [In]. intros [->|J]; [|auto]. apply NI. now apply in_map.
    + exists d', R'. split; [auto|]. split; [auto|]. intro m. rewrite M'. cbn [map snd In]. tauto.
Qed.
Lemma each_clear l : forall d d', editable d -> (forall r : ref, In r l -> 0 < snd r) -> each (fun d r => update_object d (snd r) PNone) d l = Ok d' ->
  editable d' /\ d_data d' = d_data d /\ (forall k, 0 <= k -> ~ In k (map snd l) -> value d' k = value d k) /\ forall k, In k (map snd l) -> value d' k = Ok PNone.
Proof.
  induction l as [|r l IH]; intros d d' ED H; cbn [each].
  - intro E. injection E as <-. split; [auto|]. split; [auto|]. split; [auto|]. intros k [].
  - destruct (update_object d (snd r) PNone) as [d1| |] eqn:U; cbn [bind]; try discriminate. intro E. destruct (update_spec d (snd r) PNone d1 ED (H r (or_introl eq_refl)) U) as [E1 D1 _ V1 O1].
    destruct (IH d1 d' E1 ltac:(intros; apply H; now right) E) as (E2 & D2 & O2 & V2). split; [auto|]. split; [congruence|]. split.
    + intros k K NI. cbn [map In] in NI. rewrite O2; [apply O1; auto|auto|]; intro; apply NI; auto.
    + intros k I. destruct (in_dec Z.eq_dec k (map snd l)) as [J|NJ]; [auto|]. cbn [map In] in I. destruct I as [<-|I]; [|contradiction]. rewrite O2; auto. specialize (H r (or_introl eq_refl)). lia.
Qed.
Lemma each_clear_total l : forall d, editable d -> (forall r : ref, In r l -> 0 < snd r /\ forall row, open_row d row -> snd r < Z.of_nat (length row)) ->
  exists d', each (fun d r => update_object d (snd r) PNone) d l = Ok d'.
Proof.
  induction l as [|r l IH]; intros d ED H; cbn [each]; [eauto|]. destruct (H r (or_introl eq_refl)) as [N L]. destruct (update_total d (snd r) PNone ED N L) as [d1 U]. rewrite U. cbn [bind].
  destruct (update_spec d (snd r) PNone d1 ED N U) as [E1 _ R1 _ _]. apply IH; auto. intros s I. destruct (H s (or_intror I)) as [NS LS]. split; [auto|]. intros row1 O1.
  destruct ED as (_ & _ & (row & O) & _). destruct (R1 row O) as (row1' & O1' & EL). rewrite (open_fun d1 row1 row1') by auto. rewrite EL. auto.
Qed.
Lemma well_formed_ro d d' t : read_only d d' -> well_formed d t -> well_formed d' t.
Proof. intros R (H & X). split; [eapply has_tree_ro; eauto|auto]. Qed.
Lemma lref_leaf d t x : well_formed d t -> In x (leaves t) -> leaf_ref x = PRef (fst (lref x)) (snd (lref x)) /\ snd (lref x) = leaf_num x.
Proof. intros WF I. destruct (leaf_value d t WF x I) as (g & n & E & N & _). unfold lref. rewrite E. cbn [fst snd]. auto. Qed.
Lemma leaf_eq t x y : NoDup (map leaf_num (leaves t)) -> In x (leaves t) -> In y (leaves t) -> leaf_num x = leaf_num y -> x = y.
Proof.
  intros ND Ix Iy E. apply In_nth_error in Ix, Iy. destruct Ix as [i Hi], Iy as [j Hj]. assert (i = j); [|congruence].
  rewrite NoDup_nth_error in ND. apply ND; [rewrite map_length; apply nth_error_Some; congruence|]. rewrite (map_nth_error leaf_num _ _ Hi), (map_nth_error leaf_num _ _ Hj). congruence.
Qed.
Lemma nodup_snd (l : list ref) : NoDup l -> (forall r s, In r l -> In s l -> snd r = snd s -> r = s) -> NoDup (map snd l).
Proof.
  induction l as [|r l IH]; intros ND H; cbn [map]; [constructor|]. inversion ND as [|? ? NI ND']; subst. constructor.
  - rewrite in_map_iff. intros (s & E & I). apply NI. rewrite (H r s); [auto|now left|now right|auto].
  - apply IH; auto. intros; apply H; auto; now right.
Qed.
Lemma pyidx_spec {A} (l : list A) z i : pyidx l z = Some i -> (i < length l)%nat -> z = Z.of_nat i \/ z = Z.of_nat i - Z.of_nat (length l).
Proof. unfold pyidx. destruct (z <? 0) eqn:E1; cbn; intros H L; repeat match goal with H : context [if ?c then _ else _] |- _ => destruct c eqn:? end; try discriminate; injection H as <-; lia. Qed.
Lemma pyget_at {A} (l : list A) z i : (i < length l)%nat -> z = Z.of_nat i \/ z = Z.of_nat i - Z.of_nat (length l) -> exists x, nth_error l i = Some x /\ pyget l z = Ok x.
Proof.
  intros L H. destruct (nth_error l i) as [x|] eqn:N; [|apply nth_error_None in N; lia]. exists x. split; [auto|]. unfold pyget.
  assert (E : pyidx l z = Some i). { unfold pyidx. destruct H as [->| ->]; repeat match goal with |- context [if ?c then _ else _] => destruct c eqn:? end; try (f_equal; lia); exfalso; lia. }
  rewrite E, N. reflexivity.
Qed.
Lemma fmap_res_ok {A C} (f : A -> res C) (g : A -> C) l : (forall x, In x l -> f x = Ok (g x)) -> Model_Filestruct.map_res f l = Ok (map g l).
Proof. induction l as [|x l IH]; intro H; cbn; [auto|]. rewrite (H x (or_introl eq_refl)). cbn [bind]. rewrite IH; [auto|]. intros; apply H; now right. Qed.
Lemma fmap_res2 {A C} (f : A -> res C) l : forall r, Model_Filestruct.map_res f l = Ok r -> Forall2 (fun x y => f x = Ok y) l r.
Proof. induction l as [|x l IH]; intros r; cbn. { intro E. injection E as <-. constructor. } destruct (f x) as [y| |] eqn:E; cbn [bind]; try discriminate. destruct (Model_Filestruct.map_res f l) as [u| |]; cbn [bind]; try discriminate. intro H. injection H as <-. constructor; auto. Qed.
Lemma fmap_res_total {A C} (f : A -> res C) l : (forall x, In x l -> exists y, f x = Ok y) -> exists r, Model_Filestruct.map_res f l = Ok r.
Proof. induction l as [|x l IH]; intro H; cbn; [eauto|]. destruct (H x (or_introl eq_refl)) as [y E]. rewrite E. cbn [bind]. destruct IH as [r Er]; [intros; apply H; now right|]. rewrite Er. cbn [bind]. eauto. Qed.
Lemma Forall2_in_l {A C} (Q : A -> C -> Prop) l m x : Forall2 Q l m -> In x l -> exists y, In y m /\ Q x y.
Proof. induction 1 as [|a b l m H F IH]; [intros []|]. intros [<-|I]; [exists b; cbn; auto|]. destruct (IH I) as (y & Iy & Hy). exists y. cbn. auto. Qed.
Lemma Forall2_in_r {A C} (Q : A -> C -> Prop) l m y : Forall2 Q l m -> In y m -> exists x, In x l /\ Q x y.
Proof. induction 1 as [|a b l m H F IH]; [intros []|]. intros [<-|I]; [exists a; cbn; auto|]. destruct (IH I) as (x & Iy & Hy). exists x. cbn. auto. Qed.
Lemma Forall2_nth {A C} (Q : A -> C -> Prop) l m : Forall2 Q l m -> forall i x, nth_error l i = Some x -> exists y, nth_error m i = Some y /\ Q x y.
Proof. induction 1 as [|a b l m H F IH]; intros [|i] x; cbn; try discriminate; [intro E; injection E as <-; eauto|apply IH]. Qed.

(* the references that remove_pages reads off the list of pages *)
Lemma chosen_spec d t base pl l sel del : well_formed d t -> Forall2 (listed base) pl (leaves t) ->
  Model_Filestruct.map_res (pyget pl) l = Ok sel -> Model_Filestruct.map_res (fun x : obj * dict => ref_of (fst x)) sel = Ok del ->
  forall r, In r del <-> exists x, picks t l x /\ r = lref x.
Proof.
  intros WF L S D r. apply fmap_res2 in S. apply fmap_res2 in D. pose proof (Forall2_len _ _ _ L) as LEN.
  assert (X : forall z y, pyget pl z = Ok y -> exists i x, nth_error (leaves t) i = Some x /\ (z = Z.of_nat i \/ z = Z.of_nat i - Z.of_nat (length (leaves t))) /\ ref_of (fst y) = Ok (lref x)).
  { intros z y G. unfold pyget in G. destruct (pyidx pl z) as [i|] eqn:I; [|discriminate]. destruct (nth_error pl i) as [y'|] eqn:N; cbn in G; [|discriminate]. injection G as ->.
    assert (Li : (i < length pl)%nat) by (apply nth_error_Some; congruence). destruct (Forall2_nth _ _ _ L i y N) as (x & Nx & E & _). exists i, x. split; [auto|]. split; [rewrite <- LEN; now apply pyidx_spec|].
    rewrite E. pose proof (nth_error_In _ _ Nx) as Ix. destruct (lref_leaf d t x WF Ix) as [Er _]. rewrite Er. cbn [ref_of]. destruct (lref x); reflexivity. }
  split.
  - intro I. destruct (Forall2_in_r _ _ _ _ D I) as (y & Iy & Ry). destruct (Forall2_in_r _ _ _ _ S Iy) as (z & Iz & Gz). destruct (X z y Gz) as (i & x & N & Hz & Er).
    exists x. split; [|congruence]. exists i. split; [auto|]. exists z. auto.
  - intros (x & (i & N & (z & Iz & Hz)) & ->). destruct (Forall2_in_l _ _ _ _ S Iz) as (y & Iy & Gy). destruct (Forall2_in_l _ _ _ _ D Iy) as (r & Ir & Rr).
    assert (Li : (i < length (leaves t))%nat) by (apply nth_error_Some; congruence).
    destruct (pyget_at pl z i ltac:(lia) ltac:(rewrite LEN; auto)) as (y' & Ny & Gy'). rewrite Gy in Gy'. injection Gy' as <-. destruct (Forall2_nth _ _ _ L i y Ny) as (x' & Nx & E & _). rewrite N in Nx. injection Nx as <-.
    destruct (lref_leaf d t x WF (nth_error_In _ _ N)) as [Er _]. rewrite E, Er in Rr. cbn [ref_of] in Rr. injection Rr as <-. now rewrite <- surjective_pairing in Ir.
Qed.
Lemma picks_in t l x : picks t l x -> In x (leaves t).
Proof. intros (i & N & _). eapply nth_error_In; eauto. Qed.
Lemma picks_indexed t l x i : NoDup (map leaf_num (leaves t)) -> nth_error (leaves t) i = Some x -> picks t l x <-> indexed (length (leaves t)) l i.
Proof.
  intros ND N. split; [|intro; exists i; auto]. intros (j & Nj & I). assert (i = j); [|now subst]. rewrite NoDup_nth_error in ND. apply ND; [rewrite map_length; apply nth_error_Some; congruence|].
  now rewrite (map_nth_error leaf_num _ _ N), (map_nth_error leaf_num _ _ Nj).
Qed.
Lemma kept_filter {A C} (h : A -> C) (P : nat -> Prop) (f : A -> bool) l : forall i, (forall j x, nth_error l j = Some x -> f x = true <-> P (i + j)%nat) -> kept P i (map h l) (map h (filter f l)).
Proof.
  induction l as [|x l IH]; intros i H; cbn [map filter]; [constructor|]. pose proof (H 0%nat x eq_refl) as H0. rewrite Nat.add_0_r in H0.
  assert (T : kept P (S i) (map h l) (map h (filter f l))). { apply IH. intros j y N. rewrite (H (S j) y N). replace (i + S j)%nat with (S i + j)%nat by lia. tauto. }
  destruct (f x) eqn:F; cbn [map]; [apply Ke_keep; [now apply H0|auto]|apply Ke_drop; [|auto]]. intro K. apply H0 in K. congruence.
Qed.
Lemma Forall2_map_eq {A C D} (f : A -> D) (g : C -> D) l m : Forall2 (fun x y => f x = g y) l m -> map f l = map g m.
Proof. induction 1; cbn; [auto|]. congruence. Qed.
Lemma alike_attribute x y : alike x y -> forall base k r, attribute base x k r <-> attribute base y k r.
Proof.
  intros [E N] base k r. rewrite !attribute_spec. unfold attr_of. unfold leaf_page. rewrite E. unfold inh_of.
  destruct (inh_keyb k) eqn:K; [|tauto]. now rewrite (N k K).
Qed.

Lemma remove_result d t l d3 d4 d5 R (dl : list ref) : well_formed d t -> tidy d t -> read_only d d3 -> taken d3 t R d4 ->
  (forall n, In n R <-> exists x, picks t l x /\ leaf_num x = n) ->
  (forall n, In n (map snd dl) <-> doomed d t l n) ->
  editable d5 -> d_data d5 = d_data d4 -> (forall k, 0 <= k -> ~ In k (map snd dl) -> value d5 k = value d4 k) -> (forall k, In k (map snd dl) -> value d5 k = Ok PNone) ->
  pages_removed d t l d5 (prune R t).
Proof.
  intros WF TD R3 T RS DS E5 D5 O5 V5. pose proof WF as ((c & cat & CA & NT1 & NT2 & PG & HO & (o & nd & kids & Et)) & SO & NP & NDL & NDN).
  destruct T as [E4 D4 N4 O4].
  assert (doom_pos : forall n, doomed d t l n -> 0 < n /\ ~ In n (node_nums t) /\ n <> c /\ forall y, In y (leaves t) -> leaf_num y = n -> picks t l y).
  { intros n (g & x & P & RE & NK). destruct (TD x g n (picks_in _ _ _ P) RE) as (N & NN & NC & NL). split; [auto|]. split; [auto|]. split; [eauto|]. intros y Iy Ey.
    destruct (in_dec Z.eq_dec n R) as [I|NI].
    - apply RS in I. destruct I as (z & Pz & Ez). rewrite (leaf_eq t y z NDL Iy (picks_in _ _ _ Pz)) by congruence. auto.
    - exfalso. apply (NK y Iy). { intro Py. apply NI. apply RS. eauto. } rewrite (NL y Iy Ey). constructor. }
  assert (nodes_pos : forall x, In x (nodes t) -> 0 < nnum x /\ In (nnum x) (node_nums t) /\ value d (nnum x) = Ok (PDict (ndict x)) /\ dget K_Type (ndict x) = Some (PStr K_Pages)).
  { intros x I. destruct (node_props d t HO SO x I) as ((g & n & E & N & V) & TT & _). unfold nnum at 1 3. rewrite E. split; [auto|]. split; [|auto]. rewrite node_nums_map. now apply in_map. }
  assert (other : forall n, 0 <= n -> ~ In n (node_nums t) -> ~ doomed d t l n -> value d5 n = value d n).
  { intros n N NN ND. rewrite O5; [|auto|now rewrite DS]. rewrite O4 by auto. apply (ro_values _ _ R3); auto. }
  assert (nodev : forall x, In x (nodes t) -> value d5 (nnum x) = Ok (PDict (dict_after R x))).
  { intros x I. destruct (nodes_pos x I) as (N & NN & _). rewrite O5; [now apply N4|lia|]. rewrite DS. intro X. now apply doom_pos in X. }
  assert (G : gone R t = false) by (rewrite Et; reflexivity).
  pose proof (leaves_prune R t G) as LP.
  assert (CN : value d c = Ok (PDict cat)) by (destruct CA as (tt & r & _ & _ & (g & _ & _ & V)); exact V).
  assert (C0 : ~ In c (node_nums t)). { rewrite node_nums_map, in_map_iff. intros (x & E & I). destruct (nodes_pos x I) as (_ & _ & V & TT). rewrite E, CN in V. injection V as ->. auto. }
  assert (Cv : value d5 c = Ok (PDict cat)). { rewrite other; auto. { destruct CA as (tt & r & _ & _ & (g & _ & N & _)). lia. } intro X. apply doom_pos in X. tauto. }
  assert (Z0 : value d5 0 = value d 0). { apply other; [lia| |]. - rewrite node_nums_map, in_map_iff. intros (x & E & I). destruct (nodes_pos x I) as (N & _). lia. - intro X. apply doom_pos in X. lia. }
  constructor; auto.
  - split; [|split; [now apply sound_prune|split; [|split]]].
    + exists c, cat. split; [|split; [auto|split; [auto|split; [now rewrite tref_prune|split]]]].
      * destruct CA as (tt & r & V0 & GR & (g & Er & N & _)). exists tt, r. split; [congruence|]. split; [auto|]. exists g. auto.
      * apply (holds_prune R d); auto. intros x I NI. destruct (leaf_value d t WF x I) as (g & n & Er & En & N & V). apply other; [lia|now apply (leaf_not_node d)|].
        intro X. apply doom_pos in X. destruct X as (_ & _ & _ & X). apply NI. apply RS. exists x. split; [|auto]. now apply X.
      * rewrite Et, prune_node. eauto.
    + rewrite Et in *. rewrite prune_node. cbn [tdict] in *. rewrite dict_after_get by discriminate. exact NP.
    + assert (EM : map leaf_num (leaves (prune R t)) = map leaf_num (still R (leaves t))). { apply Forall2_map_eq. eapply Forall2_impl; [|exact LP]. intros x y [E _]. unfold leaf_num, leaf_ref. now rewrite E. }
      rewrite EM. now apply NoDup_map_filter.
    + now rewrite node_nums_prune.
  - assert (EM : map fst (leaves (prune R t)) = map fst (still R (leaves t))). { apply Forall2_map_eq. eapply Forall2_impl; [|exact LP]. now intros x y [E _]. }
    rewrite EM. apply kept_filter. intros j x N. cbn [plus]. rewrite negb_true_iff, memz_out, RS. rewrite <- (picks_indexed t l x j NDL N). split.
    + intros H P. apply H. eauto.
    + intros H (y & P & E). apply H. rewrite (leaf_eq t x y NDL (nth_error_In _ _ N) (picks_in _ _ _ P)); auto.
  - intros x' I. destruct (Forall2_in_l _ _ _ _ LP I) as (x & Ix & A). unfold still in Ix. apply filter_In in Ix. exists x. split; [tauto|]. split; [symmetry; apply A|]. now apply alike_attribute.
  - apply node_nums_prune.
  - intros n nd' I V. rewrite node_nums_map in I. apply in_map_iff in I. destruct I as (x & <- & I). destruct (nodes_pos x I) as (_ & _ & V' & _). rewrite V in V'. injection V' as ->.
    exists (dict_after R x). split; [auto|]. intros k K1 K2. now apply dict_after_get.
  - intros n X. apply V5. now apply DS.
Qed.

Section Ord.
Context (ord : list ref -> list ref) (ORD : forall l, Permutation (ord l) l).
Lemma in_ord r l : In r (ord l) <-> In r l.
Proof. split; apply Permutation_in; [|apply Permutation_sym]; auto. Qed.
Lemma remove_spec f d t leak l d' leak' : editable d -> well_formed d t -> tidy d t -> (depth t < f)%nat ->
  remove_pages ord f d leak l = Ok (d', leak') -> exists t', pages_removed d t l d' t'.
Proof.
  intros ED WF TD DF. unfold remove_pages. pose proof (editable_coherent d ED) as C.
  destruct (flat_spec t f d leak C (proj1 WF) DF) as (pl & b' & d1 & EF & R1 & L & _). rewrite EF. cbn [bind].
  destruct (Model_Filestruct.map_res (pyget pl) l) as [sel| |] eqn:ES; cbn [bind]; try discriminate.
  destruct (Model_Filestruct.map_res (fun x => ref_of (fst x)) sel) as [del| |] eqn:EL; cbn [bind]; try discriminate.
  pose proof (chosen_spec d t leak pl l sel del WF L ES EL) as CH.
  assert (EA : Model_Filestruct.map_res (fun x : obj * dict => ref_of (fst x)) pl = Ok (map lref (leaves t))).
  { assert (X : forall x, In x pl -> exists y, In y (leaves t) /\ fst x = leaf_ref y) by (intros x I; destruct (Forall2_in_l _ _ _ _ L I) as (y & Iy & E & _); eauto).
    assert (IN : forall x, In x (leaves t) -> leaf_ref x = PRef (fst (lref x)) (snd (lref x))) by (intros x I; now apply (lref_leaf d t)).
    clear - L IN. induction L as [|a b pl ls H F IH]; [reflexivity|]. cbn. destruct H as [E _]. rewrite E, (IN b (or_introl eq_refl)). cbn [ref_of bind]. rewrite IH; [|intros; apply IN; now right]. cbn [bind]. now rewrite <- surjective_pairing. }
  rewrite EA. cbn [bind].
  set (del_ref := ord (dedup del)). set (keep_ref := ord (dedup (filter (fun r => negb (Model_Docstruct.ref_in r del)) (map lref (leaves t))))).
  assert (ID : forall r, In r del_ref <-> exists x, picks t l x /\ r = lref x) by (intro r; unfold del_ref; rewrite in_ord, in_dedup; apply CH).
  pose proof WF as (_ & _ & _ & NDL & _).
  assert (IK : forall r, In r keep_ref <-> exists x, In x (leaves t) /\ ~ picks t l x /\ r = lref x).
  { intro r. unfold keep_ref. rewrite in_ord, in_dedup, filter_In, in_map_iff, negb_true_iff. split.
    - intros ((x & <- & I) & NI). exists x. split; [auto|]. split; [|auto]. intro P. assert (In (lref x) del) by (apply CH; eauto). apply ref_in_spec in H. congruence.
    - intros (x & I & NP & ->). split; [eauto|]. apply not_true_is_false. intro X. apply ref_in_spec in X. apply CH in X. destruct X as (y & P & E). apply NP. rewrite (leaf_eq t x y NDL I (picks_in _ _ _ P)); [auto|].
      destruct (lref_leaf d t x WF I) as [_ <-], (lref_leaf d t y WF (picks_in _ _ _ P)) as [_ <-]. now rewrite E. }
  assert (NNL : forall x, In x (leaves t) -> nonneg d (PRef (fst (lref x)) (snd (lref x)))).
  { intros x I g n X. destruct (lref_leaf d t x WF I) as [E _]. rewrite <- E in X. destruct (TD x g n I X). lia. }
  destruct (deps_of f d1 del_ref) as [[del_dep d2]| |] eqn:ED2; cbn [bind]; try discriminate.
  destruct (deps_of_spec f del_ref d1 del_dep d2 (ro_coherent _ _ R1)) as (R2 & S2); [|auto|].
  { intros r I. apply ID in I. destruct I as (x & P & ->). eapply nonneg_ro; [exact R1|]. apply NNL. eapply picks_in; eauto. }
  pose proof (read_only_trans _ _ _ R1 R2) as R12.
  destruct (deps_of f d2 keep_ref) as [[keep_dep d3]| |] eqn:ED3; cbn [bind]; try discriminate.
  destruct (deps_of_spec f keep_ref d2 keep_dep d3 (ro_coherent _ _ R12)) as (R3 & S3); [|auto|].
  { intros r I. apply IK in I. destruct I as (x & P & _ & ->). eapply nonneg_ro; [exact R12|]. now apply NNL. }
  pose proof (read_only_trans _ _ _ R12 R3) as R13.
  assert (ED3' : editable d3) by (eapply editable_ro; eauto). pose proof (well_formed_ro _ _ _ R13 WF) as WF3.
  destruct (each_detach f d3 t WF3 DF del_ref [] d3 (take_nothing d3 t WF3 ED3')) as (d4 & R & E4 & T4 & RS).
  { apply nodup_snd. { eapply Permutation_NoDup; [apply Permutation_sym, ORD|]. apply nodup_dedup. } intros r s Ir Is E. apply ID in Ir, Is. destruct Ir as (x & Px & ->), Is as (y & Py & ->).
    rewrite (leaf_eq t x y NDL (picks_in _ _ _ Px) (picks_in _ _ _ Py)); [auto|]. destruct (lref_leaf d t x WF (picks_in _ _ _ Px)) as [_ <-], (lref_leaf d t y WF (picks_in _ _ _ Py)) as [_ <-]. auto. }
  { intros r I. split; [intros []|]. apply ID in I. destruct I as (x & P & ->). exists x. split; [eapply picks_in; eauto|]. apply (lref_leaf d t x WF). eapply picks_in; eauto. }
  rewrite E4. cbn [bind].
  set (dl := ord (dedup (filter (fun r => negb (Model_Docstruct.ref_in r keep_dep)) del_dep))).
  assert (IDL : forall g n, In (g, n) dl <-> exists x, picks t l x /\ reaches d (leaf_ref x) (g, n) /\ forall y, In y (leaves t) -> ~ picks t l y -> ~ reaches d (leaf_ref y) (g, n)).
  { intros g n. unfold dl. rewrite in_ord, in_dedup, filter_In, negb_true_iff, S2. split.
    - intros ((s & Is & RE) & NK). apply ID in Is. destruct Is as (x & P & ->). destruct (lref_leaf d t x WF (picks_in _ _ _ P)) as [E _]. rewrite <- E in RE. apply (reaches_ro d d1) in RE; [|auto].
      exists x. split; [auto|]. split; [auto|]. intros y Iy NP RY. assert (X : In (g, n) keep_dep); [|apply ref_in_spec in X; congruence]. apply S3. exists (lref y). split; [apply IK; eauto|].
      destruct (lref_leaf d t y WF Iy) as [E' _]. rewrite <- E'. now apply (reaches_ro d d2).
    - intros (x & P & RE & NK). split.
      + exists (lref x). split; [apply ID; eauto|]. destruct (lref_leaf d t x WF (picks_in _ _ _ P)) as [E _]. rewrite <- E. now apply (reaches_ro d d1).
      + apply not_true_is_false. intro X. apply ref_in_spec in X. apply S3 in X. destruct X as (s & Is & RY). apply IK in Is. destruct Is as (y & Iy & NP & ->).
        destruct (lref_leaf d t y WF Iy) as [E' _]. rewrite <- E' in RY. apply (reaches_ro d d2) in RY; [|auto]. now apply (NK y Iy NP). }
  destruct (each (fun d r => update_object d (snd r) PNone) d4 dl) as [d5| |] eqn:E5; cbn [bind]; try discriminate. intro E. injection E as <- <-.
  destruct (each_clear dl d4 d5 (tk_editable _ _ _ _ T4)) as (ED5 & D5 & O5 & V5); [|auto|].
  { intros [g n] I. apply IDL in I. destruct I as (x & P & RE & _). cbn [snd]. now apply (TD x g n (picks_in _ _ _ P) RE). }
  exists (prune R t). eapply (remove_result d t l d3 d4 d5 R dl); eauto.
  - intro n. rewrite RS. cbn [In]. rewrite in_map_iff. split.
    + intros [(r & <- & I)|[]]. apply ID in I. destruct I as (x & P & ->). exists x. split; [auto|]. symmetry. apply (lref_leaf d t x WF). eapply picks_in; eauto.
    + intros (x & P & <-). left. exists (lref x). split; [apply (lref_leaf d t x WF); eapply picks_in; eauto|]. apply ID. eauto.
  - intro n. rewrite in_map_iff. unfold doomed. split.
    + intros ([g n'] & <- & I). apply IDL in I. destruct I as (x & H). exists g, x. exact H.
    + intros (g & x & H). exists (g, n). split; [auto|]. apply IDL. eauto.
Qed.
Lemma remove_total_ro d t : editable d -> well_formed d t -> tidy d t -> sane d t ->
  exists f0, forall f d0 leak l, read_only d d0 -> (f0 <= f)%nat -> (forall z, In z l -> - Z.of_nat (length (leaves t)) <= z < Z.of_nat (length (leaves t))) ->
  exists d' leak', remove_pages ord f d0 leak l = Ok (d', leak').
Proof.
  intros ED WF TD SA.
  destruct (deps_of_total d (map lref (leaves t))) as (f1 & DT).
  { intros r I. apply in_map_iff in I. destruct I as (x & <- & I). destruct (lref_leaf d t x WF I) as [<- _]. auto. }
  exists (Nat.max (S (depth t)) f1). intros f d0 leak l R0 LF RG. assert (DF : (depth t < f)%nat) by lia. unfold remove_pages.
  destruct (flat_spec t f d0 leak (ro_coherent _ _ R0) (proj1 (well_formed_ro _ _ _ R0 WF)) DF) as (pl & b' & d1 & EF & R1' & L & _). pose proof (read_only_trans _ _ _ R0 R1') as R1. rewrite EF. cbn [bind]. pose proof (Forall2_len _ _ _ L) as LEN.
  assert (IN : forall x, In x (leaves t) -> leaf_ref x = PRef (fst (lref x)) (snd (lref x))) by (intros x I; now apply (lref_leaf d t)).
  destruct (fmap_res_total (pyget pl) l) as (sel & ES).
  { intros z I. specialize (RG z I). destruct (z <? 0) eqn:Z0.
    - destruct (pyget_at pl z (Z.to_nat (z + Z.of_nat (length (leaves t))))) as (x & _ & G); [lia|right; lia|eauto].
    - destruct (pyget_at pl z (Z.to_nat z)) as (x & _ & G); [lia|left; lia|eauto]. }
  rewrite ES. cbn [bind].
  destruct (fmap_res_total (fun x : obj * dict => ref_of (fst x)) sel) as (del & EL).
  { intros y I. apply fmap_res2 in ES. destruct (Forall2_in_r _ _ _ _ ES I) as (z & _ & G). unfold pyget in G. destruct (pyidx pl z) as [i|]; [|discriminate]. destruct (nth_error pl i) as [y'|] eqn:N; cbn in G; [|discriminate]. injection G as ->.
    destruct (Forall2_nth _ _ _ L i y N) as (x & Nx & E & _). rewrite E, (IN x (nth_error_In _ _ Nx)). cbn [ref_of]. eauto. }
  rewrite EL. cbn [bind]. pose proof (chosen_spec d t leak pl l sel del WF L ES EL) as CH.
  assert (EA : Model_Filestruct.map_res (fun x : obj * dict => ref_of (fst x)) pl = Ok (map lref (leaves t))).
  { clear - L IN. induction L as [|a b pl ls H F IH]; [reflexivity|]. cbn. destruct H as [E _]. rewrite E, (IN b (or_introl eq_refl)). cbn [ref_of bind]. rewrite IH; [|intros; apply IN; now right]. cbn [bind]. now rewrite <- surjective_pairing. }
  rewrite EA. cbn [bind].
  set (del_ref := ord (dedup del)). set (keep_ref := ord (dedup (filter (fun r => negb (Model_Docstruct.ref_in r del)) (map lref (leaves t))))).
  assert (ID : forall r, In r del_ref <-> exists x, picks t l x /\ r = lref x) by (intro r; unfold del_ref; rewrite in_ord, in_dedup; apply CH).
  assert (I1 : incl del_ref (map lref (leaves t))). { intros r I. apply ID in I. destruct I as (x & P & ->). apply in_map. eapply picks_in; eauto. }
  assert (I2 : incl keep_ref (map lref (leaves t))). { intros r I. unfold keep_ref in I. rewrite in_ord, in_dedup, filter_In in I. tauto. }
  assert (NNL : forall r, In r (map lref (leaves t)) -> nonneg d (PRef (fst r) (snd r))).
  { intros r I. apply in_map_iff in I. destruct I as (x & <- & I). rewrite <- (IN x I). apply resolved_nonneg. now apply SA. }
  destruct (DT f d1 ltac:(lia) R1 del_ref I1) as ([del_dep d2] & ED2). rewrite ED2. cbn [bind].
  destruct (deps_of_spec f del_ref d1 del_dep d2 (ro_coherent _ _ R1)) as (R2 & S2); [intros r I; eapply nonneg_ro; eauto|auto|]. pose proof (read_only_trans _ _ _ R1 R2) as R12.
  destruct (DT f d2 ltac:(lia) R12 keep_ref I2) as ([keep_dep d3] & ED3). rewrite ED3. cbn [bind].
  destruct (deps_of_spec f keep_ref d2 keep_dep d3 (ro_coherent _ _ R12)) as (R3 & S3); [intros r I; eapply nonneg_ro; eauto|auto|]. pose proof (read_only_trans _ _ _ R12 R3) as R13.
  assert (ED3' : editable d3) by (eapply editable_ro; eauto). pose proof (well_formed_ro _ _ _ R13 WF) as WF3. pose proof WF as (_ & _ & _ & NDL & _).
  destruct (each_detach f d3 t WF3 DF del_ref [] d3 (take_nothing d3 t WF3 ED3')) as (d4 & R & E4 & T4 & RS).
  { apply nodup_snd. { eapply Permutation_NoDup; [apply Permutation_sym, ORD|]. apply nodup_dedup. } intros r s Ir Is E. apply ID in Ir, Is. destruct Ir as (x & Px & ->), Is as (y & Py & ->).
    rewrite (leaf_eq t x y NDL (picks_in _ _ _ Px) (picks_in _ _ _ Py)); [auto|]. destruct (lref_leaf d t x WF (picks_in _ _ _ Px)) as [_ <-], (lref_leaf d t y WF (picks_in _ _ _ Py)) as [_ <-]. auto. }
  { intros r I. split; [intros []|]. apply ID in I. destruct I as (x & P & ->). exists x. split; [eapply picks_in; eauto|]. apply (lref_leaf d t x WF). eapply picks_in; eauto. }
  rewrite E4. cbn [bind].
  destruct (each_clear_total (ord (dedup (filter (fun r => negb (Model_Docstruct.ref_in r keep_dep)) del_dep))) d4 (tk_editable _ _ _ _ T4)) as (d5 & E5).
  { intros [g n] I. cbn [snd]. rewrite in_ord, in_dedup, filter_In in I. destruct I as [I _]. apply S2 in I. destruct I as (s & Is & RE). apply ID in Is. destruct Is as (x & P & ->).
    pose proof (picks_in _ _ _ P) as Ix. rewrite <- (IN x Ix) in RE. apply (reaches_ro d d1) in RE; [|auto]. destruct (TD x g n Ix RE) as (N & NN & _). destruct (SA x Ix) as [_ RX]. destruct (RX g n RE) as [_ [v V]].
    split; [auto|]. intros row O. eapply (value_range d4 n v); [lia| |exact O]. rewrite (tk_other _ _ _ _ T4) by (lia || auto). rewrite (ro_values _ _ R13) by lia. exact V. }
  rewrite E5. cbn [bind]. eauto.
Qed.
Lemma remove_total d t : editable d -> well_formed d t -> tidy d t -> sane d t ->
  exists f0, forall f leak l, (f0 <= f)%nat -> (forall z, In z l -> - Z.of_nat (length (leaves t)) <= z < Z.of_nat (length (leaves t))) ->
  exists d' leak', remove_pages ord f d leak l = Ok (d', leak').
Proof. intros ED WF TD SA. destruct (remove_total_ro d t ED WF TD SA) as (f0 & H). exists f0. intros f leak l. apply H. apply read_only_refl. now apply editable_coherent. Qed.

(* number_pages is the number of leaves, for a sound tree *)
Lemma number_spec d t : coherent d -> well_formed d t -> exists d1, number_pages d = Ok (PInt (Z.of_nat (length (leaves t))), d1) /\ read_only d d1.
Proof.
  intros C ((c & cat & CA & _ & _ & PG & HO & (o & nd & kids & Et)) & SO & _). unfold number_pages. destruct (catalog_read d c cat C CA) as (g & dc & EC & RC). rewrite EC. cbn [bind].
  unfold item. cbn [of_opt]. rewrite PG. cbn [of_opt bind]. rewrite Et in *. inversion HO as [|? n ? ? P T K FH]; subst. inversion SO as [|? ? ? CT _ _]; subst.
  destruct (points_read dc (tref (Node o nd kids)) n _ (ro_coherent _ _ RC) (points_ro _ _ _ _ _ RC P)) as (dn & G & R). rewrite G. cbn [bind]. rewrite CT. cbn [of_opt bind]. eexists. split; [reflexivity|]. eapply read_only_trans; eauto.
Qed.
(* the same tree, seen after some reads *)
Lemma picks_ext t l l' : (forall i, (i < length (leaves t))%nat -> indexed (length (leaves t)) l i <-> indexed (length (leaves t)) l' i) -> forall x, picks t l x <-> picks t l' x.
Proof. intros H x. split; intros (i & N & I); exists i; (split; [auto|]); (apply H; [apply nth_error_Some; congruence|auto]). Qed.
Lemma kept_ext {A} (P Q : nat -> Prop) (l : list A) : forall m i, (forall j, (i <= j < i + length l)%nat -> P j <-> Q j) -> kept P i l m -> kept Q i l m.
Proof.
  intros m i H K. revert H. induction K as [i|i x l m HP K IH|i x l m HP K IH]; intro H; [constructor| |].
  - apply Ke_keep; [apply H; [cbn; lia|auto]|]. apply IH. intros j J. apply H. cbn. lia.
  - apply Ke_drop; [rewrite <- H; [auto|cbn; lia]|]. apply IH. intros j J. apply H. cbn. lia.
Qed.
Lemma doomed_ext d t l l' n : (forall x, picks t l x <-> picks t l' x) -> doomed d t l n <-> doomed d t l' n.
Proof. intro H. unfold doomed. split; intros (g & x & P & RE & N); exists g, x; (split; [now apply H|]); (split; [auto|]); intros y I NP; apply N; auto; now rewrite H || now rewrite <- H. Qed.
Lemma removed_ext d t l l' d' t' : (forall i, (i < length (leaves t))%nat -> indexed (length (leaves t)) l i <-> indexed (length (leaves t)) l' i) ->
  pages_removed d t l d' t' -> pages_removed d t l' d' t'.
Proof.
  intros H [P1 P2 P3 P4 P5 P6 P7 P8]. pose proof (picks_ext t l l' H) as PE. constructor; auto.
  - eapply kept_ext; [|exact P3]. intros j J. rewrite map_length in J. cbn beta. rewrite (H j (proj2 J)). tauto.
  - intros n X. apply P7. now apply (doomed_ext d t l l').
  - intros n N NN X. apply P8; auto. intro Y. apply X. now apply (doomed_ext d t l l').
Qed.
Lemma removed_ro d d1 t l d' t' : read_only d d1 -> pages_removed d1 t l d' t' -> (forall n, In n (node_nums t) -> 0 <= n) -> pages_removed d t l d' t'.
Proof.
  intros R [P1 P2 P3 P4 P5 P6 P7 P8] NN. assert (DE : forall n, doomed d1 t l n <-> doomed d t l n).
  { intro n. unfold doomed. split; intros (g & x & P & RE & N); exists g, x; (split; [auto|]); (split; [now apply (reaches_ro d d1)|]); intros y I NP X; apply (N y I NP); now apply (reaches_ro d d1). }
  constructor; auto.
  - intros n nd I V. apply P6; auto. rewrite (ro_values _ _ R); auto.
  - intros n X. apply P7. now apply DE.
  - intros n N NI X. rewrite P8; auto. { now apply (ro_values _ _ R). } now rewrite DE.
Qed.
Lemma node_nums_pos d t : well_formed d t -> forall n, In n (node_nums t) -> 0 <= n.
Proof.
  intros ((c & cat & _ & _ & _ & _ & HO & _) & SO & _) n I. rewrite node_nums_map in I. apply in_map_iff in I. destruct I as (x & <- & I). destruct (node_props d t HO SO x I) as ((g & n & E & N & V) & _). unfold nnum. rewrite E. lia.
Qed.
Lemma tidy_ro d d1 t : read_only d d1 -> tidy d t -> tidy d1 t.
Proof.
  intros R TD x g n I RE. apply (reaches_ro d d1) in RE; [|auto]. destruct (TD x g n I RE) as (N & NN & NC & NL). split; [auto|]. split; [auto|]. split; [|auto]. intros c cat CA. apply (NC c cat).
  destruct CA as (tt & r & V & G & P). exists tt, r. split; [rewrite <- (ro_values _ _ R); [auto|lia]|]. split; [auto|]. destruct P as (g' & Er & Nc & Vc). exists g'. split; [auto|]. split; [auto|]. rewrite <- (ro_values _ _ R); [auto|lia].
Qed.
Definition dropped (n : nat) (keep : list Z) : list Z := filter (fun i => negb (existsb (Z.eqb i) keep)) (zseq 0 n).
Lemma dropped_in n keep z : In z (dropped n keep) <-> 0 <= z < Z.of_nat n /\ ~ In z keep.
Proof. unfold dropped. rewrite filter_In, negb_true_iff, in_zseq. fold (memz z keep). rewrite memz_out. intuition lia. Qed.
Lemma dropped_indexed n keep i : (i < n)%nat -> indexed n (dropped n keep) i <-> ~ In (Z.of_nat i) keep.
Proof.
  intro L. unfold indexed. split.
  - intros (z & I & H). apply dropped_in in I. destruct H as [->| ->]; [tauto|lia].
  - intro H. exists (Z.of_nat i). split; [|auto]. apply dropped_in. split; [lia|auto].
Qed.
(* keep_pages keeps the pages whose numbers, from 0, are in the list *)
Lemma keep_spec f d t leak keep d' leak' : editable d -> well_formed d t -> tidy d t -> (depth t < f)%nat ->
  keep_pages ord f d leak keep = Ok (d', leak') -> exists t', pages_removed d t (dropped (length (leaves t)) keep) d' t'.
Proof.
  intros ED WF TD DF. unfold keep_pages. destruct (number_spec d t (editable_coherent d ED) WF) as (d1 & E & R). rewrite E. cbn [bind]. rewrite Nat2Z.id. intro H.
  destruct (remove_spec f d1 t leak _ d' leak' (editable_ro _ _ ED R) (well_formed_ro _ _ _ R WF) (tidy_ro _ _ _ R TD) DF H) as (t' & P). exists t'. eapply removed_ro; eauto. eapply node_nums_pos; eauto.
Qed.
Lemma sane_ro d d1 t : read_only d d1 -> sane d t -> sane d1 t.
Proof.
  intros R S x I. destruct (S x I) as [A RS]. split; [|eapply resolved_ro; eauto]. induction A as [o _ IH]. constructor. intros o' F. apply (follows_ro d d1) in F; [|auto]. apply IH; auto. eapply resolved_step; eauto.
Qed.
Lemma keep_total d t : editable d -> well_formed d t -> tidy d t -> sane d t ->
  exists f0, forall f leak keep, (f0 <= f)%nat -> exists d' leak', keep_pages ord f d leak keep = Ok (d', leak').
Proof.
  intros ED WF TD SA. unfold keep_pages. destruct (number_spec d t (editable_coherent d ED) WF) as (d1 & E & R). rewrite E. cbn [bind]. rewrite Nat2Z.id.
  destruct (remove_total d1 t (editable_ro _ _ ED R) (well_formed_ro _ _ _ R WF) (tidy_ro _ _ _ R TD) (sane_ro _ _ _ R SA)) as (f0 & H). exists f0. intros f leak keep LE. apply H; auto.
  intros z I. apply dropped_in in I. lia.
Qed.
Lemma keep_total_ro d t : editable d -> well_formed d t -> tidy d t -> sane d t ->
  exists f0, forall f d0 leak keep, read_only d d0 -> (f0 <= f)%nat -> exists d' leak', keep_pages ord f d0 leak keep = Ok (d', leak').
Proof.
  intros ED WF TD SA. destruct (remove_total_ro d t ED WF TD SA) as (f0 & H). exists f0. intros f d0 leak keep R LE. unfold keep_pages.
  destruct (number_spec d0 t (ro_coherent _ _ R) (well_formed_ro _ _ _ R WF)) as (d1 & E & R1). rewrite E. cbn [bind]. rewrite Nat2Z.id. apply H; auto; [eapply read_only_trans; eauto|].
  intros x I. apply dropped_in in I. lia.
Qed.
Lemma key_spec n k : 0 <= n -> match k with KInt _ => n <> 0 | KSlice _ _ s => s <> Some 0 end -> exists l, key_pages n k = Ok l /\ forall j, In j l <-> selects n k j.
Proof.
  intros N K. destruct k as [i|a b s].
  - unfold key_pages. replace (n =? 0) with false by lia. eexists. split; [reflexivity|]. intro j. cbn [In selects]. intuition.
  - destruct (slice_pages n a b s N K) as (l & E & H). exists l. split; [exact E|]. exact H.
Qed.
Lemma getitem_spec f d t leak k d' leak' : editable d -> well_formed d t -> tidy d t -> (depth t < f)%nat ->
  getitem ord f d leak k = Ok (d', leak') ->
  exists t' l, (forall j, In j l <-> 0 <= j < Z.of_nat (length (leaves t)) /\ ~ selects (Z.of_nat (length (leaves t))) k j) /\ pages_removed d t l d' t'.
Proof.
  intros ED WF TD DF. unfold getitem. destruct (number_spec d t (editable_coherent d ED) WF) as (d1 & E & R). rewrite E. cbn [bind].
  destruct (key_pages (Z.of_nat (length (leaves t))) k) as [l| |] eqn:KP; cbn [bind]; try discriminate. intro H.
  assert (KS : match k with KInt _ => Z.of_nat (length (leaves t)) <> 0 | KSlice _ _ s => s <> Some 0 end).
  { destruct k as [i|a b s]; cbn in KP; [destruct (Z.of_nat (length (leaves t)) =? 0) eqn:Z0; [discriminate|lia]|]. intros ->. cbn in KP. discriminate. }
  destruct (key_spec (Z.of_nat (length (leaves t))) k ltac:(lia) KS) as (l' & E' & IL). rewrite KP in E'. injection E' as <-.
  destruct (keep_spec f d1 t leak l d' leak' (editable_ro _ _ ED R) (well_formed_ro _ _ _ R WF) (tidy_ro _ _ _ R TD) DF H) as (t' & P).
  exists t', (dropped (length (leaves t)) l). split; [intro j; rewrite dropped_in, IL; tauto|]. eapply removed_ro; eauto. eapply node_nums_pos; eauto.
Qed.
Lemma getitem_total d t : editable d -> well_formed d t -> tidy d t -> sane d t ->
  exists f0, forall f leak k, (f0 <= f)%nat -> match k with KInt _ => leaves t <> [] | KSlice _ _ s => s <> Some 0 end -> exists d' leak', getitem ord f d leak k = Ok (d', leak').
Proof.
  intros ED WF TD SA. unfold getitem. destruct (number_spec d t (editable_coherent d ED) WF) as (d1 & E & R). rewrite E. cbn [bind].
  destruct (keep_total d1 t (editable_ro _ _ ED R) (well_formed_ro _ _ _ R WF) (tidy_ro _ _ _ R TD) (sane_ro _ _ _ R SA)) as (f0 & H). exists f0. intros f leak k LE KS.
  destruct (key_spec (Z.of_nat (length (leaves t))) k ltac:(lia)) as (l & EK & _); [destruct k; [destruct (leaves t); [now contradiction KS|cbn; lia]|auto]|]. rewrite EK. cbn [bind]. now apply H.
Qed.
End Ord.
End WithZlib.
