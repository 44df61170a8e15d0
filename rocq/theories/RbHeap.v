(** Trees laid out in memory: cells, contexts, and the effect of the
    assignments and rotations of RbTree.v. *)
From Coq Require Import ZArith List Bool Lia Permutation ZifyBool.
From Verif Require Import Base RbTree.
Import ListNotations.
Local Open Scope Z_scope.

(** the tree drawn by the pointers; not code *)
Inductive tree :=
| E
| T (c : bool) (a k u : Z) (l r : tree).

(** address of the root; not code *)
Definition rt (t : tree) : Z := match t with E => 0 | T _ a _ _ _ _ => a end.

(** not code *)
Definition isr (t : tree) : bool :=
  match t with E => false | T c _ _ _ _ _ => c end.

(** a cell of memory; not code *)
Definition cell := (Z * node)%type.

(** the cells of a tree whose parent is [p]; not code *)
Fixpoint cells (p : Z) (t : tree) : list cell :=
  match t with
  | E => []
  | T c a k u l r => (a, Nd p (rt l) (rt r) c k u) :: cells a l ++ cells a r
  end.

(** a step of a path, the hole being the left or the right child; not code *)
Inductive frame :=
| FL (c : bool) (a k u : Z) (r : tree)
| FR (c : bool) (a k u : Z) (l : tree).

(** not code *)
Definition fa (f : frame) : Z := match f with FL _ a _ _ _ | FR _ a _ _ _ => a end.

(** path, innermost first; not code *)
Definition zip := list frame.

(** not code *)
Definition put (f : frame) (t : tree) : tree :=
  match f with FL c a k u r => T c a k u t r | FR c a k u l => T c a k u l t end.

(** not code *)
Fixpoint plug (z : zip) (t : tree) : tree :=
  match z with [] => t | f :: z => plug z (put f t) end.

(** parent of the hole; not code *)
Definition pz (p : Z) (z : zip) : Z := match z with [] => p | f :: _ => fa f end.

(** root of the whole, [h] being the root of what is in the hole; not code *)
Fixpoint top (z : zip) (h : Z) : Z :=
  match z with [] => h | f :: z => top z (fa f) end.

(** cells around a hole; not code *)
Fixpoint cctx (p : Z) (z : zip) (h : Z) : list cell :=
  match z with
  | [] => []
  | FL c a k u r :: z =>
    (a, Nd (pz p z) h (rt r) c k u) :: cells a r ++ cctx p z a
  | FR c a k u l :: z =>
    (a, Nd (pz p z) (rt l) h c k u) :: cells a l ++ cctx p z a
  end.

Lemma nodup_r A (l l' : list A) : NoDup (l ++ l') -> NoDup l.
Proof.
  induction l as [|x l IH]; intros H; [constructor|].
  inversion H; subst. constructor; [|auto].
  intros Hi. apply H2. apply in_or_app. now left.
Qed.
Lemma nodup_l A (l l' : list A) : NoDup (l ++ l') -> NoDup l'.
Proof.
  induction l as [|x l IH]; intros H; [exact H|]. inversion H; subst. auto.
Qed.

Lemma node_dec (x y : node) : {x = y} + {x <> y}.
Proof. decide equality; try apply Z.eq_dec; apply bool_dec. Defined.
Lemma cell_dec (x y : cell) : {x = y} + {x <> y}.
Proof. decide equality; [apply node_dec|apply Z.eq_dec]. Defined.

(** not code *)
Definition cn (x : cell) (L : list cell) : nat := count_occ cell_dec L x.
(** not code *)
Definition c1 (x y : cell) : nat := if cell_dec y x then 1 else 0.
Lemma cn_cons x y L : cn x (y :: L) = (c1 x y + cn x L)%nat.
Proof. unfold cn, c1. cbn. destruct cell_dec; lia. Qed.
Lemma cn_app x L L' : cn x (L ++ L') = (cn x L + cn x L')%nat.
Proof. unfold cn. apply count_occ_app. Qed.
Lemma cn_nil x : cn x [] = 0%nat.
Proof. reflexivity. Qed.
Lemma cn_perm L L' : (forall x, cn x L = cn x L') -> Permutation L L'.
Proof. intros H. now apply (Permutation_count_occ cell_dec). Qed.
Lemma perm_cn L L' : Permutation L L' -> forall x, cn x L = cn x L'.
Proof. intros H. now apply (Permutation_count_occ cell_dec). Qed.

Ltac perm :=
  cbn [cells cctx pz fa rt app];
  apply cn_perm; let x := fresh "x" in intro x;
  repeat rewrite ?cn_app, ?cn_cons, ?cn_nil; lia.

(** the cells of [L] are in memory, at distinct non-null addresses; not code *)
Definition hp (m : mem) (L : list cell) : Prop :=
  NoDup (map fst L) /\ Forall (fun x => fst x <> 0 /\ m (fst x) = Some (snd x)) L.

Lemma hp_perm m L L' : hp m L -> Permutation L L' -> hp m L'.
Proof.
  intros [Hd Hf] Hp. split.
  - eapply Permutation_NoDup; [|apply Hd]. now apply Permutation_map.
  - rewrite Forall_forall in *. intros x Hx. apply Hf.
    eapply Permutation_in; [|apply Hx]. now apply Permutation_sym.
Qed.

Lemma hp_get m a n L : hp m ((a, n) :: L) -> get m a = Ok n /\ a <> 0.
Proof.
  intros [_ Hf]. apply Forall_inv in Hf. cbn in Hf. destruct Hf as [H0 H1].
  split; [|easy]. unfold get. rewrite H1. destruct (Z.eqb_spec a 0); easy.
Qed.

Lemma hp_upd m a n n' L : hp m ((a, n) :: L) -> hp (upd m a n') ((a, n') :: L).
Proof.
  intros [Hd Hf]. split; [exact Hd|].
  pose proof (Forall_inv Hf) as H0. apply Forall_inv_tail in Hf.
  constructor.
  - cbn. unfold upd. rewrite Z.eqb_refl. split; [now destruct H0|easy].
  - rewrite Forall_forall in *. intros x Hx. destruct (Hf x Hx) as [H1 H2].
    split; [easy|]. unfold upd. destruct (Z.eqb_spec (fst x) a) as [He|]; [|easy].
    exfalso. cbn in Hd. inversion_clear Hd as [|? ? Hn _]. apply Hn. rewrite <- He.
    now apply in_map.
Qed.

Lemma hp_sub m L L' : hp m (L ++ L') -> hp m L.
Proof.
  intros [Hd Hf]. split.
  - rewrite map_app in Hd. eapply nodup_r; exact Hd.
  - now apply Forall_app in Hf.
Qed.

Lemma hp_new m a n L : a <> 0 -> m a = None -> hp m L -> hp (upd m a n) ((a, n) :: L).
Proof.
  intros H0 Hn [Hd Hf]. split.
  - cbn. constructor; [|easy]. intros Hi. apply in_map_iff in Hi.
    destruct Hi as ([a' n'] & He & Hi). cbn in He. subst a'.
    rewrite Forall_forall in Hf. apply Hf in Hi. cbn in Hi. destruct Hi. congruence.
  - constructor.
    + cbn. split; [easy|]. unfold upd. now rewrite Z.eqb_refl.
    + rewrite Forall_forall in *. intros x Hx. destruct (Hf x Hx) as [H1 H2].
      split; [easy|]. unfold upd. destruct (Z.eqb_spec (fst x) a) as [He|]; [|easy].
      congruence.
Qed.

Lemma hp_neq m a n b n' L : hp m ((a, n) :: (b, n') :: L) -> a <> b.
Proof.
  intros [Hd _] He. cbn in Hd. inversion_clear Hd as [|? ? Hn _]. apply Hn. now left.
Qed.

Ltac hperm H := eapply hp_perm; [exact H|perm].

Lemma hp_in m a n L : hp m L -> In (a, n) L -> get m a = Ok n /\ a <> 0.
Proof.
  intros H Hi. apply in_split in Hi. destruct Hi as (L1 & L2 & ->).
  apply hp_get with (L := L1 ++ L2). hperm H.
Qed.
Lemma cn_in x L : (0 < cn x L)%nat -> In x L.
Proof. intros H. now apply (count_occ_In cell_dec). Qed.
Lemma c1_refl x : c1 x x = 1%nat.
Proof. unfold c1. now destruct cell_dec. Qed.

Ltac hin :=
  apply cn_in; cbn [cells cctx pz fa rt app];
  repeat rewrite ?cn_app, ?cn_cons, ?cn_nil; rewrite ?c1_refl; lia.

(** ** plugging *)

Lemma rt_plug z t : rt (plug z t) = top z (rt t).
Proof.
  revert t. induction z as [|f z IH]; intros t; [reflexivity|].
  cbn. rewrite IH. now destruct f.
Qed.

Lemma cells_plug p z t :
  Permutation (cells p (plug z t)) (cctx p z (rt t) ++ cells (pz p z) t).
Proof.
  revert t. induction z as [|f z IH]; intros t; [reflexivity|].
  cbn [plug]. eapply Permutation_trans; [apply IH|]. destruct f; cbn [put]; perm.
Qed.

Lemma plug_app z z' t : plug (z ++ z') t = plug z' (plug z t).
Proof. revert t. induction z as [|f z IH]; intros t; [reflexivity|]. cbn. apply IH. Qed.

Lemma cctx_app p z z' h :
  Permutation (cctx p (z ++ z') h) (cctx (pz p z') z h ++ cctx p z' (top z h)).
Proof.
  revert h. induction z as [|f z IH]; intros h; [reflexivity|].
  assert (Hp : pz p (z ++ z') = pz (pz p z') z) by now destruct z.
  apply cn_perm; intro x. pose proof (perm_cn _ _ (IH (fa f)) x) as H.
  destruct f; cbn [cctx app top fa] in *; rewrite Hp;
    repeat rewrite ?cn_app, ?cn_cons in *; lia.
Qed.

(** the state holds the tree; not code *)
Definition R (s : state) (t : tree) : Prop :=
  hp (heap s) (cells 0 t) /\ root s = rt t.

Lemma R_hp s z t : R s (plug z t) ->
  hp (heap s) (cctx 0 z (rt t) ++ cells (pz 0 z) t) /\ root s = top z (rt t).
Proof.
  intros [H1 H2]. split; [|now rewrite H2, rt_plug].
  eapply hp_perm; [apply H1|apply cells_plug].
Qed.

Lemma hp_R m r z t :
  hp m (cctx 0 z (rt t) ++ cells (pz 0 z) t) -> r = top z (rt t) ->
  R (St m r) (plug z t).
Proof.
  intros H1 H2. split; cbn [heap root]; [|now rewrite rt_plug].
  eapply hp_perm; [apply H1|]. apply Permutation_sym, cells_plug.
Qed.

(** ** reading *)

Lemma R_get s z c a k u l r : R s (plug z (T c a k u l r)) ->
  get (heap s) a = Ok (Nd (pz 0 z) (rt l) (rt r) c k u) /\ a <> 0.
Proof.
  intros H. apply R_hp in H. destruct H as [H _].
  eapply hp_in; [exact H|hin].
Qed.

Lemma R_isr s z t : R s (plug z t) -> isRed (heap s) (rt t) = Ok (isr t).
Proof.
  intros H. destruct t as [|c a k u l r]; [reflexivity|].
  unfold isRed. cbn [rt]. destruct (R_get _ _ _ _ _ _ _ _ H) as [-> Hn]. cbn.
  now destruct (Z.eqb_spec a 0).
Qed.

Lemma R_root_nz s t : R s t -> t <> E -> root s <> 0.
Proof.
  intros H Ht. destruct t as [|c a k u l r]; [easy|].
  pose proof (R_get s [] c a k u l r H) as [_ Hn]. destruct H as [_ ->]. exact Hn.
Qed.

Lemma R_left_ne s z c a k u l r : R s (plug z (T c a k u l r)) -> r <> E -> rt l <> rt r.
Proof.
  intros H Hr He. destruct r as [|c' b k' u' l' r']; [easy|].
  pose proof (R_get s (FR c a k u l :: z) c' b k' u' l' r' H) as [_ Hb].
  destruct l as [|c2 a2 k2 u2 l2 r2]; [cbn in He; congruence|].
  cbn [rt] in He. apply R_hp in H. destruct H as [H _].
  assert (H' : hp (heap s) ((a2, Nd a (rt l2) (rt r2) c2 k2 u2)
     :: (b, Nd a (rt l') (rt r') c' k' u') :: (cctx 0 z a ++
         (a, Nd (pz 0 z) a2 b c k u) :: cells a2 l2 ++ cells a2 r2 ++ cells b l' ++ cells b r')))
    by hperm H.
  apply hp_neq in H'. easy.
Qed.

Lemma R_in_frame s z f t : R s (plug (f :: z) t) -> rt t <> fa f.
Proof.
  intros H. destruct t as [|c a k u l r].
  - cbn [plug] in H. destruct f as [c a k u r|c a k u l];
      apply R_get in H; cbn; intros <-; now destruct H.
  - apply R_hp in H. destruct H as [H _]. destruct f as [c' b k' u' q|c' b k' u' q]; cbn [fa rt].
    + assert (H' : hp (heap s) ((a, Nd b (rt l) (rt r) c k u)
        :: (b, Nd (pz 0 z) a (rt q) c' k' u') :: (cells b q ++ cctx 0 z b ++ cells a l ++ cells a r)))
        by hperm H. now apply hp_neq in H'.
    + assert (H' : hp (heap s) ((a, Nd b (rt l) (rt r) c k u)
        :: (b, Nd (pz 0 z) (rt q) a c' k' u') :: (cells b q ++ cctx 0 z b ++ cells a l ++ cells a r)))
        by hperm H. now apply hp_neq in H'.
Qed.

(** the addresses in a tree; not code *)
Fixpoint addrs (t : tree) : list Z :=
  match t with E => [] | T _ a _ _ l r => addrs l ++ a :: addrs r end.

Lemma cells_addrs p t : Permutation (map fst (cells p t)) (addrs t).
Proof.
  revert p. induction t as [|c a k u l IHl r IHr]; intros p; [reflexivity|].
  cbn. rewrite map_app. rewrite (IHl a), (IHr a). apply Permutation_middle.
Qed.

Lemma R_nodup s t : R s t -> NoDup (addrs t).
Proof.
  intros [[H _] _]. eapply Permutation_NoDup; [apply (cells_addrs 0)|exact H].
Qed.

Lemma R_not_root s z f t : R s (plug (f :: z) t) -> rt t <> root s.
Proof.
  intros H He. pose proof (R_nodup _ _ H) as Hd. destruct (R_hp _ _ _ H) as [_ Hr].
  rewrite Hr in He. clear Hr.
  destruct t as [|c a k u l r].
  - destruct H as [H1 H2]. rewrite rt_plug in H2. rewrite <- H2 in He.
    assert (Hn : plug (f :: z) E <> E).
    { cbn. clear. destruct f; cbn; match goal with |- plug z ?t <> E =>
        assert (Ht : t <> E) by easy; revert Ht; generalize t end;
      induction z as [|g z IH]; cbn; intros t' Ht; try easy;
      apply IH; now destruct g. }
    apply (R_root_nz s (plug (f :: z) E)); [|easy|].
    { split; [easy|]. rewrite rt_plug. easy. }
    now rewrite <- He.
  - clear H. cbn [rt] in He. cbn [plug] in Hd. cbn [top] in He.
    assert (Hin : In (top z (fa f)) (addrs (plug z (put f E)))
                  \/ True) by now right. clear Hin.
    assert (G : forall z t b, In b (addrs t) -> b <> rt t -> NoDup (addrs (plug z t)) ->
                b <> top z (rt t)).
    { clear. induction z as [|g z IH]; intros t b Hb Hn Hd; [easy|].
      cbn [plug top] in *.
      assert (Hd' : NoDup (addrs (put g t))).
      { revert Hd. generalize (put g t). clear. induction z as [|g z IH]; intros t Hd; [easy|].
        cbn in Hd. apply IH in Hd. destruct g; cbn in Hd.
        - eapply nodup_r; exact Hd.
        - apply nodup_l in Hd. now inversion_clear Hd. }
      replace (fa g) with (rt (put g t)) by now destruct g.
      apply IH; [|destruct g; cbn|exact Hd].
      - destruct g; cbn; apply in_or_app; [now left|right; now right].
      - intros ->. cbn in Hd'. apply NoDup_remove_2 in Hd'. apply Hd'. apply in_or_app. now left.
      - intros ->. cbn in Hd'. apply NoDup_remove_2 in Hd'. apply Hd'. apply in_or_app. now right. }
    assert (Hd' : NoDup (addrs (put f (T c a k u l r)))).
    { revert Hd. generalize (put f (T c a k u l r)). clear. induction z as [|g z IH]; intros t Hd; [easy|].
      cbn in Hd. apply IH in Hd. destruct g; cbn in Hd.
      - eapply nodup_r; exact Hd.
      - apply nodup_l in Hd. now inversion_clear Hd. }
    specialize (G z (put f (T c a k u l r)) a).
    replace (rt (put f (T c a k u l r))) with (fa f) in G by now destruct f.
    apply G; [| |easy|easy].
    + destruct f; cbn; repeat (rewrite in_app_iff; cbn); tauto.
    + intros Ha. destruct f; cbn in *; subst a; cbn in Hd'; apply NoDup_remove_2 in Hd';
        apply Hd'; repeat (rewrite in_app_iff; cbn); tauto.
Qed.

(** ** results with a postcondition; not code *)
Definition ok {A} (o : outcome A) (Q : A -> Prop) : Prop := exists x, o = Ok x /\ Q x.

Lemma ok_bind A B (o : outcome A) (f : A -> outcome B) Q Q' :
  ok o Q -> (forall x, Q x -> ok (f x) Q') -> ok (obind o f) Q'.
Proof. intros (x & -> & Hx) H. cbn. now apply H. Qed.
Lemma ok_ret A (x : A) (Q : A -> Prop) : Q x -> ok (Ok x) Q.
Proof. intros H. now exists x. Qed.
Lemma ok_mono A (o : outcome A) (Q Q' : A -> Prop) :
  ok o Q -> (forall x, Q x -> Q' x) -> ok o Q'.
Proof. intros (x & -> & Hx) H. exists x. auto. Qed.

(** ** one assignment *)

Lemma R_color s z c a k u l r v : R s (plug z (T c a k u l r)) ->
  ok (color a v s) (fun s' => R s' (plug z (T v a k u l r))).
Proof.
  intros H. destruct (R_get _ _ _ _ _ _ _ _ H) as [Hg Hn]. destruct (R_hp _ _ _ H) as [Hh Hr].
  unfold color, setC. rewrite Hg. cbn. apply ok_ret. apply hp_R; [|exact Hr].
  assert (H' : hp (heap s) ((a, Nd (pz 0 z) (rt l) (rt r) c k u)
     :: cells a l ++ cells a r ++ cctx 0 z a)) by hperm Hh.
  apply hp_upd with (n' := Nd (pz 0 z) (rt l) (rt r) v k u) in H'. hperm H'.
Qed.

Lemma R_usage s z c a k u l r v : R s (plug z (T c a k u l r)) ->
  ok (setUsage a v s) (fun s' => R s' (plug z (T c a k v l r))).
Proof.
  intros H. destruct (R_get _ _ _ _ _ _ _ _ H) as [Hg Hn]. destruct (R_hp _ _ _ H) as [Hh Hr].
  unfold setUsage. rewrite Hg. cbn. apply ok_ret. apply hp_R; [|exact Hr].
  assert (H' : hp (heap s) ((a, Nd (pz 0 z) (rt l) (rt r) c k u)
     :: cells a l ++ cells a r ++ cctx 0 z a)) by hperm Hh.
  apply hp_upd with (n' := Nd (pz 0 z) (rt l) (rt r) c k v) in H'. hperm H'.
Qed.

(** a tree with its root made black; not code *)
Definition blacken (t : tree) : tree :=
  match t with E => E | T _ a k u l r => T false a k u l r end.

Lemma R_blackIf s z t : R s (plug z t) ->
  ok (blackIf (rt t) s) (fun s' => R s' (plug z (blacken t))).
Proof.
  intros H. destruct t as [|c a k u l r]; [now apply ok_ret|].
  unfold blackIf. cbn [rt]. destruct (R_get _ _ _ _ _ _ _ _ H) as [_ Hn].
  destruct (Z.eqb_spec a 0); [easy|]. now apply R_color with (c := c).
Qed.

(** [if (p) p->rb_parent = v] on the root of a subtree *)
Lemma setParIf_ok m p v t L :
  hp m (cells p t ++ L) ->
  ok (setParIf (rt t) v m) (fun m' => hp m' (cells v t ++ L)).
Proof.
  intros H. destruct t as [|c a k u l r]; cbn [rt setParIf]; [now apply ok_ret|].
  cbn [cells app] in H. destruct (hp_get _ _ _ _ H) as [Hg Hn].
  unfold setParIf. destruct (Z.eqb_spec a 0); [easy|].
  unfold setPar. rewrite Hg. cbn. apply ok_ret. now apply hp_upd with (1 := H).
Qed.

(** relinking: the context's hole changes from [a] to [b] *)
Lemma relink_ok m r z a b L :
  hp m (cctx 0 z a ++ L) -> (exists na, In (a, na) L) ->
  ok (relink (pz 0 z) a b (St m r))
     (fun s' => hp (heap s') (cctx 0 z b ++ L) /\
                (root s' = match z with [] => b | _ => r end)).
Proof.
  intros H (na & Hin). destruct z as [|f z]; [now apply ok_ret|].
  unfold relink. cbn [pz].
  destruct f as [c p k u q|c p k u q]; cbn [fa].
  - cbn [cctx app] in H. destruct (hp_get _ _ _ _ H) as [Hg Hn].
    destruct (Z.eqb_spec p 0); [easy|]. cbn [heap]. rewrite Hg. cbn [obind lft].
    rewrite Z.eqb_refl. unfold setL. rewrite Hg. cbn. apply ok_ret.
    split; [|easy]. cbn [heap]. now apply hp_upd with (1 := H).
  - cbn [cctx app] in H. destruct (hp_get _ _ _ _ H) as [Hg Hn].
    destruct (Z.eqb_spec p 0); [easy|]. cbn [heap]. rewrite Hg. cbn [obind lft].
    destruct (Z.eqb_spec (rt q) a) as [He|_].
    + exfalso. apply in_split in Hin. destruct Hin as (L1 & L2 & ->).
      assert (H0 : a <> 0).
      { eapply (proj2 (A := get m a = Ok na)), hp_in; [exact H|hin]. }
      destruct q as [|c' a' k' u' l' r']; [cbn in He; congruence|]. cbn [rt] in He. subst a'.
      assert (H' : hp m ((a, Nd p (rt l') (rt r') c' k' u') :: (a, na) ::
        (p, Nd (pz 0 z) a a c k u) :: (cells a l' ++ cells a r') ++ cctx 0 z p ++ L1 ++ L2))
        by hperm H.
      now apply hp_neq in H'.
    + unfold setR. rewrite Hg. cbn. apply ok_ret.
      split; [|easy]. cbn [heap]. now apply hp_upd with (1 := H).
Qed.

Lemma relinkR_ok m r z a b L :
  hp m (cctx 0 z a ++ L) -> (exists na, In (a, na) L) ->
  ok (relinkR (pz 0 z) a b (St m r))
     (fun s' => hp (heap s') (cctx 0 z b ++ L) /\
                (root s' = match z with [] => b | _ => r end)).
Proof.
  intros H (na & Hin). destruct z as [|f z]; [now apply ok_ret|].
  unfold relinkR. cbn [pz].
  destruct f as [c p k u q|c p k u q]; cbn [fa].
  - cbn [cctx app] in H. destruct (hp_get _ _ _ _ H) as [Hg Hn].
    destruct (Z.eqb_spec p 0); [easy|]. cbn [heap]. rewrite Hg. cbn [obind rgt].
    destruct (Z.eqb_spec (rt q) a) as [He|_].
    + exfalso. apply in_split in Hin. destruct Hin as (L1 & L2 & ->).
      assert (H0 : a <> 0).
      { eapply (proj2 (A := get m a = Ok na)), hp_in; [exact H|hin]. }
      destruct q as [|c' a' k' u' l' r']; [cbn in He; congruence|]. cbn [rt] in He. subst a'.
      assert (H' : hp m ((a, Nd p (rt l') (rt r') c' k' u') :: (a, na) ::
        (p, Nd (pz 0 z) a a c k u) :: (cells a l' ++ cells a r') ++ cctx 0 z p ++ L1 ++ L2))
        by hperm H.
      now apply hp_neq in H'.
    + unfold setL. rewrite Hg. cbn. apply ok_ret.
      split; [|easy]. cbn [heap]. now apply hp_upd with (1 := H).
  - cbn [cctx app] in H. destruct (hp_get _ _ _ _ H) as [Hg Hn].
    destruct (Z.eqb_spec p 0); [easy|]. cbn [heap]. rewrite Hg. cbn [obind rgt].
    rewrite Z.eqb_refl. unfold setR. rewrite Hg. cbn. apply ok_ret.
    split; [|easy]. cbn [heap]. now apply hp_upd with (1 := H).
Qed.

Lemma top_nonnil z a b : z <> [] -> top z a = top z b.
Proof. now destruct z. Qed.

(** field assignments on the first cell *)
Lemma setL_ok m a n v L : hp m ((a, n) :: L) ->
  ok (setL a v m) (fun m' => hp m' ((a, Nd (par n) v (rgt n) (red n) (key n) (usage n)) :: L)).
Proof.
  intros H. unfold setL. destruct (hp_get _ _ _ _ H) as [-> _]. cbn. apply ok_ret.
  now apply hp_upd with (1 := H).
Qed.
Lemma setR_ok m a n v L : hp m ((a, n) :: L) ->
  ok (setR a v m) (fun m' => hp m' ((a, Nd (par n) (lft n) v (red n) (key n) (usage n)) :: L)).
Proof.
  intros H. unfold setR. destruct (hp_get _ _ _ _ H) as [-> _]. cbn. apply ok_ret.
  now apply hp_upd with (1 := H).
Qed.
Lemma setPar_ok m a n v L : hp m ((a, n) :: L) ->
  ok (setPar a v m) (fun m' => hp m' ((a, Nd v (lft n) (rgt n) (red n) (key n) (usage n)) :: L)).
Proof.
  intros H. unfold setPar. destruct (hp_get _ _ _ _ H) as [-> _]. cbn. apply ok_ret.
  now apply hp_upd with (1 := H).
Qed.
Lemma setC_ok m a n v L : hp m ((a, n) :: L) ->
  ok (setC a v m) (fun m' => hp m' ((a, Nd (par n) (lft n) (rgt n) v (key n) (usage n)) :: L)).
Proof.
  intros H. unfold setC. destruct (hp_get _ _ _ _ H) as [-> _]. cbn. apply ok_ret.
  now apply hp_upd with (1 := H).
Qed.
Lemma get_ok m a n L : hp m ((a, n) :: L) -> ok (get m a) (fun n' => n' = n).
Proof. intros H. destruct (hp_get _ _ _ _ H) as [-> _]. now apply ok_ret. Qed.

Lemma get_in m a n L : hp m L -> In (a, n) L -> ok (get m a) (fun n' => n' = n).
Proof. intros H Hi. destruct (hp_in _ _ _ _ H Hi) as [-> _]. now apply ok_ret. Qed.

(** ** rotations *)

Lemma rotateLeft_ok s z c a k u l c' b k' u' t r :
  R s (plug z (T c a k u l (T c' b k' u' t r))) ->
  ok (rotateLeft a s) (fun s' => R s' (plug z (T c' b k' u' (T c a k u l t) r))).
Proof.
  intros H. destruct (R_hp _ _ _ H) as [H0 Hr]. cbn [rt] in *. clear H.
  unfold rotateLeft.
  set (CL := cells a l) in *. set (CR := cells b r).
  assert (H1 : hp (heap s) ((a, Nd (pz 0 z) (rt l) b c k u) ::
     (b, Nd a (rt t) (rt r) c' k' u') :: CL ++ cells b t ++ CR ++ cctx 0 z a)).
  { unfold CL, CR. hperm H0. }
  eapply ok_bind; [eapply get_ok; exact H1|]. intros n ->. cbn [rgt].
  eapply ok_bind; [apply get_in with (n := Nd a (rt t) (rt r) c' k' u') (1 := H1); hin|]. intros n ->. cbn [lft].
  eapply ok_bind; [eapply setR_ok; exact H1|]. cbn [par lft rgt red key usage]. intros m1 H2.
  assert (H3 : hp m1 (cells b t ++ (a, Nd (pz 0 z) (rt l) (rt t) c k u) ::
     (b, Nd a (rt t) (rt r) c' k' u') :: CL ++ CR ++ cctx 0 z a)) by hperm H2.
  eapply ok_bind; [eapply setParIf_ok; exact H3|]. intros m2 H4. clear H2 H3.
  assert (H5 : hp m2 ((b, Nd a (rt t) (rt r) c' k' u') :: (a, Nd (pz 0 z) (rt l) (rt t) c k u) ::
     cells a t ++ CL ++ CR ++ cctx 0 z a)) by hperm H4.
  eapply ok_bind; [eapply setL_ok; exact H5|]. cbn [par lft rgt red key usage]. intros m3 H6.
  eapply ok_bind; [apply get_in with (n := Nd (pz 0 z) (rt l) (rt t) c k u) (1 := H6); hin|]. intros n ->. cbn [par].
  eapply ok_bind; [eapply setPar_ok; exact H6|]. cbn [par lft rgt red key usage]. intros m4 H7.
  assert (H8 : hp m4 (cctx 0 z a ++ (a, Nd (pz 0 z) (rt l) (rt t) c k u) ::
     (b, Nd (pz 0 z) a (rt r) c' k' u') :: cells a t ++ CL ++ CR)) by hperm H7.
  eapply ok_bind; [eapply relink_ok; [exact H8|eexists; left; reflexivity]|].
  intros s1 [H9 Hr1].
  assert (H10 : hp (heap s1) ((a, Nd (pz 0 z) (rt l) (rt t) c k u) ::
     (b, Nd (pz 0 z) a (rt r) c' k' u') :: cctx 0 z b ++ cells a t ++ CL ++ CR)) by hperm H9.
  eapply ok_bind; [eapply setPar_ok; exact H10|]. cbn [par lft rgt red key usage]. intros m5 H11.
  apply ok_ret. apply hp_R.
  - unfold CL, CR in H11. hperm H11.
  - rewrite Hr1. cbn [root]. destruct z; [reflexivity|exact Hr].
Qed.

Lemma rotateRight_ok s z c a k u l c' b k' u' t r :
  R s (plug z (T c a k u (T c' b k' u' l t) r)) ->
  ok (rotateRight a s) (fun s' => R s' (plug z (T c' b k' u' l (T c a k u t r)))).
Proof.
  intros H. destruct (R_hp _ _ _ H) as [H0 Hr]. cbn [rt] in *. clear H.
  unfold rotateRight.
  set (CR := cells a r) in *. set (CL := cells b l).
  assert (H1 : hp (heap s) ((a, Nd (pz 0 z) b (rt r) c k u) ::
     (b, Nd a (rt l) (rt t) c' k' u') :: CL ++ cells b t ++ CR ++ cctx 0 z a)).
  { unfold CL, CR. hperm H0. }
  eapply ok_bind; [eapply get_ok; exact H1|]. intros n ->. cbn [lft].
  eapply ok_bind; [apply get_in with (n := Nd a (rt l) (rt t) c' k' u') (1 := H1); hin|]. intros n ->. cbn [rgt].
  eapply ok_bind; [eapply setL_ok; exact H1|]. cbn [par lft rgt red key usage]. intros m1 H2.
  assert (H3 : hp m1 (cells b t ++ (a, Nd (pz 0 z) (rt t) (rt r) c k u) ::
     (b, Nd a (rt l) (rt t) c' k' u') :: CL ++ CR ++ cctx 0 z a)) by hperm H2.
  eapply ok_bind; [eapply setParIf_ok; exact H3|]. intros m2 H4. clear H2 H3.
  assert (H5 : hp m2 ((b, Nd a (rt l) (rt t) c' k' u') :: (a, Nd (pz 0 z) (rt t) (rt r) c k u) ::
     cells a t ++ CL ++ CR ++ cctx 0 z a)) by hperm H4.
  eapply ok_bind; [eapply setR_ok; exact H5|]. cbn [par lft rgt red key usage]. intros m3 H6.
  eapply ok_bind; [apply get_in with (n := Nd (pz 0 z) (rt t) (rt r) c k u) (1 := H6); hin|]. intros n ->. cbn [par].
  eapply ok_bind; [eapply setPar_ok; exact H6|]. cbn [par lft rgt red key usage]. intros m4 H7.
  assert (H8 : hp m4 (cctx 0 z a ++ (a, Nd (pz 0 z) (rt t) (rt r) c k u) ::
     (b, Nd (pz 0 z) (rt l) a c' k' u') :: cells a t ++ CL ++ CR)) by hperm H7.
  eapply ok_bind; [eapply relinkR_ok; [exact H8|eexists; left; reflexivity]|].
  intros s1 [H9 Hr1].
  assert (H10 : hp (heap s1) ((a, Nd (pz 0 z) (rt t) (rt r) c k u) ::
     (b, Nd (pz 0 z) (rt l) a c' k' u') :: cctx 0 z b ++ cells a t ++ CL ++ CR)) by hperm H9.
  eapply ok_bind; [eapply setPar_ok; exact H10|]. cbn [par lft rgt red key usage]. intros m5 H11.
  apply ok_ret. apply hp_R.
  - unfold CL, CR in H11. hperm H11.
  - rewrite Hr1. cbn [root]. destruct z; [reflexivity|exact Hr].
Qed.
