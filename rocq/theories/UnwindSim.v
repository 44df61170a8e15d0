(** The machine of contexts does what the programs mean. *)
From Verif Require Import UnwindLang Unwind UnwindSpec UnwindProofs.
From Coq Require Import Lia.
Local Open Scope nat_scope.

Fixpoint vok (n : nat) (v : value) : Prop :=
  match v with VClo _ env o => o < n /\ fold_right (fun v P => vok n v /\ P) True env | _ => True end.
Definition envok n env := fold_right (fun v P => vok n v /\ P) True env.
Lemma vok_mono n n' : n <= n' -> forall v, vok n v -> vok n' v.
Proof.
  intros L. fix IH 1. intros [z| |c env o]; cbn; auto. intros [V E]. split; [lia|]. clear V.
  induction env as [|v env IHe]; [exact E|]. destruct E as [E1 E2]. split; [apply IH; exact E1|apply IHe; exact E2].
Qed.
Lemma envok_mono n n' env : n <= n' -> envok n env -> envok n' env.
Proof.
  intros L. induction env as [|v env IH]; intros E; [exact E|]. destruct E as [E1 E2].
  split; [eapply vok_mono; eauto|apply IH; exact E2].
Qed.
Lemma envok_nth n env i : envok n env -> vok n (nth i env VNil).
Proof.
  revert i. induction env as [|v env IH]; intros i E; [destruct i; exact I|]. destruct E as [E1 E2].
  destruct i; [exact E1|apply IH; exact E2].
Qed.

Definition static (H : heap) (homes : list nat) :=
  forall i, i < length homes ->
    if meth (H i) then nth i homes 0 = i else outer (H i) < i /\ nth (outer (H i)) homes 0 = nth i homes 0.
Definition livei (H : heap) (homes live : list nat) :=
  (forall i, i < length homes -> meth (H i) = true -> (par (H i) = None <-> ~ In i live)) /\ (forall i, In i live -> i < length homes).
Definition base x l homes live H := static H homes /\ livei H homes live /\ seg H (x :: l) /\ x < length homes.
Definition fresh (H : heap) n n' := forall i, n <= i < n' -> meth (H i) = true -> par (H i) = None.
Definition grows (homes homes' : list nat) := exists ex, homes' = homes ++ ex.
Definition quiet (a : nat) homes H homes' H' :=
  grows homes homes' /\ static H' homes' /\ fresh H' (length homes) (length homes') /\
  (forall i, i < length homes -> i <> a -> H' i = H i) /\ (exists k, H' a = withkon (H a) k).
Definition jumps a l homes H homes' H' q :=
  grows homes homes' /\ static H' homes' /\ fresh H' (length homes) (length homes') /\
  dead H H' a /\ land H H' l q /\ (forall i, i < length homes -> i <> a -> ~ In i l -> H' i = H i).

Lemma grows_length homes homes' : grows homes homes' -> length homes <= length homes'.
Proof. intros [ex ->]. rewrite app_length. lia. Qed.
Lemma grows_trans a b c : grows a b -> grows b c -> grows a c.
Proof. intros [x ->] [y ->]. exists (x ++ y). rewrite app_assoc. reflexivity. Qed.
Lemma grows_refl a : grows a a. Proof. exists []. rewrite app_nil_r. reflexivity. Qed.
Lemma grows_one a x : grows a (a ++ [x]). Proof. exists [x]. reflexivity. Qed.

Lemma last_cons (x : nat) l d : last (x :: l) d = last l x.
Proof. revert x d. induction l as [|y l IH]; intros x d; [reflexivity|]. change (last (y :: l) d = last (y :: l) x). rewrite !IH. reflexivity. Qed.

(** The method a block returns from. *)
Lemma find_home_ok H homes : static H homes -> forall fuel i, i < fuel -> i < length homes ->
  find_home fuel H i = nth i homes 0 /\ meth (H (nth i homes 0)) = true /\ nth i homes 0 <= i.
Proof.
  intros St fuel. induction fuel as [|fuel IH]; intros i F L; [lia|]. cbn [find_home]. specialize (St i L) as Si.
  destruct (meth (H i)) eqn:M.
  - rewrite Si. auto.
  - destruct Si as [S1 S2]. destruct (IH (outer (H i)) ltac:(lia) ltac:(lia)) as (I1 & I2 & I3). rewrite I1, <- S2. repeat split; [exact I2|lia].
Qed.

(** ** Invariants *)
Lemma base_keep x l homes live H homes' H' :
  base x l homes live H -> grows homes homes' -> static H' homes' -> fresh H' (length homes) (length homes') ->
  (forall i, i < length homes -> meth (H' i) = meth (H i) /\ dis (H' i) = false /\ par (H' i) = par (H i) /\ (unw (H' i) = true -> unw (H i) = true)
             \/ H' i = H i) ->
  base x l homes' live H'.
Proof.
  intros (St & (Lv1 & Lv2) & Sg & X) G St' F K. pose proof (grows_length _ _ G) as GL.
  assert (K' : forall i, i < length homes -> meth (H' i) = meth (H i) /\ par (H' i) = par (H i)).
  { intros i L. destruct (K i L) as [(-> & _ & -> & _)| ->]; auto. }
  split; [exact St'|]. split; [split|].
  - intros i L M. destruct (Nat.lt_ge_cases i (length homes)) as [Lo|Hi].
    + destruct (K' i Lo) as [K1 K2]. rewrite K2. apply Lv1; [exact Lo|]. rewrite <- K1. exact M.
    + split; [|intros _; apply F; [lia|exact M]]. intros _ I. specialize (Lv2 i I). lia.
  - intros i I. specialize (Lv2 i I). lia.
  - split; [|lia]. assert (B : forall i, In i (x :: l) -> i < length homes).
    { intros i [<-|I]; [exact X|]. pose proof (seg_lt _ _ _ _ Sg I). lia. }
    clear - K B Sg. revert Sg B. generalize (x :: l). clear x l. intros l. induction l as [|x l IH]; intros Sg B; [exact I|].
    cbn [seg] in *. destruct Sg as (S1 & S2 & S3 & S4).
    assert (E : dis (H' x) = false /\ (unw (H' x) = true -> meth (H' x) = true) /\ par (H' x) = par (H x)).
    { destruct (K x (B x (or_introl eq_refl))) as [(E1 & E2 & E3 & E4)| ->]; [|auto]. rewrite E1. auto. }
    destruct E as (E1 & E2 & E3). rewrite E3. repeat (split; [assumption|]). apply IH; [exact S4|]. intros i I. apply B. right. exact I.
Qed.
Lemma quiet_base a l homes live H homes' H' : base a l homes live H -> quiet a homes H homes' H' -> base a l homes' live H'.
Proof.
  intros B (G & St & F & K & k & Ka). eapply base_keep; eauto. intros i L. destruct (Nat.eq_dec i a) as [->|N]; [|right; apply K; assumption].
  left. rewrite Ka. cbn. destruct B as (_ & _ & (D & _) & _). auto.
Qed.
Lemma fresh_trans H H' n n1 n2 a l : fresh H n n1 -> fresh H' n1 n2 -> a < n -> (forall i, In i l -> i < n) ->
  (forall i, i < n1 -> i <> a -> ~ In i l -> H' i = H i) -> fresh H' n n2.
Proof.
  intros F F' A B K i L M. destruct (Nat.lt_ge_cases i n1) as [Lo|Hi]; [|apply F'; [lia|exact M]].
  assert (E : H' i = H i) by (apply K; [exact Lo|lia|intros I; specialize (B i I); lia]).
  rewrite E in *. apply F; [lia|exact M].
Qed.
Lemma quiet_trans a homes H homes1 H1 homes2 H2 : a < length homes ->
  quiet a homes H homes1 H1 -> quiet a homes1 H1 homes2 H2 -> quiet a homes H homes2 H2.
Proof.
  intros A (G & St & F & K & k & Ka) (G' & St' & F' & K' & k' & Ka'). pose proof (grows_length _ _ G).
  split; [eapply grows_trans; eauto|]. split; [exact St'|]. split.
  - apply (fresh_trans H1 H2 _ (length homes1) _ a []); [exact F|exact F'|exact A|intros i []|]. intros i L N _. apply K'; assumption.
  - split; [intros i L N; rewrite K' by (try assumption; lia); apply K; assumption|]. exists k'. rewrite Ka', Ka. reflexivity.
Qed.
Lemma quiet_jumps a l homes H homes1 H1 homes2 H2 q : a < length homes -> (forall i, In i l -> i < a) ->
  quiet a homes H homes1 H1 -> jumps a l homes1 H1 homes2 H2 q -> jumps a l homes H homes2 H2 q.
Proof.
  intros A Bl (G & St & F & K & k & Ka) (G' & St' & F' & D & La & K'). pose proof (grows_length _ _ G).
  split; [eapply grows_trans; eauto|]. split; [exact St'|]. split.
  - apply (fresh_trans H1 H2 _ (length homes1) _ a l); [exact F|exact F'|exact A| |exact K']. intros i I. specialize (Bl i I). lia.
  - split; [unfold dead in *; rewrite Ka in D; exact D|]. split.
    + eapply land_ext; [|exact La]. intros i I. specialize (Bl i I). split; [symmetry; apply K; lia|reflexivity].
    + intros i L N I. rewrite K' by (try assumption; lia). apply K; assumption.
Qed.

(** A new context. *)
Definition newctx (m : bool) x o := Ctx m false false (Some x) o [].
Definition newheap H x k n m o := upd (set_kon H x k) n (newctx m x o).
Lemma newheap_new H x k n m o : newheap H x k n m o n = newctx m x o. Proof. apply upd_same. Qed.
Lemma newheap_x H x k n m o : x < n -> newheap H x k n m o x = withkon (H x) k.
Proof. intros L. unfold newheap. rewrite upd_other by lia. apply set_kon_same. Qed.
Lemma newheap_old H x k n m o i : i < n -> i <> x -> newheap H x k n m o i = H i.
Proof. intros L N. unfold newheap. rewrite upd_other by lia. apply set_kon_other. exact N. Qed.
Lemma base_new x l homes live H k (m : bool) o home : base x l homes live H ->
  (if m then home = length homes else o < length homes /\ home = nth o homes 0) ->
  base (length homes) (x :: l) (homes ++ [home]) (if m then length homes :: live else live) (newheap H x k (length homes) m o).
Proof.
  intros (St & (Lv1 & Lv2) & Sg & X) Hm. set (n := length homes). set (H1 := newheap H x k n m o).
  assert (E : forall i, i < n -> meth (H1 i) = meth (H i) /\ dis (H1 i) = dis (H i) /\ unw (H1 i) = unw (H i) /\ par (H1 i) = par (H i) /\ outer (H1 i) = outer (H i)).
  { intros i L. unfold H1. destruct (Nat.eq_dec i x) as [->|N]; [rewrite newheap_x by exact X; repeat split|rewrite newheap_old by assumption; repeat split]. }
  assert (En : H1 n = newctx m x o) by apply newheap_new.
  split; [|split; [split|split]].
  - intros i L. rewrite app_length in L. cbn [length] in L. destruct (Nat.eq_dec i n) as [->|N].
    + rewrite En. cbn. rewrite app_nth2 by (unfold n; lia). rewrite Nat.sub_diag. cbn [nth].
      destruct m; [exact Hm|]. destruct Hm as [Ho Hh]. split; [exact Ho|]. rewrite app_nth1 by exact Ho. symmetry. exact Hh.
    + assert (Li : i < n) by (unfold n in *; lia). destruct (E i Li) as (-> & _ & _ & _ & ->). specialize (St i Li).
      destruct (meth (H i)); [rewrite app_nth1 by exact Li; exact St|]. destruct St as [S1 S2]. split; [exact S1|].
      rewrite !app_nth1 by (unfold n in *; lia). exact S2.
  - intros i L M. rewrite app_length in L. cbn [length] in L. destruct (Nat.eq_dec i n) as [->|N].
    + rewrite En in *. cbn in M. subst m. cbn. split; [discriminate|]. intros C. exfalso. apply C. left. reflexivity.
    + assert (Li : i < n) by (unfold n in *; lia). destruct (E i Li) as (E1 & _ & _ & E4 & _). rewrite E4. rewrite E1 in M.
      rewrite (Lv1 i Li M). destruct m; [|tauto]. split; intros C I; apply C; [|right; exact I]. destruct I as [I|I]; [unfold n in *; lia|exact I].
  - intros i I. rewrite app_length. cbn [length]. destruct m; [destruct I as [<-|I]; [lia|]|]; specialize (Lv2 i I); lia.
  - change (seg H1 (n :: (x :: l))). cbn [seg]. rewrite En. cbn. split; [reflexivity|]. split; [discriminate|]. split; [split; [reflexivity|exact X]|].
    change (seg H1 (x :: l)). eapply seg_ext; [|exact Sg]. intros i I.
    assert (L : i < n) by (destruct I as [<-|I]; [exact X|pose proof (seg_lt _ _ _ _ Sg I); unfold n; lia]).
    destruct (E i L) as (E1 & E2 & E3 & E4 & _). auto.
  - rewrite app_length. cbn. lia.
Qed.

(** What is done with the contexts waiting for a return is enough to go on with it. *)
Lemma land_tail H0 H a l q : unw (H0 a) = false -> l <> [] -> land H0 H (a :: l) q -> dead H0 H a /\ land H0 H l q.
Proof.
  intros U N (A & B & E & F & C). destruct A as [|x A]; cbn in E.
  - injection E as <- <-. destruct C as [[-> _]|[C _]]; [contradiction|congruence].
  - injection E as <- ->. split; [apply F; left; reflexivity|]. exists A, B. split; [reflexivity|]. split; [|exact C]. intros i I. apply F. right. exact I.
Qed.
Lemma land_unw H0 H a l q : unw (H0 a) = true -> l <> [] -> land H0 H (a :: l) q ->
  q = a /\ exists p, H a = withpar (clearc (H0 a)) p /\ link H0 H p l.
Proof.
  intros U N (A & B & E & F & C). destruct A as [|x A]; cbn in E.
  - injection E as <- <-. destruct C as [[-> _]|[_ C]]; [contradiction|]. auto.
  - injection E as <- ->. specialize (F a (or_introl eq_refl)). destruct F. congruence.
Qed.
Lemma land_same H0 H l q i : land H0 H l q -> In i l -> meth (H i) = meth (H0 i) /\ outer (H i) = outer (H0 i).
Proof.
  intros (A & B & -> & F & C) I. apply in_app_or in I. destruct I as [I|[<-|I]].
  - destruct (F i I) as [_ (D1 & D2 & _)]. auto.
  - destruct C as [[_ ->]|(_ & p & -> & _)]; auto.
  - destruct C as [[-> _]|(_ & p & _ & L)]; [destruct I|]. clear F. revert p L I. induction B as [|b B IH]; intros p L I; [destruct I|].
    cbn [link] in L. destruct B as [|c B].
    + destruct I as [<-|[]]. destruct L as [_ ->]. auto.
    + destruct (meth (H0 b)) eqn:M.
      * destruct L as (_ & p' & L1 & L2). destruct I as [<-|I]; [rewrite L1; auto|]. eapply IH; eauto.
      * destruct L as (L1 & L2). destruct I as [<-|I]; [rewrite L1; auto|]. eapply IH; eauto.
Qed.
Lemma link_par H0 H p l : seg H0 l -> link H0 H p l -> forall i, In i l -> meth (H0 i) = true -> (par (H i) = None <-> par (H0 i) = None).
Proof.
  revert p. induction l as [|b B IH]; intros p Sg L i I M; [destruct I|]. cbn [link] in L. destruct B as [|c B].
  - destruct I as [<-|[]]. destruct L as [_ ->]. tauto.
  - destruct Sg as (_ & _ & (P & _) & Sg). destruct (meth (H0 b)) eqn:Mb.
    + destruct L as (_ & p' & L1 & L2). destruct I as [<-|I]; [|eapply IH; eauto].
      rewrite L1, P. cbn. apply link_some in L2. split; [contradiction|discriminate].
    + destruct L as (L1 & L2). destruct I as [<-|I]; [congruence|]. eapply IH; eauto.
Qed.

Section Sim.
  Variable ms : list expr.
  Definition reach s s' := exists k, run ms k s = Next s'.
  Definition fails s t := exists k, run ms k s = Failed t.
  Lemma run_add k1 : forall s s' k2, run ms k1 s = Next s' -> run ms (k1 + k2) s = run ms k2 s'.
  Proof.
    induction k1 as [|k1 IH]; intros s s' k2 E; [injection E as ->; reflexivity|]. cbn [Nat.add run] in *.
    destruct (step ms s); try discriminate. apply IH. exact E.
  Qed.
  Lemma reach_refl s : reach s s. Proof. exists 0. reflexivity. Qed.
  Lemma reach_trans s s1 s2 : reach s s1 -> reach s1 s2 -> reach s s2.
  Proof. intros [k1 E1] [k2 E2]. exists (k1 + k2). rewrite (run_add _ _ _ _ E1). exact E2. Qed.
  Lemma reach_fails s s1 t : reach s s1 -> fails s1 t -> fails s t.
  Proof. intros [k1 E1] [k2 E2]. exists (k1 + k2). rewrite (run_add _ _ _ _ E1). exact E2. Qed.
  Lemma reach_step s s' : step ms s = Next s' -> reach s s'.
  Proof. intros E. exists 1. cbn. rewrite E. reflexivity. Qed.
  Lemma fails_step s t : step ms s = Failed t -> fails s t.
  Proof. intros E. exists 1. cbn. rewrite E. reflexivity. Qed.

  (** *** The meaning, step by step *)
  Definition close n r := match r with Res (Jump a v) h t => if Nat.eqb a n then Res (Norm v) h t else Res (Jump a v) h t | r => r end.
  Definition bindr r K := match r with Res (Norm v) h t => K v h t | r => r end.
  Definition spbody f live home env e homes t := close (length homes) (sp ms false f (length homes) live env e (homes ++ [home]) t).
  Definition spval f live v homes t := match v with VClo c env o => spbody f live (nth o homes 0) env c homes t | _ => Error t end.
  Definition spclean r2 r := match r2, r with Res (Norm _) homes t, _ => Res r homes t | r2, Norm _ => r2 | _, Jump _ _ => Escape end.

  (** *** What is to be shown of an expression *)
  Definition post s a l homes H k r :=
    match r with
    | Res (Norm v) homes' t => exists H', reach s (St a (Rt v) k H' (length homes') t) /\ vok (length homes') v /\ quiet a homes H homes' H'
    | Res (Jump h v) homes' t => forall l1 T R, l = l1 ++ T :: R -> last l1 a = h ->
        exists H' q, reach s (St q (Rt v) (kon (H' q)) H' (length homes') t) /\ vok (length homes') v /\ jumps a (l1 ++ [T]) homes H homes' H' q
    | Error t => fails s t
    | _ => True
    end.
  (** and of an activation called from [x] *)
  Definition postb s x l homes H k r :=
    match r with
    | Res (Norm v) homes' t => exists H', reach s (St x (Rt v) k H' (length homes') t) /\ vok (length homes') v /\
        grows homes homes' /\ static H' homes' /\ fresh H' (length homes) (length homes') /\
        (forall i, i < length homes -> i <> x -> H' i = H i) /\ H' x = clearc (withkon (H x) k)
    | Res (Jump h v) homes' t => forall l1 T R, l = l1 ++ T :: R -> last l1 x = h ->
        exists H' q, reach s (St q (Rt v) (kon (H' q)) H' (length homes') t) /\ vok (length homes') v /\
        grows homes homes' /\ static H' homes' /\ fresh H' (length homes) (length homes') /\
        land (set_kon H x k) H' (x :: l1 ++ [T]) q /\ (forall i, i < length homes -> ~ In i (x :: l1 ++ [T]) -> H' i = H i)
    | Error t => fails s t
    | _ => True
    end.

  Lemma post_reach s s' a l homes H k r : reach s s' -> post s' a l homes H k r -> post s a l homes H k r.
  Proof.
    intros R P. destruct r as [[v|h v] homes' t|t| |]; cbn in *.
    - destruct P as (H' & P1 & P2). exists H'. split; [eapply reach_trans; eauto|exact P2].
    - intros l1 T R' E1 E2. destruct (P l1 T R' E1 E2) as (H' & q & P1 & P2). exists H', q. split; [eapply reach_trans; eauto|exact P2].
    - eapply reach_fails; eauto.
    - exact I.
    - exact I.
  Qed.
  Lemma postb_reach s s' a l homes H k r : reach s s' -> postb s' a l homes H k r -> postb s a l homes H k r.
  Proof.
    intros R P. destruct r as [[v|h v] homes' t|t| |]; cbn in *.
    - destruct P as (H' & P1 & P2). exists H'. split; [eapply reach_trans; eauto|exact P2].
    - intros l1 T R' E1 E2. destruct (P l1 T R' E1 E2) as (H' & q & P1 & P2). exists H', q. split; [eapply reach_trans; eauto|exact P2].
    - eapply reach_fails; eauto.
    - exact I.
    - exact I.
  Qed.
  Lemma seg_prefix_lt H a l l1 T R i : seg H (a :: l) -> l = l1 ++ T :: R -> In i (l1 ++ [T]) -> i < a.
  Proof.
    intros Sg -> In1. apply (seg_lt H (l1 ++ T :: R) a i Sg). apply in_app_or in In1. apply in_or_app. destruct In1 as [I1|[<-|[]]]; [left; exact I1|right; left; reflexivity].
  Qed.
  Lemma post_quiet s a l homes live H homes1 H1 k r : base a l homes live H -> quiet a homes H homes1 H1 ->
    post s a l homes1 H1 k r -> post s a l homes H k r.
  Proof.
    intros B Q P. pose proof B as (_ & _ & Sg & A). destruct r as [[v|h v] homes' t|t| |]; cbn in *; try exact P.
    - destruct P as (H' & P1 & P2 & P3). exists H'. split; [exact P1|]. split; [exact P2|]. eapply quiet_trans; eauto.
    - intros l1 T R E1 E2. destruct (P l1 T R E1 E2) as (H' & q & P1 & P2 & P3). exists H', q. split; [exact P1|]. split; [exact P2|].
      eapply quiet_jumps; eauto. intros i In1. eapply seg_prefix_lt; eauto.
  Qed.
  Lemma post_bind s a l homes live H F k r K : base a l homes live H -> post s a l homes H (F :: k) r ->
    (forall v homes1 H1 t1, vok (length homes1) v -> quiet a homes H homes1 H1 ->
       post (St a (Rt v) (F :: k) H1 (length homes1) t1) a l homes1 H1 k (K v homes1 t1)) ->
    post s a l homes H k (bindr r K).
  Proof.
    intros B P C. destruct r as [[v|h v] homes' t|t| |]; cbn [bindr]; try exact P.
    cbn in P. destruct P as (H' & P1 & P2 & P3). eapply post_reach; [exact P1|]. eapply post_quiet; eauto.
  Qed.
  Lemma postb_post s a l homes live H k r : base a l homes live H -> unw (H a) = false -> postb s a l homes H k r -> post s a l homes H k r.
  Proof.
    intros B U P. pose proof B as (_ & _ & Sg & A). destruct r as [[v|h v] homes' t|t| |]; cbn in *; try exact P.
    - destruct P as (H' & P1 & P2 & G & St & F & K & Ka). exists H'. split; [exact P1|]. split; [exact P2|].
      repeat (split; [assumption|]). exists k. rewrite Ka. destruct Sg as (D & _). unfold clearc, withkon. cbn. rewrite D, U. reflexivity.
    - intros l1 T R E1 E2. destruct (P l1 T R E1 E2) as (H' & q & P1 & P2 & G & St & F & La & K). exists H', q. split; [exact P1|]. split; [exact P2|].
      apply land_tail in La; [|rewrite set_kon_same; exact U|destruct l1; discriminate]. destruct La as [D La].
      repeat (split; [assumption|]). split; [unfold dead in *; rewrite set_kon_same in D; exact D|]. split.
      + eapply land_ext; [|exact La]. intros i In1. split; [|reflexivity]. symmetry. apply set_kon_other.
        pose proof (seg_prefix_lt _ _ _ _ _ _ _ Sg E1 In1). lia.
      + intros i L N In1. apply K; [exact L|]. intros [E|In2]; [congruence|contradiction].
  Qed.

  (** Answering to a caller. *)
  Lemma answer_ok n y H v t N : par (H n) = Some y -> y < n -> dis (H y) = false -> n < N ->
    exists H', step ms (St n (Rt v) [] H N t) = Next (St y (Rt v) (kon (H y)) H' N t) /\
      H' y = clearc (H y) /\ H' n = withpar (H n) None /\ (forall i, i <> n -> i <> y -> H' i = H i).
  Proof.
    intros P L D LN. exists (clear (set_par H n None) y). split; [|split; [|split]].
    - cbn. destruct n as [|n]; [lia|]. cbn [Nat.eqb]. unfold answer. cbn [unwind_context this hp next trace]. rewrite P.
      assert (Sk : skipped (set_par H (S n) None y) = false).
      { rewrite set_par_other by lia. unfold skipped. rewrite D, andb_false_r. reflexivity. }
      rewrite Sk. rewrite clear_same. cbn [kon clearc]. rewrite set_par_other by lia. reflexivity.
    - rewrite clear_same, set_par_other by lia. reflexivity.
    - rewrite clear_other by lia. apply set_par_same.
    - intros i I1 I2. rewrite clear_other by exact I2. apply set_par_other. exact I1.
  Qed.
  Lemma static_ext H H' homes : (forall i, i < length homes -> meth (H' i) = meth (H i) /\ outer (H' i) = outer (H i)) -> static H homes -> static H' homes.
  Proof. intros E St i L. destruct (E i L) as [-> ->]. apply St. exact L. Qed.

  (** Calling: [s] is the state in which the new activation starts. *)
  Lemma body_ok f x l homes live H k (m : bool) o home env c t :
    base x l homes live H -> vok (length homes) (VClo c env o) ->
    (if m then home = length homes else home = nth o homes 0) ->
    let live' := if m then length homes :: live else live in
    let H1 := newheap H x k (length homes) m o in
    (forall a l homes live H k t env e, base a l homes live H -> l <> [] -> unw (H a) = false -> envok (length homes) env ->
       post (St a (Ev e env) k H (length homes) t) a l homes H k (sp ms false f a live env e homes t)) ->
    postb (St (length homes) (Ev c env) [] H1 (S (length homes)) t) x l homes H k (spbody f live' home env c homes t).
  Proof.
    intros B V Hm live' H1 IH. pose proof B as (St0 & (Lv1 & Lv2) & Sg & X). set (n := length homes).
    assert (Hm' : if m then home = n else o < n /\ home = nth o homes 0) by (destruct m; [exact Hm|split; [apply V|exact Hm]]).
    pose proof (base_new x l homes live H k m o home B Hm') as B1. fold n in B1. fold live' in B1. fold H1 in B1.
    assert (Len : length (homes ++ [home]) = S n) by (rewrite app_length; cbn; unfold n; lia).
    assert (En : H1 n = newctx m x o) by apply newheap_new.
    assert (Ex : H1 x = withkon (H x) k) by (apply newheap_x; exact X).
    assert (E1 : forall i, i < n -> i <> x -> H1 i = H i) by (intros i L N; apply newheap_old; assumption).
    assert (Dx : dis (H x) = false) by apply Sg.
    assert (E2 : forall i, i < n -> H1 i = set_kon H x k i).
    { intros i L. destruct (Nat.eq_dec i x) as [->|N]; [rewrite Ex, set_kon_same; reflexivity|rewrite E1 by assumption; rewrite set_kon_other by exact N; reflexivity]. }
    specialize (IH n (x :: l) (homes ++ [home]) live' H1 [] t env c B1 ltac:(discriminate)).
    rewrite Len in IH. unfold spbody. fold n.
    assert (Ve : envok (S n) env) by (eapply envok_mono; [|apply V]; lia).
    specialize (IH ltac:(rewrite En; reflexivity) Ve).
    assert (BLk : forall i homes', grows (homes ++ [home]) homes' -> i < n -> i < length homes').
    { intros i homes' G L. apply grows_length in G. rewrite Len in G. lia. }
    destruct (sp ms false f n live' env c (homes ++ [home]) t) as [[v|h v] homes' t'|t'| |]; cbn [close]; try exact IH.
    - cbn in IH. destruct IH as (H2 & R & Vv & G & St & F & K & k' & Kn). rewrite Len in F, K.
      pose proof (grows_length _ _ G) as GL. rewrite Len in GL.
      assert (E2x : H2 x = withkon (H x) k) by (rewrite K by lia; exact Ex).
      destruct (answer_ok n x H2 v t' (length homes')) as (H3 & Stp & A1 & A2 & A3).
      + rewrite Kn, En. reflexivity.
      + exact X.
      + rewrite E2x. exact Dx.
      + lia.
      + cbn. exists H3. rewrite E2x in *. cbn [kon withkon] in Stp. split; [eapply reach_trans; [exact R|apply reach_step; exact Stp]|].
        split; [exact Vv|]. split; [eapply grows_trans; [apply grows_one|exact G]|]. split; [|split; [|split]].
        * eapply static_ext; [|exact St]. intros i L. destruct (Nat.eq_dec i n) as [->|N1]; [rewrite A2; auto|].
          destruct (Nat.eq_dec i x) as [->|N2]; [rewrite A1, E2x; auto|]. rewrite A3 by assumption. auto.
        * intros i L M. fold n in L. destruct (Nat.eq_dec i n) as [->|N1]; [rewrite A2; reflexivity|].
          assert (E3 : H3 i = H2 i) by (apply A3; lia). rewrite E3 in *. apply F; [lia|exact M].
        * intros i L N. fold n in L. rewrite A3 by lia. rewrite K by lia. apply E1; assumption.
        * rewrite A1. reflexivity.
    - destruct (h =? n) eqn:Eh.
      + apply Nat.eqb_eq in Eh. subst h. cbn in IH. destruct (IH [] x l eq_refl eq_refl) as (H2 & q & R & Vv & G & St & F & D & La & K).
        rewrite Len in F, K. pose proof (grows_length _ _ G) as GL. rewrite Len in GL. cbn [app] in La, K.
        assert (Lq : q = x /\ H2 x = clearc (withkon (H x) k)).
        { destruct La as (A & Bq & E & FA & C). destruct A as [|y A]; [|destruct A; discriminate]. cbn in E. injection E as <- <-.
          split; [reflexivity|]. destruct C as [[_ C]|(_ & p & _ & C)]; [rewrite C, Ex; reflexivity|destruct C]. }
        destruct Lq as [-> Lq]. rewrite Lq in R. cbn [kon clearc withkon] in R.
        cbn. exists H2. split; [exact R|]. split; [exact Vv|]. split; [eapply grows_trans; [apply grows_one|exact G]|]. split; [exact St|]. split; [|split].
        * intros i L M. fold n in L. destruct (Nat.eq_dec i n) as [->|N1]; [apply D|]. apply F; [lia|exact M].
        * intros i L N. fold n in L. rewrite K; [apply E1; assumption|lia|lia|]. intros [E|[]]. congruence.
        * exact Lq.
      + cbn. cbn in IH. intros l1 T R El Eh'. specialize (IH (x :: l1) T R). cbn [app] in IH. rewrite El in IH. specialize (IH eq_refl).
        assert (Eh2 : last (x :: l1) n = h).
        { rewrite <- Eh'. clear. revert x. induction l1 as [|y l1 IH]; intros x; [reflexivity|]. cbn [last]. destruct l1; [reflexivity|]. apply (IH x). }
        specialize (IH Eh2). destruct IH as (H2 & q & Rr & Vv & G & St & F & D & La & K).
        rewrite Len in F, K. pose proof (grows_length _ _ G) as GL. rewrite Len in GL.
        exists H2, q. split; [exact Rr|]. split; [exact Vv|]. split; [eapply grows_trans; [apply grows_one|exact G]|]. split; [exact St|]. split; [|split].
        * intros i L M. fold n in L. destruct (Nat.eq_dec i n) as [->|N1]; [apply D|]. apply F; [lia|exact M].
        * eapply land_ext; [|exact La]. intros i Ii. split; [|reflexivity]. symmetry. apply E2.
          destruct Ii as [<-|Ii]; [exact X|]. pose proof (seg_prefix_lt _ _ _ _ _ _ _ Sg El Ii). unfold n. lia.
        * intros i L N. fold n in L. rewrite K; [|lia|lia|exact N]. apply E1; [exact L|]. intros ->. apply N. left. reflexivity.
  Qed.

  Lemma quiet_refl a homes H : static H homes -> quiet a homes H homes H.
  Proof.
    intros St. split; [apply grows_refl|]. split; [exact St|]. split; [intros i L; lia|]. split; [reflexivity|]. exists (kon (H a)).
    unfold withkon. symmetry. apply ctx_eta.
  Qed.
  Lemma post_value s a l homes H k v t : static H homes -> vok (length homes) v -> reach s (St a (Rt v) k H (length homes) t) ->
    post s a l homes H k (Res (Norm v) homes t).
  Proof. intros St V R. exists H. split; [exact R|]. split; [exact V|]. apply quiet_refl. exact St. Qed.

  (** A pending return goes on when the activation [n] it was waiting for ends. *)
  Lemma finish a l1 T R l homes live H k Hk H5 homes5 v t :
    base a l homes live H -> unw (H a) = false -> l = l1 ++ T :: R -> let n := length homes in
    Hk a = withkon (H a) k -> (forall i, i < n -> i <> a -> Hk i = H i) ->
    link Hk H5 (par (H5 n)) (a :: l1 ++ [T]) -> grows homes homes5 -> n < length homes5 -> static H5 homes5 ->
    fresh H5 (S n) (length homes5) -> (forall i, i < n -> ~ In i (a :: l1 ++ [T]) -> H5 i = H i) ->
    exists H6 q, step ms (St n (Rt v) [] H5 (length homes5) t) = Next (St q (Rt v) (kon (H6 q)) H6 (length homes5) t) /\
      jumps a (l1 ++ [T]) homes H homes5 H6 q.
  Proof.
    intros B U El n Ka Ki Lk G Ln St F K. pose proof B as (_ & _ & Sg & A). fold n in A.
    assert (Sg1 : seg H (a :: l1 ++ [T])) by (rewrite El in Sg; apply (seg_front H (a :: l1) R T); exact Sg).
    assert (Sgk : seg Hk (a :: l1 ++ [T])).
    { eapply seg_ext; [|exact Sg1]. intros i Ii. destruct (Nat.eq_dec i a) as [->|N]; [rewrite Ka; repeat split|].
      rewrite Ki; [repeat split| |exact N]. destruct Ii as [E|Ii]; [congruence|]. pose proof (seg_lt _ _ _ _ Sg1 Ii). lia. }
    assert (Lt : forall i, In i (a :: l1 ++ [T]) -> i < n).
    { intros i [<-|Ii]; [exact A|]. pose proof (seg_lt _ _ _ _ Sg1 Ii). lia. }
    assert (Len : length (a :: l1 ++ [T]) <= n) by (pose proof (seg_length _ _ _ Sg1); cbn [length] in *; lia).
    destruct (uc_link (a :: l1 ++ [T]) (S (length homes5)) Hk H5 n (par (H5 n))) as (H6 & q & Uc & La & Iq & D & O).
    - lia.
    - reflexivity.
    - exact Lk.
    - exact Sgk.
    - intros Ii. specialize (Lt n Ii). lia.
    - exists H6, q. split.
      + unfold step. cbn [ctl kont this trace]. destruct n as [|n']; [lia|]. cbn [Nat.eqb]. unfold answer. cbn [this hp next trace]. rewrite Uc. reflexivity.
      + split; [exact G|].
        assert (St6 : forall i, meth (H6 i) = meth (H5 i) /\ outer (H6 i) = outer (H5 i)).
        { intros i. destruct (in_dec Nat.eq_dec i (a :: l1 ++ [T])) as [Ii|Ni].
          - destruct (land_same _ _ _ _ _ La Ii) as [-> ->].
            assert (Ln' : land Hk H5 (n :: a :: l1 ++ [T]) n \/ True) by (right; exact I). clear Ln'.
            pose proof Lk as Lk'. clear - Lk' Ii. revert Lk' Ii. generalize (par (H5 n)). generalize (a :: l1 ++ [T]). intros B. induction B as [|b B IH]; intros p L Ii; [destruct Ii|].
            cbn [link] in L. destruct B as [|c B].
            + destruct Ii as [<-|[]]. destruct L as [_ ->]. auto.
            + destruct (meth (Hk b)) eqn:M.
              * destruct L as (_ & p' & L1 & L2). destruct Ii as [<-|Ii]; [rewrite L1; auto|]. eapply IH; eauto.
              * destruct L as (L1 & L2). destruct Ii as [<-|Ii]; [rewrite L1; auto|]. eapply IH; eauto.
          - destruct (Nat.eq_dec i n) as [->|N]; [destruct D as (D1 & D2 & _); auto|]. rewrite O by assumption. auto. }
        split; [eapply static_ext; [|exact St]; intros i _; apply St6|]. split.
        * intros i L M. fold n in L. destruct (Nat.eq_dec i n) as [->|N]; [apply D|].
          assert (E : H6 i = H5 i) by (apply O; [exact N|intros Ii; specialize (Lt i Ii); lia]). rewrite E in *. apply F; [lia|exact M].
        * apply land_tail in La; [|rewrite Ka; exact U|destruct l1; discriminate]. destruct La as [Da La]. split; [unfold dead in *; rewrite Ka in Da; exact Da|]. split.
          -- eapply land_ext; [|exact La]. intros i Ii. split; [|reflexivity]. symmetry. apply Ki; [apply Lt; right; exact Ii|].
             pose proof (seg_lt _ _ _ _ Sg1 Ii). lia.
          -- intros i L N Ni. fold n in L. assert (Nl : ~ In i (a :: l1 ++ [T])) by (intros [E|Ii]; [congruence|contradiction]).
             rewrite O by (try assumption; lia). apply K; assumption.
  Qed.

  (** ^ *)
  Lemma ret_ok a l homes live H k v t : base a l homes live H -> l <> [] -> unw (H a) = false -> vok (length homes) v ->
    post (St a (Rt v) (KRet :: k) H (length homes) t) a l homes H k
      (if in_dec Nat.eq_dec (nth a homes 0) live then Res (Jump (nth a homes 0) v) homes t else Error t).
  Proof.
    intros B Nl U V. pose proof B as (St0 & (Lv1 & Lv2) & Sg & A). set (n := length homes) in *.
    destruct (find_home_ok H homes St0 (S n) a ltac:(lia) A) as (F1 & F2 & F3). set (h := nth a homes 0) in *.
    specialize (Lv1 h ltac:(fold n; lia) F2).
    assert (Step : step ms (St a (Rt v) (KRet :: k) H n t) = return_from (St a (Rt v) (KRet :: k) H n t) v) by reflexivity.
    unfold return_from in Step. cbn [this hp next trace] in Step.
    destruct l as [|y l']; [contradiction|]. pose proof Sg as (Da & Ua & (P & Ly) & Sgy).
    destruct (meth (H a)) eqn:M.
    - assert (Eh : h = a) by (specialize (St0 a A); rewrite M in St0; exact St0).
      destruct (in_dec Nat.eq_dec h live) as [Il|Il].
      + cbn. intros l1 T R E1 E2.
        assert (El1 : l1 = [] /\ T = y).
        { destruct l1 as [|z l1]; [injection E1 as -> _; auto|]. exfalso.
          assert (Iz : In (last (z :: l1) a) (y :: l')).
          { rewrite E1. apply in_or_app. left. destruct (exists_last (l := z :: l1) ltac:(discriminate)) as (u & w & ->). rewrite last_last. apply in_or_app. right. left. reflexivity. }
          rewrite E2, Eh in Iz. pose proof (seg_lt _ _ _ _ Sg Iz). lia. }
        destruct El1 as [-> ->].
        destruct (answer_ok a y H v t n P Ly ltac:(apply Sgy) ltac:(lia)) as (H' & Stp & A1 & A2 & A3).
        exists H', y. split; [|split; [exact V|]].
        * apply reach_step. rewrite Step. rewrite A1. cbn [kon clearc]. cbn [step ctl kont this trace] in Stp.
          destruct a as [|a']; [lia|]. cbn [Nat.eqb] in Stp. unfold answer in *. cbn [this hp next trace] in *. exact Stp.
        * split; [apply grows_refl|]. split; [|split; [intros i L; lia|]].
          -- eapply static_ext; [|exact St0]. intros i L. destruct (Nat.eq_dec i a) as [->|N1]; [rewrite A2; auto|].
             destruct (Nat.eq_dec i y) as [->|N2]; [rewrite A1; auto|]. rewrite A3 by assumption. auto.
          -- split; [unfold dead; rewrite A2; auto|]. split.
             ++ exists [], []. split; [reflexivity|]. split; [intros i []|]. left. split; [reflexivity|exact A1].
             ++ intros i L N1 N2. apply A3; [exact N1|]. intros ->. apply N2. left. reflexivity.
      + exfalso. rewrite Eh in *. apply Lv1 in Il. rewrite P in Il. discriminate.
    - rewrite F1 in Step. destruct (par (H h)) as [T0|] eqn:Ph.
      + destruct (in_dec Nat.eq_dec h live) as [Il|Il]; [|apply Lv1 in Il; discriminate].
        cbn [post]. intros l1 T R E1 E2.
        assert (PT : par (H h) = Some T).
        { rewrite E1 in Sg. rewrite <- E2. clear - Sg. revert a Sg. induction l1 as [|z l1 IH]; intros a Sg; cbn [app] in *.
          - destruct Sg as (_ & _ & (P & _) & _). exact P.
          - destruct Sg as (_ & _ & _ & Sg). specialize (IH z Sg). rewrite last_cons. exact IH. }
        assert (ET : T0 = T) by congruence. subst T0.
        assert (Sg1 : seg H (a :: l1 ++ [T])) by (rewrite E1 in Sg; apply (seg_front H (a :: l1) R T); exact Sg).
        pose proof (seg_length _ _ _ Sg1) as Len. rewrite app_length in Len. cbn [length] in Len.
        destruct (unwind_to_ok l1 (S n) H a T ltac:(lia) Sg1) as (H' & q & Ut & La & Iq & D & O).
        rewrite Ut in Step. exists H', q. split; [apply reach_step; exact Step|]. split; [exact V|].
        split; [apply grows_refl|]. split; [|split; [intros i L; lia|]].
        * eapply static_ext; [|exact St0]. intros i L. destruct (in_dec Nat.eq_dec i (l1 ++ [T])) as [Ii|Ni]; [eapply land_same; eauto|].
          destruct (Nat.eq_dec i a) as [->|N1]; [destruct D as (D1 & D2 & _); auto|]. rewrite O by assumption. auto.
        * split; [exact D|]. split; [exact La|]. intros i L N1 N2. apply O; assumption.
      + destruct (in_dec Nat.eq_dec h live) as [Il|Il].
        * exfalso. apply Lv1; [reflexivity|exact Il].
        * cbn. apply fails_step. exact Step.
  Qed.

  (** *** All expressions *)
  Definition good f := forall a l homes live H k t env e, base a l homes live H -> l <> [] -> unw (H a) = false -> envok (length homes) env ->
       post (St a (Ev e env) k H (length homes) t) a l homes H k (sp ms false f a live env e homes t).
  Lemma val_ok f x l homes live H k v t : good f -> base x l homes live H -> vok (length homes) v ->
    postb (St x (Rt v) (KValue :: k) H (length homes) t) x l homes H k (spval f live v homes t).
  Proof.
    intros Gd B V. destruct v as [z| |c env o]; cbn [spval]; [cbn; apply fails_step; reflexivity|cbn; apply fails_step; reflexivity|].
    eapply postb_reach; [apply reach_step; reflexivity|]. exact (body_ok f x l homes live H k false o (nth o homes 0) env c t B V eq_refl Gd).
  Qed.
  Lemma base_unw x l homes live H : base x l homes live H -> meth (H x) = true -> base x l homes live (set_unw H x).
  Proof.
    intros (St & (Lv1 & Lv2) & Sg & X) M.
    assert (E : forall i, meth (set_unw H x i) = meth (H i) /\ par (set_unw H x i) = par (H i) /\ outer (set_unw H x i) = outer (H i)).
    { intros i. destruct (Nat.eq_dec i x) as [->|N]; [rewrite set_unw_same; auto|rewrite set_unw_other by exact N; auto]. }
    split; [eapply static_ext; [|exact St]; intros i _; destruct (E i) as (-> & _ & ->); auto|]. split; [split|].
    - intros i L Mi. destruct (E i) as (E1 & -> & _). apply Lv1; [exact L|]. rewrite <- E1. exact Mi.
    - exact Lv2.
    - split; [|exact X]. destruct Sg as (S1 & S2 & S3 & S4). cbn [seg]. rewrite set_unw_same. cbn. rewrite S1, M.
      repeat (split; [auto|]). eapply seg_ext; [|exact S4]. intros i Ii. assert (i < x) by (eapply seg_lt; [|exact Ii]; split; eauto).
      rewrite set_unw_other by lia. auto.
  Qed.

  (** Activating ensure: or on:do:, up to the evaluation of the receiver. *)
  Lemma protect_ok f a l homes live H k k1 c env o t : good f -> base a l homes live H -> vok (length homes) (VClo c env o) ->
    let n := length homes in let Hu := set_unw (newheap H a k n true 0) n in
    let Hb := newheap Hu n k1 (S n) false o in
    base n (a :: l) (homes ++ [n]) (n :: live) Hu /\
    postb (St n (Rt (VClo c env o)) (KMark :: k1) (newheap H a k n true 0) (S n) t) n (a :: l) (homes ++ [n]) Hu k1 (spval f (n :: live) (VClo c env o) (homes ++ [n]) t).
  Proof.
    intros Gd B V n Hu Hb. pose proof (base_new a l homes live H k true 0 n B eq_refl) as B1. fold n in B1. cbn in B1.
    assert (B2 : base n (a :: l) (homes ++ [n]) (n :: live) Hu) by (apply base_unw; [exact B1|rewrite newheap_new; reflexivity]).
    split; [exact B2|]. assert (Len : length (homes ++ [n]) = S n) by (rewrite app_length; cbn; unfold n; lia).
    assert (Vm : vok (length (homes ++ [n])) (VClo c env o)) by (rewrite Len; eapply vok_mono; [|exact V]; unfold n; lia).
    pose proof (body_ok f n (a :: l) (homes ++ [n]) (n :: live) Hu k1 false o (nth o (homes ++ [n]) 0) env c t B2 Vm eq_refl Gd) as Bd.
    cbn [spval]. rewrite Len in Bd. cbn beta zeta in Bd. eapply postb_reach; [apply reach_step|exact Bd]. reflexivity.
  Qed.

  (** The end of on:do: and ensure: when nothing is pending. *)
  Lemma leave_ok a l homes live H k H5 homes5 v t : base a l homes live H -> unw (H a) = false -> let n := length homes in
    grows homes homes5 -> n < length homes5 -> static H5 homes5 -> fresh H5 (S n) (length homes5) ->
    (forall i, i < n -> i <> a -> H5 i = H i) -> H5 a = withkon (H a) k -> par (H5 n) = Some a ->
    exists H6, step ms (St n (Rt v) [] H5 (length homes5) t) = Next (St a (Rt v) k H6 (length homes5) t) /\ quiet a homes H homes5 H6.
  Proof.
    intros B U n G Ln St F K Ka P. pose proof B as (_ & _ & Sg & A). fold n in A. assert (D : dis (H a) = false) by apply Sg.
    destruct (answer_ok n a H5 v t (length homes5) P A ltac:(rewrite Ka; exact D) Ln) as (H6 & Stp & A1 & A2 & A3).
    rewrite Ka in Stp. cbn [kon withkon] in Stp. exists H6. split; [exact Stp|]. split; [exact G|]. split; [|split; [|split]].
    - eapply static_ext; [|exact St]. intros i L. destruct (Nat.eq_dec i n) as [->|N1]; [rewrite A2; auto|].
      destruct (Nat.eq_dec i a) as [->|N2]; [rewrite A1; auto|]. rewrite A3 by assumption. auto.
    - intros i L M. fold n in L. destruct (Nat.eq_dec i n) as [->|N1]; [rewrite A2; reflexivity|].
      assert (E : H6 i = H5 i) by (apply A3; lia). rewrite E in *. apply F; [lia|exact M].
    - intros i L N. fold n in L. rewrite A3 by lia. apply K; assumption.
    - exists k. rewrite A1, Ka. unfold clearc, withkon. cbn. rewrite D, U. reflexivity.
  Qed.

  Lemma guard_ok f a l homes live H k b t : good f -> base a l homes live H -> unw (H a) = false -> vok (length homes) b ->
    post (St a (Rt b) (KGuard :: k) H (length homes) t) a l homes H k (spval f (length homes :: live) b (homes ++ [length homes]) t).
  Proof.
    intros Gd B U V. set (n := length homes). pose proof B as (_ & _ & Sg & A). fold n in A.
    destruct b as [z| |c env o]; [cbn; apply fails_step; reflexivity|cbn; apply fails_step; reflexivity|].
    eapply post_reach; [apply reach_step; reflexivity|].
    destruct (protect_ok f a l homes live H k [] c env o t Gd B V) as [B2 P]. fold n in B2, P.
    set (Hu := set_unw (newheap H a k n true 0) n) in *.
    assert (Len : length (homes ++ [n]) = S n) by (rewrite app_length; cbn; unfold n; lia).
    assert (Ua : Hu a = withkon (H a) k) by (unfold Hu; rewrite set_unw_other by lia; apply newheap_x; exact A).
    assert (Ui : forall i, i < n -> i <> a -> Hu i = H i) by (intros i L N; unfold Hu; rewrite set_unw_other by lia; apply newheap_old; assumption).
    assert (Un : Hu n = withunw (newctx true a 0)) by (unfold Hu; rewrite set_unw_same, newheap_new; reflexivity).
    destruct (spval f (n :: live) (VClo c env o) (homes ++ [n]) t) as [[v|h v] homes' t'|t'| |]; try exact P.
    - cbn in P. destruct P as (H' & R & Vv & G & St & F & K & Kn). rewrite Len in F, K. pose proof (grows_length _ _ G) as GL. rewrite Len in GL.
      destruct (leave_ok a l homes live H k H' homes' v t' B U) as (H6 & Stp & Q); fold n; try assumption.
      + eapply grows_trans; [apply grows_one|exact G].
      + intros i L N. rewrite K by lia. apply Ui; assumption.
      + rewrite K by lia. exact Ua.
      + rewrite Kn, Un. reflexivity.
      + cbn. exists H6. split; [eapply reach_trans; [exact R|apply reach_step; exact Stp]|]. split; [exact Vv|exact Q].
    - cbn. intros l1 T R El Eh. cbn in P. destruct (P (a :: l1) T R ltac:(rewrite El; reflexivity) ltac:(rewrite last_cons; exact Eh)) as (H' & q & Rr & Vv & G & St & F & La & K).
      rewrite Len in F, K. pose proof (grows_length _ _ G) as GL. rewrite Len in GL. cbn [app] in La, K.
      apply land_unw in La; [|rewrite set_kon_same, Un; reflexivity|discriminate]. destruct La as (-> & p & La & Lk).
      rewrite set_kon_same in La. rewrite La in Rr. cbn [kon withpar clearc withkon] in Rr.
      destruct (finish a l1 T R l homes live H k (set_kon Hu n []) H' homes' v t' B U El) as (H6 & q & Stp & J); fold n.
      + rewrite set_kon_other by lia. exact Ua.
      + intros i L N. rewrite set_kon_other by lia. apply Ui; assumption.
      + rewrite La. cbn [par withpar]. exact Lk.
      + eapply grows_trans; [apply grows_one|exact G].
      + lia.
      + exact St.
      + exact F.
      + intros i L N. rewrite K.
        * apply Ui; [exact L|]. intros ->. apply N. left. reflexivity.
        * lia.
        * intros [E|Ii]; [lia|contradiction].
      + exists H6, q. split; [eapply reach_trans; [exact Rr|apply reach_step; exact Stp]|]. split; [exact Vv|exact J].
  Qed.

  Lemma ensure_ok f a l homes live H k b c t : good f -> base a l homes live H -> unw (H a) = false -> vok (length homes) b -> vok (length homes) c ->
    post (St a (Rt c) (KEnsure b :: k) H (length homes) t) a l homes H k
      (let live' := length homes :: live in
       match spval f live' b (homes ++ [length homes]) t with
       | Res r homes' t' => spclean (spval f live' c homes' t') r
       | r => r
       end).
  Proof.
    intros Gd B U Vb Vc. set (n := length homes) in *. pose proof B as (_ & (Lv1 & Lv2) & Sg & A). fold n in A.
    cbv zeta. destruct b as [z| |cb env o]; [cbn; apply fails_step; reflexivity|cbn; apply fails_step; reflexivity|].
    eapply post_reach; [apply reach_step; reflexivity|].
    destruct (protect_ok f a l homes live H k [KResult c] cb env o t Gd B Vb) as [B2 P]. fold n in B2, P.
    cbn [hp this]. change (St (next (St a (Rt c) (KEnsure (VClo cb env o) :: k) H n t)) (Rt (VClo cb env o)) [KMark; KResult c]
      (upd (set_kon H a k) (next (St a (Rt c) (KEnsure (VClo cb env o) :: k) H n t)) (Ctx true false false (Some a) 0 [])) (S (next (St a (Rt c) (KEnsure (VClo cb env o) :: k) H n t)))
      (trace (St a (Rt c) (KEnsure (VClo cb env o) :: k) H n t))) with (St n (Rt (VClo cb env o)) [KMark; KResult c] (newheap H a k n true 0) (S n) t).
    set (s0 := St n (Rt (VClo cb env o)) [KMark; KResult c] (newheap H a k n true 0) (S n) t) in *.
    set (Hu := set_unw (newheap H a k n true 0) n) in *.
    assert (Len : length (homes ++ [n]) = S n) by (rewrite app_length; cbn; unfold n; lia).
    assert (Ua : Hu a = withkon (H a) k) by (unfold Hu; rewrite set_unw_other by lia; apply newheap_x; exact A).
    assert (Ui : forall i, i < n -> i <> a -> Hu i = H i) by (intros i L N; unfold Hu; rewrite set_unw_other by lia; apply newheap_old; assumption).
    assert (Un : Hu n = withunw (newctx true a 0)) by (unfold Hu; rewrite set_unw_same, newheap_new; reflexivity).
    destruct (spval f (n :: live) (VClo cb env o) (homes ++ [n]) t) as [[v|h v] homes' t'|t'| |]; try exact P; cbn [spclean].
    - cbn in P. destruct P as (H4 & R & Vv & G & Sta & F & K & Kn). rewrite Len in F, K. pose proof (grows_length _ _ G) as GL. rewrite Len in GL.
      assert (B4 : base n (a :: l) homes' (n :: live) H4).
      { eapply base_keep; [exact B2|exact G|exact Sta|rewrite Len; exact F|]. intros i L. rewrite Len in L.
        destruct (Nat.eq_dec i n) as [->|N]; [|right; apply K; [lia|exact N]]. left. rewrite Kn. cbn. repeat split. discriminate. }
      assert (Vc' : vok (length homes') c) by (eapply vok_mono; [|exact Vc]; lia).
      pose proof (val_ok f n (a :: l) homes' (n :: live) H4 [KAnswer v] c t' Gd B4 Vc') as P2.
      assert (R2 : reach s0 (St n (Rt c) [KValue; KAnswer v] H4 (length homes') t')).
      { eapply reach_trans; [exact R|]. apply reach_step. reflexivity. }
      assert (Un4 : unw (H4 n) = false) by (rewrite Kn; reflexivity).
      assert (K4a : H4 a = withkon (H a) k) by (rewrite K by lia; exact Ua).
      assert (K4 : forall i, i < n -> i <> a -> H4 i = H i) by (intros i L N; rewrite K by lia; apply Ui; assumption).
      destruct (spval f (n :: live) c homes' t') as [[w|h w] homes5 t5|t5| |]; cbn [spclean]; try exact I.
      + cbn in P2. destruct P2 as (H5 & R5 & V5 & G5 & St5 & F5 & K5 & K5n). pose proof (grows_length _ _ G5) as GL5.
        destruct (leave_ok a l homes live H k H5 homes5 v t5 B U) as (H6 & Stp & Q); fold n.
        * eapply grows_trans; [apply grows_one|]. eapply grows_trans; [exact G|exact G5].
        * lia.
        * exact St5.
        * intros i L M. destruct (Nat.lt_ge_cases i (length homes')) as [Lo|Hi]; [|apply F5; [lia|exact M]].
          assert (E : H5 i = H4 i) by (apply K5; lia). rewrite E in *. apply F; [lia|exact M].
        * intros i L N. rewrite K5 by lia. apply K4; assumption.
        * rewrite K5 by lia. exact K4a.
        * rewrite K5n. cbn. rewrite Kn. cbn. rewrite Un. reflexivity.
        * cbn. exists H6. split; [|split; [|exact Q]].
          -- eapply reach_trans; [exact R2|]. eapply reach_trans; [exact R5|]. eapply reach_trans; [apply reach_step; reflexivity|]. apply reach_step. exact Stp.
          -- eapply vok_mono; [exact GL5|exact Vv].
      + cbn. intros l1 T R' El Eh. cbn in P2.
        destruct (P2 (a :: l1) T R' ltac:(rewrite El; reflexivity) ltac:(rewrite last_cons; exact Eh)) as (H5 & q & R5 & V5 & G5 & St5 & F5 & La & K5).
        pose proof (grows_length _ _ G5) as GL5. cbn [app] in La, K5.
        apply land_tail in La; [|rewrite set_kon_same; exact Un4|discriminate]. destruct La as [Dn La].
        apply land_tail in La; [|rewrite set_kon_other by lia; rewrite K4a; exact U|destruct l1; discriminate]. destruct La as [Da La].
        assert (Lt : forall i, In i (l1 ++ [T]) -> i < a) by (intros i Ii; eapply seg_prefix_lt; eauto).
        exists H5, q. split; [eapply reach_trans; [exact R2|exact R5]|]. split; [exact V5|]. split; [|split; [exact St5|split; [|split; [|split]]]].
        * eapply grows_trans; [apply grows_one|]. eapply grows_trans; [exact G|exact G5].
        * intros i L M. fold n in L. destruct (Nat.eq_dec i n) as [->|N]; [apply Dn|].
          destruct (Nat.lt_ge_cases i (length homes')) as [Lo|Hi]; [|apply F5; [lia|exact M]].
          assert (E : H5 i = H4 i).
          { apply K5; [exact Lo|]. intros [E|[E|Ii]]; [lia|lia|]. specialize (Lt i Ii). lia. }
          rewrite E in *. apply F; [lia|exact M].
        * unfold dead in *. rewrite set_kon_other in Da by lia. rewrite K4a in Da. exact Da.
        * eapply land_ext; [|exact La]. intros i Ii. specialize (Lt i Ii). split; [|reflexivity]. rewrite set_kon_other by lia. symmetry. apply K4; lia.
        * intros i L N Ni. fold n in L. rewrite K5; [apply K4; assumption|lia|]. intros [E|[E|Ii]]; [lia|congruence|contradiction].
      + eapply reach_fails; [exact R2|exact P2].
    - destruct (spval f (n :: live) c homes' t') as [[w|h2 w] homes5 t5|t5| |] eqn:E5; cbn [spclean]; try exact I.
      cbn [post]. intros l1 T R' El Eh. cbn in P.
      destruct (P (a :: l1) T R' ltac:(rewrite El; reflexivity) ltac:(rewrite last_cons; exact Eh)) as (H4 & q & R & Vv & G & Sta & F & La & K).
      rewrite Len in F, K. pose proof (grows_length _ _ G) as GL. rewrite Len in GL. cbn [app] in La, K.
      apply land_unw in La; [|rewrite set_kon_same, Un; reflexivity|discriminate]. destruct La as (-> & p & La & Lk).
      rewrite set_kon_same in La. rewrite La in R. cbn [kon withpar clearc withkon] in R.
      set (Hk := set_kon Hu n [KResult c]) in *.
      assert (Ka : Hk a = withkon (H a) k) by (unfold Hk; rewrite set_kon_other by lia; exact Ua).
      assert (Ki : forall i, i < n -> i <> a -> Hk i = H i) by (intros i L N; unfold Hk; rewrite set_kon_other by lia; apply Ui; assumption).
      assert (Sg1 : seg H (a :: l1 ++ [T])) by (rewrite El in Sg; apply (seg_front H (a :: l1) R' T); exact Sg).
      assert (Lt : forall i, In i (a :: l1 ++ [T]) -> i < n).
      { intros i [<-|Ii]; [exact A|]. pose proof (seg_lt _ _ _ _ Sg1 Ii). lia. }
      assert (Km : forall i, i < n -> meth (Hk i) = meth (H i) /\ par (Hk i) = par (H i) /\ dis (Hk i) = dis (H i) /\ unw (Hk i) = unw (H i)).
      { intros i L. destruct (Nat.eq_dec i a) as [->|N]; [rewrite Ka; auto|rewrite Ki by assumption; auto]. }
      assert (Sgk : seg Hk (a :: l1 ++ [T])).
      { eapply seg_ext; [|exact Sg1]. intros i Ii. destruct (Km i (Lt i Ii)) as (M1 & M2 & M3 & M4). auto. }
      assert (K4 : forall i, i < n -> ~ In i (a :: l1 ++ [T]) -> H4 i = H i).
      { intros i L N. rewrite K.
        - apply Ui; [exact L|]. intros ->. apply N. left. reflexivity.
        - lia.
        - intros [E|Ii]; [lia|contradiction]. }
      assert (B4 : base n [] homes' (n :: live) H4).
      { split; [exact Sta|]. split; [split|split].
        - intros i L M. destruct (Nat.lt_ge_cases i n) as [Lo|Hi].
          + assert (X : par (H4 i) = None <-> par (H i) = None).
            { destruct (in_dec Nat.eq_dec i (a :: l1 ++ [T])) as [Ii|Ni]; [|rewrite K4 by assumption; tauto].
              destruct (Km i Lo) as (M1 & M2 & _). rewrite <- M2. apply (link_par Hk H4 p (a :: l1 ++ [T]) Sgk Lk i Ii).
              destruct (land_same Hk H4 (n :: a :: l1 ++ [T]) n i) as [E _]; [|right; exact Ii|congruence].
              exists [], (a :: l1 ++ [T]). split; [reflexivity|]. split; [intros ? []|]. right. unfold Hk. rewrite set_kon_same, Un. split; [reflexivity|].
              exists p. split; [rewrite La, Un; reflexivity|exact Lk]. }
            rewrite X. assert (Mi : meth (H i) = true).
            { destruct (in_dec Nat.eq_dec i (a :: l1 ++ [T])) as [Ii|Ni]; [|rewrite <- (K4 i Lo Ni); exact M].
              destruct (Km i Lo) as (M1 & _). rewrite <- M1. destruct (land_same Hk H4 (n :: a :: l1 ++ [T]) n i) as [E _]; [|right; exact Ii|congruence].
              exists [], (a :: l1 ++ [T]). split; [reflexivity|]. split; [intros ? []|]. right. unfold Hk. rewrite set_kon_same, Un. split; [reflexivity|].
              exists p. split; [rewrite La, Un; reflexivity|exact Lk]. }
            rewrite (Lv1 i Lo Mi). cbn [In]. split; [intros C [E|Ii]; [lia|contradiction]|intros C Ii; apply C; right; exact Ii].
          + destruct (Nat.eq_dec i n) as [->|N].
            * rewrite La. cbn. apply link_some in Lk. split; [contradiction|]. intros C. exfalso. apply C. left. reflexivity.
            * split; [|intros _; apply F; [lia|exact M]]. intros _ [E|Ii]; [lia|]. specialize (Lv2 i Ii). fold n in Lv2. lia.
        - intros i [<-|Ii]; [lia|]. specialize (Lv2 i Ii). fold n in Lv2. lia.
        - cbn. rewrite La. cbn. repeat split. discriminate.
        - lia. }
      assert (Vc' : vok (length homes') c) by (eapply vok_mono; [|exact Vc]; lia).
      pose proof (val_ok f n [] homes' (n :: live) H4 [KAnswer v] c t' Gd B4 Vc') as P2. rewrite E5 in P2.
      cbn in P2. destruct P2 as (H5 & R5 & V5 & G5 & St5 & F5 & K5 & K5n). pose proof (grows_length _ _ G5) as GL5.
      destruct (finish a l1 T R' l homes live H k Hk H5 homes5 v t5 B U El) as (H6 & q & Stp & J); fold n.
      + exact Ka.
      + exact Ki.
      + rewrite K5n, La. cbn [par clearc withkon withpar]. eapply link_ext; [|exact Lk]. intros i Ii. specialize (Lt i Ii). split; [reflexivity|apply K5; lia].
      + eapply grows_trans; [apply grows_one|]. eapply grows_trans; [exact G|exact G5].
      + lia.
      + exact St5.
      + intros i L M. destruct (Nat.lt_ge_cases i (length homes')) as [Lo|Hi]; [|apply F5; [lia|exact M]].
        assert (E : H5 i = H4 i) by (apply K5; lia). rewrite E in *. apply F; [lia|exact M].
      + intros i L N. rewrite K5 by lia. apply K4; assumption.
      + exists H6, q. split; [|split; [|exact J]].
        * eapply reach_trans; [exact R|]. eapply reach_trans; [apply reach_step; reflexivity|]. eapply reach_trans; [exact R5|].
          eapply reach_trans; [apply reach_step; reflexivity|]. apply reach_step. exact Stp.
        * eapply vok_mono; [exact GL5|exact Vv].
  Qed.

  Ltac eqsp := cbn [sp]; unfold bindr, spval, spbody, close, spclean; cbv zeta;
    repeat (try reflexivity; match goal with
      | |- context [sp ms false ?f ?a ?l ?v ?e ?h ?t] => destruct (sp ms false f a l v e h t)
      | |- context [match ?x with _ => _ end] => is_var x; destruct x
      | |- context [if Nat.eqb ?x ?y then _ else _] => destruct (Nat.eqb x y)
      | |- context [if in_dec ?x ?y ?z then _ else _] => destruct (in_dec x y z) end).
  Theorem all_good f : good f.
  Proof.
    induction f as [|f IH]; intros a l homes live H k t env e B Nl U Ve; [exact I|].
    pose proof B as (St0 & _ & Sg & A). set (n := length homes) in *.
    assert (Sub : forall e1 F, step ms (St a (Ev e env) k H n t) = Next (St a (Ev e1 env) (F :: k) H n t) ->
      post (St a (Ev e env) k H n t) a l homes H (F :: k) (sp ms false f a live env e1 homes t)).
    { intros e1 F E. eapply post_reach; [apply reach_step; exact E|]. apply IH; assumption. }
    assert (QU : forall homes1 H1, quiet a homes H homes1 H1 -> unw (H1 a) = false).
    { intros homes1 H1 (_ & _ & _ & _ & k1 & ->). exact U. }
    assert (QE : forall homes1 H1, quiet a homes H homes1 H1 -> envok (length homes1) env).
    { intros homes1 H1 (G & _). eapply envok_mono; [|exact Ve]. apply grows_length. exact G. }
    destruct e as [z|i|e|e1 e2|c e1 e2|e|e|m e|e|b c|b].
    - apply post_value; [exact St0|exact I|apply reach_step; reflexivity].
    - apply post_value; [exact St0|apply envok_nth; exact Ve|apply reach_step; reflexivity].
    - replace (sp ms false (S f) a live env (Out e) homes t) with (bindr (sp ms false f a live env e homes t) (fun v homes t => Res (Norm v) homes (t ++ [v]))) by eqsp.
      eapply post_bind; [exact B|apply (Sub e KOut); reflexivity|]. intros v homes1 H1 t1 V Q.
      apply post_value; [apply Q|exact V|apply reach_step; reflexivity].
    - replace (sp ms false (S f) a live env (Seq e1 e2) homes t) with (bindr (sp ms false f a live env e1 homes t) (fun _ homes t => sp ms false f a live env e2 homes t)) by eqsp.
      eapply post_bind; [exact B|apply (Sub e1 (KSeq e2 env)); reflexivity|]. intros v homes1 H1 t1 V Q.
      eapply post_reach; [apply reach_step; reflexivity|]. apply IH; [eapply quiet_base; eauto|exact Nl|eapply QU; eauto|eapply QE; eauto].
    - replace (sp ms false (S f) a live env (If c e1 e2) homes t) with (bindr (sp ms false f a live env c homes t) (fun v homes t => sp ms false f a live env (match v with VInt 0 => e2 | _ => e1 end) homes t)) by eqsp.
      eapply post_bind; [exact B|apply (Sub c (KIf e1 e2 env)); reflexivity|]. intros v homes1 H1 t1 V Q.
      eapply post_reach; [apply reach_step; reflexivity|]. apply IH; [eapply quiet_base; eauto|exact Nl|eapply QU; eauto|eapply QE; eauto].
    - apply post_value; [exact St0|cbn; split; [exact A|exact Ve]|apply reach_step; reflexivity].
    - replace (sp ms false (S f) a live env (Value e) homes t) with (bindr (sp ms false f a live env e homes t) (fun v homes t => spval f live v homes t)) by eqsp.
      eapply post_bind; [exact B|apply (Sub e KValue); reflexivity|]. intros v homes1 H1 t1 V Q.
      pose proof (quiet_base _ _ _ _ _ _ _ B Q) as B1. eapply postb_post; [exact B1|eapply QU; eauto|]. apply val_ok; assumption.
    - replace (sp ms false (S f) a live env (Send m e) homes t) with (bindr (sp ms false f a live env e homes t) (fun v homes t =>
        spbody f (length homes :: live) (length homes) [v] (nth m ms (Lit 0)) homes t)) by eqsp.
      eapply post_bind; [exact B|apply (Sub e (KSend m)); reflexivity|]. intros v homes1 H1 t1 V Q.
      pose proof (quiet_base _ _ _ _ _ _ _ B Q) as B1. eapply postb_post; [exact B1|eapply QU; eauto|].
      eapply postb_reach; [apply reach_step; reflexivity|].
      assert (V0 : vok (length homes1) (VClo (nth m ms (Lit 0)) [v] 0)) by (cbn; destruct B1 as (_ & _ & _ & A1); split; [lia|auto]).
      exact (body_ok f a l homes1 live H1 k true 0 (length homes1) [v] (nth m ms (Lit 0)) t1 B1 V0 eq_refl IH).
    - replace (sp ms false (S f) a live env (Ret e) homes t) with (bindr (sp ms false f a live env e homes t) (fun v homes t =>
        if in_dec Nat.eq_dec (nth a homes 0) live then Res (Jump (nth a homes 0) v) homes t else Error t)) by eqsp.
      eapply post_bind; [exact B|apply (Sub e KRet); reflexivity|]. intros v homes1 H1 t1 V Q.
      pose proof (quiet_base _ _ _ _ _ _ _ B Q) as B1. apply ret_ok; [exact B1|exact Nl|eapply QU; eauto|exact V].
    - replace (sp ms false (S f) a live env (Ens b c) homes t) with (bindr (sp ms false f a live env b homes t) (fun b homes t => bindr (sp ms false f a live env c homes t) (fun c homes t =>
        let live' := length homes :: live in
        match spval f live' b (homes ++ [length homes]) t with
        | Res r homes' t' => spclean (spval f live' c homes' t') r
        | r => r
        end))) by eqsp.
      eapply post_bind; [exact B|apply (Sub b (KEns c env)); reflexivity|]. intros vb homes1 H1 t1 Vb Q.
      pose proof (quiet_base _ _ _ _ _ _ _ B Q) as B1.
      eapply post_bind; [exact B1| |].
      + eapply post_reach; [apply reach_step; reflexivity|]. apply IH; [exact B1|exact Nl|eapply QU; eauto|eapply QE; eauto].
      + intros vc homes2 H2 t2 Vc Q2. pose proof (quiet_base _ _ _ _ _ _ _ B1 Q2) as B2.
        apply ensure_ok; [exact IH|exact B2|destruct Q2 as (_ & _ & _ & _ & k1 & ->); eapply QU; eauto| |exact Vc].
        eapply vok_mono; [|exact Vb]. apply grows_length. apply Q2.
    - replace (sp ms false (S f) a live env (Guard b) homes t) with (bindr (sp ms false f a live env b homes t) (fun b homes t => spval f (length homes :: live) b (homes ++ [length homes]) t)) by eqsp.
      eapply post_bind; [exact B|apply (Sub b KGuard); reflexivity|]. intros vb homes1 H1 t1 Vb Q.
      pose proof (quiet_base _ _ _ _ _ _ _ B Q) as B1. apply guard_ok; [exact IH|exact B1|eapply QU; eauto|exact Vb].
  Qed.
End Sim.
