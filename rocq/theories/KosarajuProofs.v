(** Proofs for kosaraju's strongly connected components (C82). *)
From Coq Require Import Strings.String Strings.Ascii.
From Verif Require Import Base DsfModel GraphModel GraphSpec GraphDict PathModel SccModel SccSpec TarjanProofs.
Import List.

Definition unseen (d : list (string * bool)) (V : list string) : nat := length (filter (fun x => negb (is_visited d x)) V).
Lemma unseen_le d V : (unseen d V <= length V)%nat.
Proof. unfold unseen. induction V as [|a V IH]; cbn; [lia|]. destruct (negb _); cbn; lia. Qed.
Lemma unseen_mono d V k : (unseen (sdset d k true) V <= unseen d V)%nat.
Proof. unfold unseen. induction V as [|a V IH]; cbn; [lia|]. rewrite on_set. destruct (SE a k); cbn; [destruct (negb _); cbn; lia|]. destruct (negb _); cbn; lia. Qed.
Lemma unseen_set d V k : In k V -> is_visited d k = false -> (unseen (sdset d k true) V < unseen d V)%nat.
Proof.
  induction V as [|a V IH]; cbn [In]; [tauto|]. intros H E. assert (M := unseen_mono d V k). unfold unseen in *. cbn [filter]. rewrite on_set. destruct (SE a k) as [->|Ha].
  - rewrite E. cbn. lia.
  - destruct H as [->|H]; [congruence|]. specialize (IH H E). destruct (negb _); cbn; lia.
Qed.
Definition inc (d : list (string * list string)) (v : string) : list string := match sdget d v with Some l => l | None => [] end.
Lemma inc_set d k l x : inc (sdset d k l) x = if String.eqb x k then l else inc d x.
Proof. unfold inc. rewrite sget_set. destruct (SE x k); reflexivity. Qed.

Lemma NoDup_snoc {A} (l : list A) x : NoDup l -> ~ In x l -> NoDup (l ++ [x]).
Proof. intros N H. eapply Permutation_NoDup; [apply Permutation_cons_append|]. constructor; assumption. Qed.

Lemma NoDup_app_intro {X} (l1 l2 : list X) : NoDup l1 -> NoDup l2 -> (forall x, In x l1 -> ~ In x l2) -> NoDup (l1 ++ l2).
Proof. induction l1 as [|a l1 IH]; cbn; [auto|]. intros N M D. inversion N; subst. constructor; [rewrite in_app_iff; intros [?|?]; [contradiction|apply (D a); auto]|apply IH; auto]. Qed.

Section K.
  Context (g : gview) (G : dg) (HG : represents g G).
  Notation V := (fst G). Notation E := (is_edge G). Notation R := (reachable G).

  Lemma eV u v : E u v -> In u V /\ In v V.
  Proof. destruct HG as (_ & _ & _ & _ & H & _). apply H. Qed.

  Definition inc_ok (vis : list (string * bool)) (incoming : list (string * list string)) : Prop :=
    (forall u v, In u (inc incoming v) <-> is_visited vis u = true /\ E u v) /\ forall v, NoDup (inc incoming v).

  Definition vinv (s : list string * list (string * bool) * list (string * list string) * list string) : Prop :=
    let '(stack, vis, incoming, L) := s in
    inc_ok vis incoming /\ (forall x, In x stack -> In x V) /\ (forall x, is_visited vis x = true -> In x stack \/ In x L) /\ (forall x, In x L -> In x V).

  Lemma kos_visit_ok vertex vis incoming L : In vertex V -> inc_ok vis incoming -> (forall x, is_visited vis x = true -> In x L) -> (forall x, In x L -> In x V) ->
    wp (kos_visit (kos_fuel g) g vertex (vis, incoming, L)) (fun '(vis', incoming', L') => inc_ok vis' incoming' /\ (forall x, is_visited vis' x = true -> In x L') /\
      (forall x, is_visited vis x = true -> is_visited vis' x = true) /\ is_visited vis' vertex = true /\ forall x, In x L' -> In x V).
  Proof.
    intros HV HI HL HLV. unfold kos_visit.
    apply (wp_while _ _ (fun s => vinv s /\ let '(stack, vis', _, _) := s in (forall x, is_visited vis x = true -> is_visited vis' x = true) /\ (In vertex stack \/ is_visited vis' vertex = true))
             (fun '(stack, vis, _, _) => (length stack + S (length V) * unseen vis V)%nat)).
    - clear HI HL HLV. intros [[[stack vis1] inc1] L1] ((HI & HS & HL & HLV) & HM & HR). destruct stack as [|top stack].
      { cbn [wp]. split; [exact HI|]. split; [intros x Hx; destruct (HL x Hx) as [[]|]; assumption|]. split; [exact HM|]. split; [destruct HR as [[]|]; assumption|exact HLV]. }
      assert (HT : In top V) by (apply HS; left; reflexivity).
      apply wp_bind. destruct (is_visited vis1 top) eqn:ET; cbn [negb].
      + cbn [wp]. rewrite String.eqb_refl. cbn [wp]. split; [|cbn [length]; lia]. split; [split; [exact HI|]; split; [intros; apply HS; right; assumption|]; split|].
        * intros x Hx. rewrite in_app_iff. destruct (HL x Hx) as [[->|?]|?]; [right; right; left; reflexivity|auto|auto].
        * intros x Hx. apply in_app_or in Hx as [Hx|[<-|[]]]; auto.
        * split; [exact HM|]. destruct HR as [[->|?]|?]; auto.
      + destruct HG as (_ & NV & _ & _ & _ & HN). destruct (HN top HT) as (nb & EN & NN & HNB). rewrite EN. cbn [bind].
        assert (LN : (length nb <= length V)%nat). { apply NoDup_incl_length; [exact NN|]. intros x Hx. apply HNB in Hx. apply eV in Hx. tauto. }
        set (vis2 := sdset vis1 top true).
        assert (V2 : forall x, is_visited vis2 x = if String.eqb x top then true else is_visited vis1 x) by (intros; apply on_set).
        eapply wp_mono.
        * apply (wp_forM _ _ nb _ (fun pre s => let '(stack', vis', inc') := s in vis' = vis2 /\
            (exists pushed, stack' = pushed ++ top :: stack /\ (length pushed <= length pre)%nat /\ (forall x, In x pushed -> In x V /\ is_visited vis2 x = false)) /\
            (forall u v, In u (inc inc' v) <-> (is_visited vis1 u = true /\ E u v) \/ (u = top /\ In v pre)) /\ forall v, NoDup (inc inc' v))).
          -- intros pre b post [[s' v'] i'] Epre (-> & (pushed & -> & LP & HP) & HU & HD). cbn [wp].
             assert (Eb : E top b). { apply HNB. rewrite Epre. apply in_elt. }
             assert (Nb : ~ In b pre). { rewrite Epre in NN. apply NoDup_remove_2 in NN. rewrite in_app_iff in NN. tauto. }
             split; [reflexivity|]. split; [|split].
             ++ destruct (is_visited vis2 b) eqn:Eb'; cbn [negb].
                ** exists pushed. split; [reflexivity|]. rewrite app_length. split; [lia|exact HP].
                ** exists (b :: pushed). split; [reflexivity|]. rewrite app_length. cbn [length]. split; [lia|]. intros x [<-|Hx]; [split; [apply eV in Eb; tauto|exact Eb']|auto].
             ++ intros u v. fold (inc i' b). rewrite inc_set. destruct (SE v b) as [->|Hv].
                ** rewrite in_app_iff, HU. cbn [In]. rewrite in_app_iff. cbn [In]. split; [intros [[H|H]|[<-|[]]]; tauto|intros [H|(-> & [H|[_|[]]])]; tauto].
                ** rewrite HU, in_app_iff. cbn [In]. split; [tauto|]. intros [H|(-> & [H|[->|[]]])]; [tauto|tauto|contradiction].
             ++ intros v. fold (inc i' b). rewrite inc_set. destruct (SE v b) as [->|Hv]; [|apply HD]. apply NoDup_snoc; [apply HD|]. rewrite HU. intros [(X & _)|(_ & X)]; [congruence|contradiction].
          -- split; [reflexivity|]. split; [exists []; cbn; split; [reflexivity|split; [lia|tauto]]|]. split; [|apply HI]. intros u v. rewrite (proj1 HI). cbn. tauto.
        * intros [[s' v'] i'] (-> & (pushed & -> & LP & HP) & HU & HD).
          assert (M : (unseen vis2 V < unseen vis1 V)%nat) by (apply unseen_set; assumption).
          assert (IO : inc_ok vis2 i'). { split; [|exact HD]. intros u v. rewrite HU, V2, HNB. destruct (SE u top) as [->|Hu]; [rewrite ET; intuition congruence|intuition congruence]. }
          assert (MM : forall x, is_visited vis x = true -> is_visited vis2 x = true). { intros x Hx. rewrite V2, (HM x Hx). destruct (String.eqb x top); reflexivity. }
          destruct pushed as [|p pushed]; cbn [app].
          -- rewrite String.eqb_refl. cbn [wp]. split; [split; [split; [exact IO|split; [intros; apply HS; right; assumption|split]]|split; [exact MM|]]|cbn [length]; nia].
             ++ intros x. rewrite V2, in_app_iff. destruct (SE x top) as [->|Hx]; [right; right; left; reflexivity|]. intros Hv. destruct (HL x Hv) as [[->|?]|?]; [contradiction|auto|auto].
             ++ intros x Hx. apply in_app_or in Hx as [Hx|[<-|[]]]; auto.
             ++ rewrite V2. destruct (SE vertex top) as [->|Hx]; [auto|]. destruct HR as [[->|?]|?]; [contradiction|auto|auto].
          -- destruct (SE top p) as [->|Hp]; [exfalso; destruct (HP p (or_introl eq_refl)) as (_ & X); rewrite V2, String.eqb_refl in X; discriminate|].
             cbn [wp]. change (p :: pushed ++ top :: stack) with ((p :: pushed) ++ top :: stack). split; [split; [split; [exact IO|split; [|split; [|exact HLV]]]|split; [exact MM|]]|rewrite app_length; cbn [length] in *; nia].
             ++ intros x Hx. apply in_app_or in Hx as [Hx|Hx]; [apply HP; exact Hx|apply HS; exact Hx].
             ++ intros x. rewrite V2, in_app_iff. destruct (SE x top) as [->|Hx]; [left; right; left; reflexivity|]. intros Hv. destruct (HL x Hv); auto.
             ++ rewrite V2, in_app_iff. destruct (SE vertex top) as [->|Hx]; [auto|]. destruct HR; auto.
    - split; [split; [exact HI|split; [intros x [<-|[]]; exact HV|split; [intros x Hx; right; auto|exact HLV]]]|]. split; [auto|left; left; reflexivity].
    - unfold kos_fuel. destruct HG as (-> & _). assert (U := unseen_le vis V). cbn [length]. nia.
  Qed.

  Definition preds_in (P : string -> Prop) : Prop := forall u v, E u v -> P v -> P u.
  Lemma preds_reach (P : string -> Prop) u v : preds_in P -> R u v -> P v -> P u.
  Proof. intros H [n K]. induction K; [auto|]. intros Pv. apply IHK. eapply H; eauto. Qed.

  Context (HIN : forall v, In v V -> exists u, E u v) (vis : list (string * bool)) (incoming : list (string * list string)) (HI : inc_ok vis incoming) (HALL : forall x, In x V -> is_visited vis x = true).
  Lemma inc_get v : In v V -> exists l, dgetE incoming v = Ret l /\ NoDup l /\ forall u, In u l <-> E u v.
  Proof.
    intros Hv. destruct (HIN v Hv) as (u & Hu). destruct HI as (H1 & H2). unfold dgetE. assert (K : In u (inc incoming v)) by (apply H1; split; [apply HALL; apply eV in Hu; tauto|exact Hu]).
    unfold inc in *. specialize (H2 v). assert (H3 := fun w => H1 w v). cbn beta in H3. destruct (sdget incoming v) as [l|]; [|contradiction]. exists l. split; [reflexivity|]. split; [exact H2|]. intros w. rewrite H3. split; [tauto|]. intros X. split; [apply HALL; apply eV in X; tauto|exact X].
  Qed.

  Definition seen (d : list (string * bool)) (x : string) : Prop := is_visited d x = true.
  (** the component of [r] is what reaches [r] and was not assigned before *)
  Lemma kos_assign_ok r A0 : In r V -> ~ seen A0 r -> preds_in (seen A0) -> (forall x, seen A0 x -> In x V) ->
    wp (kos_assign (kos_fuel g) incoming r (A0, [])) (fun '(A1, C) => NoDup C /\ In r C /\ preds_in (seen A1) /\ (forall x, seen A1 x <-> seen A0 x \/ In x C) /\ (forall x, In x C -> ~ seen A0 x /\ In x V /\ R x r)).
  Proof.
    intros HV HR HP HA. unfold kos_assign.
    apply (wp_while _ _ (fun '(stack, A, C) => (forall x, In x stack -> In x V /\ R x r) /\ (In r stack \/ In r C) /\ NoDup C /\ (forall x, seen A x <-> seen A0 x \/ In x C) /\
              (forall x, In x C -> ~ seen A0 x /\ In x V /\ R x r) /\ (forall u v, E u v -> In v C -> seen A u \/ In u stack))
             (fun '(stack, A, _) => (length stack + S (length V) * unseen A V)%nat)).
    - intros [[stack A] C] (HS & HRC & NC & HAC & HC & HE). destruct stack as [|top stack].
      { cbn [wp]. destruct HRC as [[]|HRC]. split; [exact NC|]. split; [exact HRC|]. split; [|auto]. intros u v Huv Hv. apply HAC in Hv as [Hv|Hv]; [apply HAC; left; eapply HP; eauto|]. destruct (HE u v Huv Hv) as [?|[]]; assumption. }
      destruct (HS top (or_introl eq_refl)) as (HT & RT). apply wp_bind. destruct (is_visited A top) eqn:ET; cbn [negb].
      + cbn [wp]. rewrite String.eqb_refl. cbn [wp]. split; [|cbn [length]; lia]. split; [intros; apply HS; right; assumption|]. split; [|split; [exact NC|split; [exact HAC|split; [exact HC|]]]].
        * destruct HRC as [[->|?]|?]; [|auto|auto]. apply HAC in ET as [ET|ET]; [contradiction|auto].
        * intros u v Huv Hv. destruct (HE u v Huv Hv) as [?|[->|?]]; auto.
      + destruct (inc_get top HT) as (l & El & NL & HL). rewrite El. cbn [bind].
        assert (LN : (length l <= length V)%nat). { apply NoDup_incl_length; [exact NL|]. intros x Hx. apply HL in Hx. apply eV in Hx. tauto. }
        assert (NT : ~ In top C). { intros X. assert (Y : seen A top) by (apply HAC; auto). unfold seen in Y. congruence. }
        assert (EC : set_add C top = C ++ [top]). { unfold set_add. destruct (mem_spec top C); [contradiction|reflexivity]. } rewrite EC.
        set (A2 := sdset A top true).
        assert (V2 : forall x, is_visited A2 x = if String.eqb x top then true else is_visited A x) by (intros; apply on_set).
        assert (AC : forall x, seen A2 x <-> seen A0 x \/ In x (C ++ [top])).
        { intros x. unfold seen. rewrite V2, in_app_iff. cbn [In]. destruct (SE x top) as [->|Hx]; [tauto|]. fold (seen A x). rewrite HAC. unfold seen. intuition congruence. }
        assert (CC : forall x, In x (C ++ [top]) -> ~ seen A0 x /\ In x V /\ R x r).
        { intros x Hx. apply in_app_or in Hx as [Hx|[<-|[]]]; [auto|]. split; [|auto]. intros X. assert (Y : seen A top) by (apply HAC; auto). unfold seen in Y. congruence. }
        eapply wp_mono.
        * apply (wp_forM _ _ l _ (fun pre s => let '(stack', A', C') := s in A' = A2 /\ C' = C ++ [top] /\
            (exists pushed, stack' = pushed ++ top :: stack /\ (length pushed <= length pre)%nat /\ (forall x, In x pushed -> In x V /\ R x r /\ is_visited A2 x = false) /\ forall x, In x pre -> seen A2 x \/ In x pushed))).
          -- intros pre b post [[s' v'] i'] Epre (-> & -> & pushed & -> & LP & HPU & HPR). cbn [wp].
             assert (Eb : E b top). { apply HL. rewrite Epre. apply in_elt. }
             split; [reflexivity|]. split; [reflexivity|]. destruct (is_visited A2 b) eqn:Eb'; cbn [negb].
             ++ exists pushed. split; [reflexivity|]. rewrite app_length. split; [lia|]. split; [exact HPU|]. intros x Hx. apply in_app_or in Hx as [Hx|[<-|[]]]; auto.
             ++ exists (b :: pushed). split; [reflexivity|]. rewrite app_length. cbn [length]. split; [lia|]. split.
                ** intros x [<-|Hx]; [|auto]. split; [apply eV in Eb; tauto|]. split; [|exact Eb']. eapply reach_trans; [apply reach_edge; exact Eb|exact RT].
                ** intros x Hx. apply in_app_or in Hx as [Hx|[<-|[]]]; [|right; left; reflexivity]. destruct (HPR x Hx); [auto|right; right; assumption].
          -- split; [reflexivity|]. split; [reflexivity|]. exists []. cbn. split; [reflexivity|]. split; [lia|]. tauto.
        * intros [[s' v'] i'] (-> & -> & pushed & -> & LP & HPU & HPR).
          assert (M : (unseen A2 V < unseen A V)%nat) by (apply unseen_set; assumption).
          assert (HE2 : forall u v, E u v -> In v (C ++ [top]) -> seen A2 u \/ In u pushed \/ In u stack).
          { intros u v Huv Hv. apply in_app_or in Hv as [Hv|[<-|[]]].
            - destruct (HE u v Huv Hv) as [X|[->|X]]; [left; apply AC; rewrite in_app_iff; apply HAC in X; tauto|left; apply AC; rewrite in_app_iff; cbn [In]; tauto|auto].
            - destruct (HPR u); [apply HL; exact Huv|auto|auto]. }
          assert (RC : In r stack \/ In r (C ++ [top])) by (rewrite in_app_iff; cbn [In]; destruct HRC as [[->|?]|?]; auto).
          assert (NC2 := NoDup_snoc C top NC NT).
          destruct pushed as [|p pushed]; cbn [app].
          -- rewrite String.eqb_refl. cbn [wp]. split; [|cbn [length]; nia]. split; [intros; apply HS; right; assumption|]. split; [exact RC|]. split; [exact NC2|]. split; [exact AC|]. split; [exact CC|].
             intros u v Huv Hv. destruct (HE2 u v Huv Hv) as [?|[[]|?]]; auto.
          -- destruct (SE top p) as [->|Hp]; [exfalso; destruct (HPU p (or_introl eq_refl)) as (_ & _ & X); rewrite V2, String.eqb_refl in X; discriminate|].
             cbn [wp]. change (p :: pushed ++ top :: stack) with ((p :: pushed) ++ top :: stack). split; [|rewrite app_length; cbn [length] in *; nia].
             split; [intros x Hx; apply in_app_or in Hx as [Hx|Hx]; [destruct (HPU x Hx) as (? & ? & _); auto|apply HS; exact Hx]|].
             split; [rewrite in_app_iff; cbn [In]; destruct RC; auto|]. split; [exact NC2|]. split; [exact AC|]. split; [exact CC|].
             intros u v Huv Hv. rewrite in_app_iff. cbn [In] in *. destruct (HE2 u v Huv Hv) as [?|[?|?]]; auto.
    - split; [intros x [<-|[]]; auto using reach_refl|]. split; [left; left; reflexivity|]. split; [constructor|]. split; [cbn; tauto|]. split; cbn; tauto.
    - unfold kos_fuel. destruct HG as (-> & _). assert (U := unseen_le A0 V). cbn [length]. nia.
  Qed.
End K.

Definition kos_comp (G : dg) (C : list string) : Prop := (exists r, In r C /\ forall u, In u C -> reachable G u r) /\ forall u v, In u C -> mutual G u v -> In v C.
Lemma kosaraju_ok g G : represents g G -> (forall v, In v (fst G) -> exists u, is_edge G u v) ->
  wp (kosaraju g) (fun comps => Permutation (concat comps) (fst G) /\ forall C, In C comps -> kos_comp G C).
Proof.
  intros HG HIN. assert (EV := proj1 HG). assert (NV := proj1 (proj2 HG)). unfold kosaraju. rewrite EV. apply wp_bind. eapply wp_mono.
  { apply (wp_forM _ _ (fst G) _ (fun pre s => let '(vis, incoming, L) := s in inc_ok G vis incoming /\ (forall x, is_visited vis x = true -> In x L) /\ (forall x, In x pre -> is_visited vis x = true) /\ forall x, In x L -> In x (fst G))).
    - intros pre b post [[vis incoming] L] Epre (H1 & H2 & H3 & H4). destruct (is_visited vis b) eqn:Eb; cbn [negb].
      + cbn [wp]. split; [exact H1|]. split; [exact H2|]. split; [|exact H4]. intros x Hx. apply in_app_or in Hx as [Hx|[<-|[]]]; auto.
      + eapply wp_mono; [apply (kos_visit_ok g G HG b vis incoming L); [rewrite Epre; apply in_elt|exact H1|exact H2|exact H4]|]. intros [[v' i'] L'] (K1 & K2 & K3 & K4 & K5). split; [exact K1|]. split; [exact K2|]. split; [|exact K5]. intros x Hx. apply in_app_or in Hx as [Hx|[<-|[]]]; auto.
    - split; [|split; [cbn; discriminate|cbn; split; tauto]]. split; [|constructor]. intros u v. cbn. split; [tauto|]. intros (X & _). discriminate. }
  intros [[vis incoming] L] (H1 & H2 & H3 & H4). cbn [wp]. apply wp_bind.
  eapply wp_mono.
  { apply (wp_forM _ _ (rev L) _ (fun pre s => let '(A, comps) := s in preds_in G (seen A) /\ (forall x, seen A x <-> In x (concat comps)) /\ (forall x, In x (concat comps) -> In x (fst G)) /\ NoDup (concat comps) /\
       (forall x, In x pre -> In x (fst G) -> seen A x) /\ forall C, In C comps -> kos_comp G C)).
    - intros pre b post [A comps] Epre (K1 & K2 & K3 & K4 & K5 & K6). destruct (is_visited A b) eqn:Eb; cbn [negb].
      + cbn [wp bind]. split; [exact K1|]. split; [exact K2|]. split; [exact K3|]. split; [exact K4|]. split; [|exact K6]. intros x Hx Hv. apply in_app_or in Hx as [Hx|[<-|[]]]; [auto|exact Eb].
      + apply wp_bind. eapply wp_mono.
        * apply (kos_assign_ok g G HG HIN vis incoming H1 H3 b A); [|unfold seen; congruence|exact K1|intros; apply K3, K2; assumption]. apply H4. rewrite in_rev, Epre. apply in_elt.
        * intros [A1 C] (C1 & C2 & C3 & C4 & C5). destruct C as [|c0 C]; [destruct C2|]. cbn [wp]. remember (c0 :: C) as D. clear HeqD. rewrite concat_app. cbn [concat]. rewrite app_nil_r.
          split; [exact C3|]. split; [intros x; rewrite C4, K2, in_app_iff; tauto|]. split; [intros x Hx; apply in_app_or in Hx as [Hx|Hx]; [auto|apply C5; exact Hx]|].
          split; [|split].
          -- apply NoDup_app_intro; [exact K4|exact C1|]. intros x Hx Hc. apply (proj1 (C5 x Hc)). apply K2. exact Hx.
          -- intros x Hx Hv. apply C4. apply in_app_or in Hx as [Hx|[<-|[]]]; auto.
          -- intros C' HC'. apply in_app_or in HC' as [HC'|[<-|[]]]; [auto|]. split; [exists b; split; [exact C2|intros u Hu; apply C5; exact Hu]|].
             intros u v Hu (M1 & M2). assert (S1 : seen A1 v) by (eapply preds_reach; [exact C3|exact M2|apply C4; auto]). apply C4 in S1 as [S1|S1]; [|exact S1].
             exfalso. apply (proj1 (C5 u Hu)). eapply preds_reach; [exact K1|exact M1|exact S1].
    - cbn. split; [intros u v _ X; discriminate|]. split; [intros x; split; [discriminate|tauto]|]. split; [tauto|]. split; [constructor|]. split; tauto. }
  intros [A comps] (K1 & K2 & K3 & K4 & K5 & K6). cbn [wp]. split; [|exact K6]. apply NoDup_Permutation; [exact K4|exact NV|]. intros x. split; [apply K3|].
  intros Hx. apply K2, K5; [rewrite <- in_rev; apply H2, H3, Hx|exact Hx].
Qed.
