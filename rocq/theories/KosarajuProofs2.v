(** Proofs for kosaraju on graphs where some vertex has no incoming edge (C82). *)
From Coq Require Import Strings.String Strings.Ascii.
From Verif Require Import Base DsfModel GraphModel GraphSpec GraphDict PathModel SccModel SccSpec TarjanProofs KosarajuProofs ExactProofs.
Import List.

(** returns with [Q], or raises KeyError *)
Definition wpk {A} (m : res A) (Q : A -> Prop) : Prop := match m with Ret a => Q a | Raise KeyError => True | _ => False end.
Lemma wpk_bind A B (m : res A) (k : A -> res B) (Q : B -> Prop) : wpk m (fun a => wpk (k a) Q) -> wpk (bind m k) Q.
Proof. destruct m as [a|e|]; simpl; auto. Qed.
Lemma wpk_mono A (m : res A) (P Q : A -> Prop) : wpk m P -> (forall a, P a -> Q a) -> wpk m Q.
Proof. destruct m as [a|e|]; simpl; auto. Qed.
Lemma wpk_wp A (m : res A) (Q : A -> Prop) : wp m Q -> wpk m Q.
Proof. destruct m as [a|e|]; simpl; tauto. Qed.
Lemma wpk_while S R (I : S -> Prop) (m : S -> nat) (Q : R -> Prop) body :
  (forall s, I s -> wpk (body s) (fun r => match r with Next s' => I s' /\ (m s' < m s)%nat | Break r => Q r end)) ->
  forall fuel s, I s -> (m s < fuel)%nat -> wpk (while_loop fuel body s) Q.
Proof.
  intros Hb fuel; induction fuel as [|f IH]; intros s HI Hm; [lia|].
  cbn [while_loop]. specialize (Hb s HI).
  destruct (body s) as [[s'|r]|e|]; simpl in Hb; try contradiction; [|exact Hb|exact Hb].
  destruct Hb as [HI' Hm']; apply IH; [exact HI'|lia].
Qed.
Lemma wpk_forM B S (l : list B) (body : B -> S -> res S) (I : list B -> S -> Prop) :
  (forall pre b post s, l = pre ++ b :: post -> I pre s -> wpk (body b s) (I (pre ++ [b]))) ->
  forall s, I [] s -> wpk (forM l body s) (I l).
Proof.
  intros Hb.
  assert (G : forall rest pre s, l = pre ++ rest -> I pre s -> wpk (forM rest body s) (I l)).
  { induction rest as [|b rest IH]; intros pre s E HI.
    - simpl. rewrite app_nil_r in E. subst l. exact HI.
    - simpl. apply wpk_bind. eapply wpk_mono; [apply (Hb pre b rest s E HI)|].
      intros s' HI'. apply (IH (pre ++ [b])); [rewrite <- app_assoc; exact E|exact HI']. }
  intros s HI; apply (G l []); auto.
Qed.

Section K.
  Context (g : gview) (G : dg) (HG : represents g G).
  Notation V := (fst G). Notation E := (is_edge G). Notation R := (reachable G).
  Context (vis : list (string * bool)) (incoming : list (string * list string)) (HI : inc_ok G vis incoming) (HALL : forall x, In x V -> is_visited vis x = true).
  Lemma inc_getk v : In v V -> (exists l, dgetE incoming v = Ret l /\ NoDup l /\ (forall u, In u l <-> E u v)) \/ dgetE incoming v = Raise KeyError.
  Proof.
    intros Hv. destruct HI as (H1 & H2). unfold dgetE. specialize (H2 v). assert (H3 := fun w => H1 w v). cbn beta in H3. unfold inc in *. destruct (sdget incoming v) as [l|]; [|right; reflexivity]. left. exists l. split; [reflexivity|]. split; [exact H2|]. intros w. rewrite H3. split; [tauto|]. intros X. split; [apply HALL; apply (eV g G HG) in X; tauto|exact X].
  Qed.
  (** if the key is present the vertex has an incoming edge *)
  Context (HKEY : forall v l, In v V -> dgetE incoming v = Ret l -> exists u, E u v).
  (** the component of [r] is what reaches [r] and was not assigned before *)
  Lemma kos_assign_okk r A0 : In r V -> ~ seen A0 r -> preds_in G (seen A0) -> (forall x, seen A0 x -> In x V) ->
    wpk (kos_assign (kos_fuel g) incoming r (A0, [])) (fun '(A1, C) => NoDup C /\ In r C /\ preds_in G (seen A1) /\ (forall x, seen A1 x <-> seen A0 x \/ In x C) /\ (forall x, In x C -> ~ seen A0 x /\ In x V /\ R x r /\ exists u, E u x)).
  Proof.
    intros HV HR HP HA. unfold kos_assign.
    apply (wpk_while _ _ (fun '(stack, A, C) => (forall x, In x stack -> In x V /\ R x r) /\ (In r stack \/ In r C) /\ NoDup C /\ (forall x, seen A x <-> seen A0 x \/ In x C) /\
              (forall x, In x C -> ~ seen A0 x /\ In x V /\ R x r /\ exists u, E u x) /\ (forall u v, E u v -> In v C -> seen A u \/ In u stack))
             (fun '(stack, A, _) => (length stack + S (length V) * unseen A V)%nat)).
    - intros [[stack A] C] (HS & HRC & NC & HAC & HC & HE). destruct stack as [|top stack].
      { cbn [wpk]. destruct HRC as [[]|HRC]. split; [exact NC|]. split; [exact HRC|]. split; [|auto]. intros u v Huv Hv. apply HAC in Hv as [Hv|Hv]; [apply HAC; left; eapply HP; eauto|]. destruct (HE u v Huv Hv) as [?|[]]; assumption. }
      destruct (HS top (or_introl eq_refl)) as (HT & RT). apply wpk_bind. destruct (is_visited A top) eqn:ET; cbn [negb].
      + cbn [wpk]. rewrite String.eqb_refl. cbn [wpk]. split; [|cbn [length]; lia]. split; [intros; apply HS; right; assumption|]. split; [|split; [exact NC|split; [exact HAC|split; [exact HC|]]]].
        * destruct HRC as [[->|?]|?]; [|auto|auto]. apply HAC in ET as [ET|ET]; [contradiction|auto].
        * intros u v Huv Hv. destruct (HE u v Huv Hv) as [?|[->|?]]; auto.
      + destruct (inc_getk top HT) as [(l & El & NL & HL)|El]; rewrite El; cbn [bind]; [|exact I].
        assert (LN : (length l <= length V)%nat). { apply NoDup_incl_length; [exact NL|]. intros x Hx. apply HL in Hx. apply (eV g G HG) in Hx. tauto. }
        assert (NT : ~ In top C). { intros X. assert (Y : seen A top) by (apply HAC; auto). unfold seen in Y. congruence. }
        assert (EC : set_add C top = C ++ [top]). { unfold set_add. destruct (mem_spec top C); [contradiction|reflexivity]. } rewrite EC.
        set (A2 := sdset A top true).
        assert (V2 : forall x, is_visited A2 x = if String.eqb x top then true else is_visited A x) by (intros; apply on_set).
        assert (AC : forall x, seen A2 x <-> seen A0 x \/ In x (C ++ [top])).
        { intros x. unfold seen. rewrite V2, in_app_iff. cbn [In]. destruct (SE x top) as [->|Hx]; [tauto|]. fold (seen A x). rewrite HAC. unfold seen. intuition congruence. }
        assert (CC : forall x, In x (C ++ [top]) -> ~ seen A0 x /\ In x V /\ R x r /\ exists u, E u x).
        { intros x Hx. apply in_app_or in Hx as [Hx|[<-|[]]]; [auto|]. split; [|split; [exact HT|split; [exact RT|exact (HKEY top l HT El)]]]. intros X. assert (Y : seen A top) by (apply HAC; auto). unfold seen in Y. congruence. }
        eapply wpk_mono.
        * apply (wpk_forM _ _ l _ (fun pre s => let '(stack', A', C') := s in A' = A2 /\ C' = C ++ [top] /\
            (exists pushed, stack' = pushed ++ top :: stack /\ (length pushed <= length pre)%nat /\ (forall x, In x pushed -> In x V /\ R x r /\ is_visited A2 x = false) /\ forall x, In x pre -> seen A2 x \/ In x pushed))).
          -- intros pre b post [[s' v'] i'] Epre (-> & -> & pushed & -> & LP & HPU & HPR). cbn [wpk].
             assert (Eb : E b top). { apply HL. rewrite Epre. apply in_elt. }
             split; [reflexivity|]. split; [reflexivity|]. destruct (is_visited A2 b) eqn:Eb'; cbn [negb].
             ++ exists pushed. split; [reflexivity|]. rewrite app_length. split; [lia|]. split; [exact HPU|]. intros x Hx. apply in_app_or in Hx as [Hx|[<-|[]]]; auto.
             ++ exists (b :: pushed). split; [reflexivity|]. rewrite app_length. cbn [length]. split; [lia|]. split.
                ** intros x [<-|Hx]; [|auto]. split; [apply (eV g G HG) in Eb; tauto|]. split; [|exact Eb']. eapply reach_trans; [apply reach_edge; exact Eb|exact RT].
                ** intros x Hx. apply in_app_or in Hx as [Hx|[<-|[]]]; [|right; left; reflexivity]. destruct (HPR x Hx); [auto|right; right; assumption].
          -- split; [reflexivity|]. split; [reflexivity|]. exists []. cbn. split; [reflexivity|]. split; [lia|]. tauto.
        * intros [[s' v'] i'] (-> & -> & pushed & -> & LP & HPU & HPR).
          assert (M : (unseen A2 V < unseen A V)%nat) by (apply unseen_set; assumption).
          assert (HE2 : forall u v, E u v -> In v (C ++ [top]) -> seen A2 u \/ In u pushed \/ In u stack).
          { intros u v Huv Hv. apply in_app_or in Hv as [Hv|[<-|[]]].
            - destruct (HE u v Huv Hv) as [X|[->|X]]; [left; apply AC; rewrite in_app_iff; apply HAC in X; tauto|left; apply AC; rewrite in_app_iff; cbn [In]; tauto|auto].
            - destruct (HPR u); [apply HL; exact Huv|auto|auto]. }
          assert (RC : In r stack \/ In r (C ++ [top])) by (rewrite in_app_iff; cbn [In]; destruct HRC as [[->|?]|?]; auto).
          assert (NC2 := NoDup_snoc C top NC NT).
          destruct pushed as [|p pushed]; cbn [app].
          -- rewrite String.eqb_refl. cbn [wpk]. split; [|cbn [length]; nia]. split; [intros; apply HS; right; assumption|]. split; [exact RC|]. split; [exact NC2|]. split; [exact AC|]. split; [exact CC|].
             intros u v Huv Hv. destruct (HE2 u v Huv Hv) as [?|[[]|?]]; auto.
          -- destruct (SE top p) as [->|Hp]; [exfalso; destruct (HPU p (or_introl eq_refl)) as (_ & _ & X); rewrite V2, String.eqb_refl in X; discriminate|].
             cbn [wpk]. change (p :: pushed ++ top :: stack) with ((p :: pushed) ++ top :: stack). split; [|rewrite app_length; cbn [length] in *; nia].
             split; [intros x Hx; apply in_app_or in Hx as [Hx|Hx]; [destruct (HPU x Hx) as (? & ? & _); auto|apply HS; exact Hx]|].
             split; [rewrite in_app_iff; cbn [In]; destruct RC; auto|]. split; [exact NC2|]. split; [exact AC|]. split; [exact CC|].
             intros u v Huv Hv. rewrite in_app_iff. cbn [In] in *. destruct (HE2 u v Huv Hv) as [?|[?|?]]; auto.
    - split; [intros x [<-|[]]; auto using reach_refl|]. split; [left; left; reflexivity|]. split; [constructor|]. split; [cbn; tauto|]. split; cbn; tauto.
    - unfold kos_fuel. destruct HG as (-> & _). assert (U := unseen_le A0 V). cbn [length]. nia.
  Qed.
End K.

Definition filled (incoming : list (string * list string)) : Prop := forall v l, sdget incoming v = Some l -> l <> [].
Lemma filled_set incoming k l : filled incoming -> l <> [] -> filled (sdset incoming k l).
Proof. intros F N v m. rewrite sget_set. destruct (SE v k) as [->|Hv]; [congruence|apply F]. Qed.
Lemma kos_visit_filled g fuel : forall stack visited incoming L r, filled incoming ->
  while_loop fuel (fun '(stack, visited, incoming, L) =>
    match stack with
    | [] => Ret (Break (visited, incoming, L))
    | top :: _ =>
      ' (stack, visited, incoming) <- (if negb (is_visited visited top) then
          let visited := sdset visited top true in
          neighbors <- gv_neighbors g top ;;
          forM neighbors (fun node '(stack, visited, incoming) =>
            let incoming := sdset incoming node ((match sdget incoming node with Some l => l | None => [] end) ++ [top]) in
            Ret (if negb (is_visited visited node) then node :: stack else stack, visited, incoming)) (stack, visited, incoming)
        else Ret (stack, visited, incoming)) ;;
      match stack with
      | top' :: stack' => if String.eqb top top' then Ret (Next (stack', visited, incoming, L ++ [top'])) else Ret (Next (stack, visited, incoming, L))
      | [] => Raise IndexError
      end
    end) (stack, visited, incoming, L) = Ret r -> filled (snd (fst r)).
Proof.
  induction fuel as [|fuel IH]; intros stack visited incoming L r F E; [discriminate|]. cbn [while_loop] in E. destruct stack as [|top stack]; [injection E as <-; exact F|].
  match type of E with context [match bind ?m _ with _ => _ end] => assert (K : forall t, m = Ret t -> filled (snd t)); [|destruct m as [[[st vi] ic]| |]; cbn [bind] in E; try discriminate] end.
  - intros t. destruct (negb _); [|intros X; injection X as <-; exact F]. cbv zeta. destruct (gv_neighbors g top) as [nb| |]; cbn [bind]; try discriminate.
    intros X. eapply (forM_keeps (fun s => filled (snd s))); [|exact X|exact F]. intros x [[st vi] ic] t' _ Et Hf. cbn [snd] in *. injection Et as <-. cbn [snd]. apply filled_set; [exact Hf|]. destruct (match sdget ic x with Some l => l | None => [] end); discriminate.
  - specialize (K _ eq_refl). cbn [snd] in K. destruct st as [|t' st']; [discriminate|]. destruct (String.eqb top t'); eapply IH; eauto.
Qed.
Lemma kosaraju_key g G : represents g G -> wpk (kosaraju g) (fun _ => forall v, In v (fst G) -> exists u, is_edge G u v).
Proof.
  intros HG. assert (EV := proj1 HG). assert (NV := proj1 (proj2 HG)). unfold kosaraju. rewrite EV. apply wpk_bind. eapply wpk_mono.
  { apply (wpk_forM _ _ (fst G) _ (fun pre s => let '(vis, incoming, L) := s in inc_ok G vis incoming /\ (forall x, is_visited vis x = true -> In x L) /\ (forall x, In x pre -> is_visited vis x = true) /\ (forall x, In x L -> In x (fst G)) /\ filled incoming)).
    - intros pre b post [[vis incoming] L] Epre (H1 & H2 & H3 & H4 & H5). destruct (is_visited vis b) eqn:Eb; cbn [negb].
      + cbn [wpk]. split; [exact H1|]. split; [exact H2|]. split; [|split; [exact H4|exact H5]]. intros x Hx. apply in_app_or in Hx as [Hx|[<-|[]]]; auto.
      + pose proof (kos_visit_ok g G HG b vis incoming L ltac:(rewrite Epre; apply in_elt) H1 H2 H4) as W. apply wp_ex in W. destruct W as ([[v' i'] L'] & EW & K1 & K2 & K3 & K4 & K5).
        rewrite EW. cbn [wpk]. unfold kos_visit in EW. pose proof (kos_visit_filled _ _ _ _ _ _ _ H5 EW) as K6. cbn [fst snd] in K6. split; [exact K1|]. split; [exact K2|]. split; [|split; [exact K5|exact K6]]. intros x Hx. apply in_app_or in Hx as [Hx|[<-|[]]]; auto.
    - split; [|split; [cbn; discriminate|cbn; split; [tauto|split; [tauto|intros v l X; discriminate]]]]. split; [|constructor]. intros u v. cbn. split; [tauto|]. intros (X & _). discriminate. }
  intros [[vis incoming] L] (H1 & H2 & H3 & H4 & H5). cbn [wpk]. apply wpk_bind.
  assert (HKEY : forall v l, In v (fst G) -> dgetE incoming v = Ret l -> exists u, is_edge G u v).
  { intros v l Hv. unfold dgetE. destruct (sdget incoming v) as [m|] eqn:Em; [|discriminate]. intros X. injection X as ->. pose proof (H5 v l Em). destruct l as [|u l]; [congruence|]. exists u. apply (proj1 H1 u v). unfold inc. rewrite Em. left. reflexivity. }
  eapply wpk_mono.
  { apply (wpk_forM _ _ (rev L) _ (fun pre s => let '(A, comps) := s in preds_in G (seen A) /\ (forall x, seen A x -> In x (fst G) /\ exists u, is_edge G u x) /\ (forall x, In x pre -> In x (fst G) -> seen A x))).
    - intros pre b post [A comps] Epre (K1 & K2 & K5). destruct (is_visited A b) eqn:Eb; cbn [negb].
      + cbn [wpk bind]. split; [exact K1|]. split; [exact K2|]. intros x Hx Hv. apply in_app_or in Hx as [Hx|[<-|[]]]; [auto|exact Eb].
      + apply wpk_bind. eapply wpk_mono.
        * apply (kos_assign_okk g G HG vis incoming H1 H3 HKEY b A); [|unfold seen; congruence|exact K1|intros; apply K2; assumption]. apply H4. rewrite in_rev, Epre. apply in_elt.
        * intros [A1 C] (C1 & C2 & C3 & C4 & C5). cbn [wpk].
          split; [exact C3|]. split; [intros x Hx; apply C4 in Hx as [Hx|Hx]; [auto|destruct (C5 x Hx) as (_ & ? & _ & ?); auto]|].
          intros x Hx Hv. apply C4. apply in_app_or in Hx as [Hx|[<-|[]]]; auto.
    - cbn. split; [intros u v _ X; discriminate|]. split; [intros x; discriminate|tauto]. }
  intros [A comps] (K1 & K2 & K5). cbn [wpk]. intros v Hv. apply (K2 v). apply K5; [rewrite <- in_rev; apply H2, H3, Hv|exact Hv].
Qed.
