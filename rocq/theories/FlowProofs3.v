(** dinic (C84). *)
From Coq Require Import Strings.String Strings.Ascii.
From Verif Require Import Base DsfModel GraphModel GraphSpec GraphDict GraphProofs PathModel PathProofs FlowModel FlowSpec FlowProofs FlowProofs2.
Import List.

Section D.
  Context (g : gview) (G : dg) (HG : represents g G) (HC : represents_costs g G) (HN : network G) (s t : string) (Hs : In s (fst G)) (Hst : s <> t).
  Context (HD : forall v c, has_cost G v s c -> c = 0).
  Notation V := (fst G).

  Lemma no_parent f parent : tree G s f parent -> ~ In s (map fst parent).
  Proof. intros T H. apply in_map_iff in H as ([x p] & E & H). cbn in E. subst x. destruct (t_res _ _ _ _ T s p H) as (c & Hc & C0 & _). apply HD in Hc. contradiction. Qed.

  Section Tree.
    Context (f0 : fmap) (parent : list (string * string)) (T : tree G s f0 parent).
    Notation K := (order s parent).
    (** the sink can be reached down the tree through pipes that are not full *)
    Inductive good (f : fmap) : string -> Prop :=
    | good_t : good f t
    | good_up u v c : In (v, u) parent -> has_cost G u v c -> 0 < c - fget f u v -> good f v -> good f u.

    Lemma dfs_ok : forall fuel u flow f, In u K -> (length K - ipos u K < fuel)%nat -> pre_flow G f -> match flow with Some b => 0 < b | None => u <> t end ->
      wp (dinic_dfs fuel g u parent t flow f) (fun '(r, f') => exists a, r = Some a /\ 0 <= a /\ match flow with Some b => a <= b | None => True end /\ pre_flow G f' /\
         (forall w, out G f' w = out G f w + at_ u w a - at_ t w a) /\ (forall x y, fget f' x y <> fget f x y -> (ipos u K <= ipos x K)%nat /\ (ipos u K <= ipos y K)%nat) /\ (a = 0 -> f' = f) /\ (good f u -> 0 < a)).
    Proof.
      induction fuel as [|n IH]; intros u flow f HK Hf P Pf; [lia|]. cbn [dinic_dfs]. destruct (SE u t) as [->|Hut].
      - cbn [wp]. destruct flow as [b|]; [|contradiction]. exists b. split; [reflexivity|]. split; [lia|]. split; [lia|]. split; [exact P|]. split; [intros; lia|]. split; [intros x y H; congruence|]. split; [reflexivity|auto].
      - destruct HG as (EV & NV & OV & _ & HE & HNB). destruct (HNB u) as (nb & ENB & NNB & HNE); [eapply order_V; eauto|]. rewrite ENB. cbn [bind]. apply wp_bind. eapply wp_mono.
        + apply (wp_forM _ _ nb _ (fun pre st => let '(found, f') := st in match found with
             | Some a => 0 < a /\ match flow with Some b => a <= b | None => True end /\ pre_flow G f' /\ (forall w, out G f' w = out G f w + at_ u w a - at_ t w a) /\ (forall x y, fget f' x y <> fget f x y -> (ipos u K <= ipos x K)%nat /\ (ipos u K <= ipos y K)%nat)
             | None => f' = f /\ forall v c, In v pre -> In (v, u) parent -> has_cost G u v c -> 0 < c - fget f u v -> ~ good f v end)).
          * intros pre b post [found f'] Epre H. destruct found as [a|]; [exact H|]. destruct H as (-> & H).
            assert (Eub : is_edge G u b) by (apply HNE; rewrite Epre; apply in_elt). destruct (proj1 HN u b Eub) as (c & Hc). rewrite (cap_get g G HG HC u b c Hc). cbn [bind].
            assert (Skip : (forall k, In (b, u) parent -> has_cost G u b k -> 0 < k - fget f u b -> ~ good f b) -> forall v k, In v (pre ++ [b]) -> In (v, u) parent -> has_cost G u v k -> 0 < k - fget f u v -> ~ good f v).
            { intros X v k Hv. apply in_app_or in Hv as [Hv|[<-|[]]]; [apply H; exact Hv|apply X]. }
            destruct (sdget parent b) as [p|] eqn:EP.
            2:{ cbn [wp]. split; [reflexivity|]. apply Skip. intros k X. exfalso. apply sget_none in EP. apply EP. apply (in_map fst) in X. exact X. }
            destruct (SE p EmptyString) as [->|Hpe]; cbn [negb andb].
            { cbn [wp]. split; [reflexivity|]. apply Skip. intros k X. exfalso. rewrite (In_sget _ _ _ (t_nd _ _ _ _ T) X) in EP. injection EP as ->. apply (order_V G s Hs f0 parent _ T) in HK. rewrite Forall_forall in OV. apply OV in HK. destruct HK as (_ & Y & _). apply Y. reflexivity. }
            destruct (SE p u) as [->|Hpu]; cbn [andb].
            2:{ cbn [wp]. split; [reflexivity|]. apply Skip. intros k X. exfalso. rewrite (In_sget _ _ _ (t_nd _ _ _ _ T) X) in EP. congruence. }
            destruct (Z.ltb_spec 0 (c - fget f u b)) as [Cr|Cr].
            2:{ cbn [wp]. split; [reflexivity|]. apply Skip. intros k X Hk Y. rewrite (cap_fun g G HG _ _ _ _ Hk Hc) in Y. lia. }
            apply sget_In in EP. assert (Bs : b <> s). { intros ->. apply (no_parent _ _ T). apply (in_map fst) in EP. exact EP. }
            destruct (t_ord _ _ _ _ T b u EP) as (_ & O2). specialize (O2 Bs). assert (BK : In b K) by (right; apply (in_map fst) in EP; exact EP). assert (BL := ipos_lt b K BK).
            assert (M : exists m, omin flow (Some (c - fget f u b)) = Some m /\ 0 < m /\ m <= c - fget f u b /\ match flow with Some b => m <= b | None => True end).
            { destruct flow as [fl|]; cbn; eexists; (split; [reflexivity|]); repeat split; lia. }
            destruct M as (m & -> & M1 & M2 & M3). apply wp_bind. eapply wp_mono; [apply (IH b (Some m) f BK); [lia|exact P|exact M1]|].
            intros [r f1] (a & -> & A0 & Am & P1 & O1 & F1 & Z1 & G1). destruct (Z.ltb_spec 0 a) as [Pa|Pa]; cbn [wp].
            -- assert (FE : fget f1 u b = fget f u b). { destruct (Z.eq_dec (fget f1 u b) (fget f u b)) as [E|E]; [exact E|]. apply F1 in E. lia. }
               assert (Hub : u <> b) by (intros ->; lia). fold (push f1 u b a). destruct (push_ok g G HG f1 u b c a P1 Hub Hc) as (P2 & O3); [lia|lia|].
               split; [exact Pa|]. split; [destruct flow; [lia|exact I]|]. split; [exact P2|]. split; [intros w; rewrite O3, O1; lia|].
               intros x y D. destruct (Z.eq_dec (fget f1 x y) (fget f x y)) as [E|E]; [|apply F1 in E; lia]. rewrite push_get in D by exact Hub.
               destruct (String.eqb x u && String.eqb y b) eqn:E1; [apply andb_true_iff in E1 as (E1 & E2); apply String.eqb_eq in E1, E2; subst x y; lia|].
               destruct (String.eqb x b && String.eqb y u) eqn:E2; [apply andb_true_iff in E2 as (E2 & E3); apply String.eqb_eq in E2, E3; subst x y; lia|]. lia.
            -- assert (a = 0) by lia. subst a. split; [apply Z1; reflexivity|]. apply Skip. intros k _ _ _ Gd. apply G1 in Gd. lia.
          * split; [reflexivity|]. intros v c [].
        + intros [found f'] H. destruct found as [a|]; cbn [wp].
          * destruct H as (H1 & H2 & H3 & H4 & H5). exists a. split; [reflexivity|]. split; [lia|]. split; [exact H2|]. split; [exact H3|]. split; [exact H4|]. split; [exact H5|]. split; [lia|auto].
          * destruct H as (-> & H). exists 0. split; [reflexivity|]. split; [lia|]. split; [destruct flow; [lia|exact I]|]. split; [exact P|]. split; [intros w; unfold at_; destruct (String.eqb w u), (String.eqb w t); lia|].
            split; [intros x y D; congruence|]. split; [reflexivity|]. intros Gd. exfalso. inversion Gd; subst; [contradiction|]. eapply (H v c); eauto. apply HNE. eapply cost_edge. eassumption.
    Qed.

    Lemma good_source : In t (map fst parent) -> good f0 s.
    Proof.
      assert (X : forall n x, In x K -> (ipos x K <= n)%nat -> good f0 x -> good f0 s).
      { induction n as [|n IH]; intros x [<-|HK] Hn Gd; auto.
        - destruct (SD x s) as [->|Hx]; [exact Gd|]. unfold order in Hn. cbn in Hn. destruct (SE x s); [contradiction|lia].
        - destruct (SD x s) as [->|Hx]; [exact Gd|]. apply in_map_iff in HK as ([x' p] & E & HK). cbn in E. subst x'. destruct (t_ord _ _ _ _ T x p HK) as (O1 & O2). specialize (O2 Hx).
          destruct (t_res _ _ _ _ T x p HK) as (c & Hc & _ & Cr). apply (IH p O1); [lia|]. econstructor; eauto. }
      intros H. apply (X (ipos t K) t); [right; exact H|lia|constructor].
    Qed.
  End Tree.

  Definition dinic_fuel : nat := Z.to_nat (capacity_bound g G) + length V + 3.
  Lemma dinic_ok fuel : (dinic_fuel <= fuel)%nat -> wp (dinic fuel g s t) (fun m => exists f, flow_ok G s t f m /\ stuck G s t f).
  Proof.
    intros Hf. unfold dinic. unfold dinic_fuel in Hf.
    apply (wp_while _ _ (fun '(m, f) => flow_ok G s t f m /\ 0 <= m) (fun '(m, f) => Z.to_nat (capacity_bound g G - m))).
    - intros [m f] (FO & Pm). apply wp_bind. eapply wp_mono; [apply (bfs_ok g G HG HC HN s t Hs Hst f true)|]. intros [nf parent] [(X & _)|(E & T & CL & NT)]; [discriminate|]; cbn [fst snd] in *.
      destruct (sdget parent t) as [q|] eqn:ET.
      2:{ cbn [wp]. exists f. split; [exact FO|]. exists parent. split; [exact T|]. split; [exact CL|]. apply sget_none. exact ET. }
      assert (It := sget_key _ _ _ ET). assert (LT := tree_len G s f parent T). apply wp_bind. eapply wp_mono.
      + apply (wp_while _ _ (fun '(m', f') => flow_ok G s t f' m' /\ ((m' = m /\ f' = f) \/ m < m')) (fun '(m', f') => Z.to_nat (capacity_bound g G - m'))
                 (fun '(m', f') => flow_ok G s t f' m' /\ m < m')).
        * intros [m' f'] (FO' & Pm'). apply wp_bind. eapply wp_mono.
          -- apply (dfs_ok f parent T fuel s None f'); [left; reflexivity| |eapply flow_pre; exact FO'|exact Hst]. unfold order. cbn [length ipos]. rewrite map_length. lia.
          -- intros [r f1] (a & -> & A0 & _ & P1 & O1 & _ & Z1 & G1). destruct (Z.leb_spec a 0) as [La|La]; cbn [wp].
             ++ assert (a = 0) by lia. subst a. rewrite (Z1 eq_refl). split; [exact FO'|]. destruct Pm' as [(-> & ->)|Pm']; [|exact Pm']. exfalso. specialize (G1 (good_source f parent T It)). lia.
             ++ assert (FO1 := flow_step G s t Hst f' m' f1 a FO' P1 O1). split; [split; [exact FO1|right; lia]|]. assert (B := flow_bound g G HC HN s t _ _ FO1). lia.
        * split; [exact FO|auto].
        * lia.
      + intros [m' f'] (FO' & Pm'). cbn [wp]. split; [split; [exact FO'|lia]|]. assert (B := flow_bound g G HC HN s t _ _ FO'). lia.
    - split; [eapply flow_zero; eassumption|lia].
    - lia.
  Qed.
End D.
