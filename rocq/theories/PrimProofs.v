(** Prim's algorithm: the cut property and the loop invariant (C92). *)
From Coq Require Import Strings.String Relations.
From Verif Require Import Base DsfModel DsfSpec GraphModel GraphSpec GraphDict GraphProofs MstSpec MstProofs KruskalProofs PrimSpec.
Import List.

Lemma linked_dec E x y : {linked E x y} + {~ linked E x y}.
Proof. destruct (string_dec (labels (map fst E) x) (labels (map fst E) y)) as [H|H]; [left|right]; unfold linked; rewrite <- lab_eq; exact H. Qed.
Lemma linked_mono (E E' : pedges) x y : incl E E' -> linked E x y -> linked E' x y.
Proof. intros I. apply conn_mono, incl_map, I. Qed.
Lemma linked_edge (E : pedges) u v c : In (u, v, c) E -> linked E u v.
Proof. intros H. apply rst_step. apply in_map_iff. exists (u, v, c). auto. Qed.
Lemma linked_sub (E E' : pedges) : (forall a b c, In (a, b, c) E -> linked E' a b) -> forall x y, linked E x y -> linked E' x y.
Proof. intros H. apply conn_sub. intros a b X. apply in_map_iff in X as (((a', b') & c) & E1 & X). cbn [fst] in E1. injection E1 as -> ->. apply (H a b c X). Qed.

Section Cut.
  Context (V : list string) (NV : NoDup V) (E : pedges) (WE : within V (map fst E)) (MV : list string).
  Definition crosses (e : string * string * Z) : bool := xorb (mem (fst (fst e)) MV) (mem (snd (fst e)) MV).
  Lemma noncross (N : pedges) x y : (forall e, In e N -> crosses e = false) -> linked N x y -> mem x MV = mem y MV.
  Proof.
    intros H L. induction L as [a b X|a|a b _ IH|a b c _ I1 _ I2]; [|reflexivity|congruence|congruence]. apply in_map_iff in X as (e & E1 & X). specialize (H e X). unfold crosses in H. rewrite E1 in H. cbn [fst snd] in H. apply xorb_eq in H. exact H.
  Qed.
  Lemma first_link (u v : string) (C : pedges) : forall N, ~ linked N u v -> linked (N ++ C) u v -> exists C1 f C2, C = C1 ++ f :: C2 /\ ~ linked (N ++ C1) u v /\ linked (f :: N ++ C1) u v.
  Proof.
    induction C as [|f C IH]; intros N H1 H2; [rewrite app_nil_r in H2; contradiction|]. destruct (linked_dec (f :: N) u v) as [L|L].
    - exists [], f, C. rewrite app_nil_r. auto.
    - destruct (IH (N ++ [f])) as (C1 & g & C2 & -> & A & B).
      + intros X. apply L. eapply linked_mono; [|exact X]. intros e He. apply in_app_iff in He as [He|[<-|[]]]; [right; exact He|left; reflexivity].
      + rewrite <- app_assoc. exact H2.
      + exists (f :: C1), g, C2. split; [reflexivity|]. rewrite <- app_assoc in A, B. auto.
  Qed.
  Lemma link_split (L : pedges) a b d u v : ~ linked L u v -> linked ((a, b, d) :: L) u v -> (linked L u a /\ linked L b v) \/ (linked L u b /\ linked L a v).
  Proof.
    unfold linked. cbn [map fst]. rewrite <- !lab_eq. cbn [labels]. set (l := labels (map fst L)). intros N H. destruct (SE (l u) (l a)) as [E1|E1], (SE (l v) (l a)) as [E2|E2]; try congruence; [left|right]; split; congruence.
  Qed.
  Lemma exchange (F T : pedges) u v c : spanning_forest E F -> incl T F -> (forall e, In e T -> crosses e = false) -> In (u, v, c) E -> In u MV -> ~ In v MV ->
    (forall e, In e E -> crosses e = true -> c <= snd e) -> exists F', spanning_forest E F' /\ incl ((u, v, c) :: T) F' /\ total F' <= total F.
  Proof.
    intros (FI & FF & FL) TF TC He Hu Hv Hc. apply mem_true in Hu. apply mem_false in Hv. destruct (in_dec pe_dec (u, v, c) F) as [HF|HF].
    { exists F. split; [split; auto|]. split; [|lia]. intros x [<-|Hx]; auto. }
    set (N := filter (fun e => negb (crosses e)) F). set (C := filter crosses F).
    assert (PF : Permutation F (N ++ C)). { unfold N, C. clear. induction F as [|e F IH]; [reflexivity|]. cbn [filter]. destruct (crosses e); cbn [negb]; [apply Permutation_cons_app, IH|cbn [app]; apply perm_skip, IH]. }
    assert (WF : within V (map fst F)). { intros a b X. apply WE. apply in_map_iff in X as (e & E1 & X). apply in_map_iff. exists e. auto. }
    destruct (first_link u v C N) as (C1 & ((a, b), d) & C2 & EC & NL & LK).
    - intros X. apply noncross in X; [congruence|]. intros e Hx. apply filter_In in Hx as (_ & Hx). destruct (crosses e); [discriminate|reflexivity].
    - apply (linked_mono F); [intros e Hx; eapply Permutation_in; [exact PF|exact Hx]|]. apply FL. apply (linked_edge _ _ _ _ He).
    - assert (PF2 : Permutation F ((N ++ C1) ++ (a, b, d) :: C2)) by (rewrite PF, EC, app_assoc; reflexivity).
      assert (NE : ~ linked ((N ++ C1) ++ C2) a b). { assert (FF2 : forest ((N ++ C1) ++ (a, b, d) :: C2)) by (apply (forest_perm V F); auto). apply (FF2 (N ++ C1) a b d C2 eq_refl). }
      assert (SP := link_split _ _ _ _ _ _ NL LK). set (R := (N ++ C1) ++ C2) in *.
      assert (SR : forall x y, linked (N ++ C1) x y -> linked R x y) by (intros x y; apply linked_mono; intros e X; apply in_app_iff; auto).
      assert (NR : ~ linked R u v). { intros X. apply NE. destruct SP as [(A & B)|(A & B)]; apply SR in A, B; [eapply rst_trans; [apply rst_sym, A|]; eapply rst_trans; [apply X|apply rst_sym, B]|eapply rst_trans; [apply B|]; eapply rst_trans; [apply rst_sym, X|apply A]]. }
      assert (RF : incl R F). { intros e X. eapply Permutation_in; [apply Permutation_sym, PF2|]. unfold R in X. apply in_app_iff in X as [X|X]; apply in_app_iff; [auto|right; right; exact X]. }
      assert (FR : forall e, In e F -> e = (a, b, d) \/ In e R). { intros e X. eapply Permutation_in in X; [|exact PF2]. unfold R. apply in_app_iff in X as [X|[X|X]]; [right; apply in_app_iff; auto|auto|right; apply in_app_iff; auto]. }
      assert (INE : incl ((u, v, c) :: R) E) by (intros e [<-|X]; auto).
      exists ((u, v, c) :: R). split; [split; [exact INE|split]|split].
      + apply (sf_forest V); [exact NV| |].
        * intros x y X. apply WE. apply in_map_iff in X as (e & E1 & X). apply in_map_iff. exists e. auto.
        * cbn [map fst sf]. split; [exact NR|]. apply (forest_sf F); [exact FF| |exact RF]. assert (ND := Permutation_NoDup PF2 (forest_nodup _ FF)). apply NoDup_remove_1 in ND. exact ND.
      + intros x y. split; [|apply linked_mono; exact INE]. intros X. apply FL in X. revert x y X. apply linked_sub. intros x y z X. destruct (FR _ X) as [[= -> -> ->]|X'].
        * assert (UV : linked ((u, v, c) :: R) u v) by (apply (linked_edge _ u v c); left; reflexivity). assert (M : forall x y, linked R x y -> linked ((u, v, c) :: R) x y) by (intros x y; apply linked_mono; intros e Y; right; exact Y).
          destruct SP as [(A & B)|(A & B)]; apply SR, M in A, B; [eapply rst_trans; [apply rst_sym, A|]; eapply rst_trans; [apply UV|apply rst_sym, B]|eapply rst_trans; [apply B|]; eapply rst_trans; [apply rst_sym, UV|apply A]].
        * apply (linked_edge _ x y z). right. exact X'.
      + intros e [<-|X]; [left; reflexivity|]. right. destruct (FR e (TF e X)) as [->|Y]; [|exact Y]. exfalso. specialize (TC _ X). assert (CC : In (a, b, d) C) by (rewrite EC; apply in_elt). apply filter_In in CC as (_ & CC). congruence.
      + assert (TT : total F = total R + d). { rewrite (total_perm _ _ PF2). unfold R. rewrite !total_app. cbn [total fold_right snd]. unfold total. lia. }
        assert (c <= d). { assert (CC : In (a, b, d) C) by (rewrite EC; apply in_elt). apply filter_In in CC as (CF & CC). apply (Hc (a, b, d)); [apply FI, CF|exact CC]. } cbn [total fold_right snd]. unfold total in *. lia.
  Qed.
End Cut.

(** what the proof needs of a digraph (no condition on names) *)
Record gr_ok (G : dg) : Prop := { gk_v : NoDup (fst G); gk_e : NoDup (dg_edges G); gk_in : forall u v, is_edge G u v -> In u (fst G) /\ In v (fst G) }.
Lemma dg_gr G : dg_ok G -> gr_ok G.
Proof. intros OK. constructor; [apply (ok_v _ OK)|apply (ok_e _ OK)|apply (ok_in _ OK)]. Qed.
Coercion dg_gr : dg_ok >-> gr_ok.
Lemma gcost_fun G u v c c' : gr_ok G -> has_cost G u v c -> has_cost G u v c' -> c = c'.
Proof.
  intros HG. assert (N := gk_e _ HG). unfold has_cost, dg_edges in *. induction (snd G) as [|e E IH]; [intros []|]. cbn [map In] in *. inversion N; subst. intros [He|He] [He'|He']; subst.
  - congruence.
  - exfalso. apply H1. apply (in_map fst) in He'. exact He'.
  - exfalso. apply H1. apply (in_map fst) in He. exact He.
  - auto.
Qed.
Section Prim.
  Context (G : dg) (OK : gr_ok G) (UD : undirected G) (s : string) (Hs : In s (fst G)) (E : pedges) (HE : component (priced G) s E).
  Lemma cost_sym u v c : has_cost G u v c -> has_cost G v u c.
  Proof. intros H. destruct (UD u v (Some c) H) as (c' & E1 & X). injection E1 as <-. exact X. Qed.
  Lemma edge_cost u v : is_edge G u v -> exists c, has_cost G u v c.
  Proof. intros H. unfold is_edge, dg_edges in H. apply in_map_iff in H as (((a, b), o) & E1 & H). cbn [fst] in E1. injection E1 as -> ->. destruct (UD u v o H) as (c & -> & _). exists c. exact H. Qed.
  Lemma comp_in u v c : In (u, v, c) E <-> has_cost G u v c /\ linked (priced G) s u.
  Proof. rewrite (HE u v c), priced_In. reflexivity. Qed.
  Lemma comp_within : within (fst G) (map fst E).
  Proof. intros a b X. apply in_map_iff in X as (((a', b'), c) & E1 & X). cbn [fst] in E1. injection E1 as -> ->. apply comp_in in X as (X & _). apply (gk_in _ OK), (cost_edge _ _ _ _ X). Qed.

  (** the tree so far *)
  Record tinv (MV : list string) (T : pedges) : Prop := {
    t_nd : NoDup MV; t_in : incl MV (fst G); t_s : In s MV \/ (MV = [] /\ T = []);
    t_T : forall a b c, In (a, b, c) T -> has_cost G a b c /\ In a MV /\ In b MV;
    t_root : forall x, In x MV -> linked T s x; t_for : forest T;
    t_ex : forall F, spanning_forest E F -> exists F', spanning_forest E F' /\ incl T F' /\ total F' <= total F }.
  Definition seen (MV : list string) (v : string) (pre : list string) (u w : string) : Prop := In u MV \/ (u = v /\ In w pre).
  (** the contents of the queues and the cheapest edges known, when the edges marked [S] have been looked at *)
  Record qinv (MV : list string) (S : string -> string -> Prop) (Q : list (Z * string)) (e : string -> option edge) : Prop := {
    q_Q : forall p w, In (p, w) Q -> In w MV \/ (exists u, In u MV /\ has_cost G u w p) \/ (MV = [] /\ w = s);
    q_c : forall u w p, S u w -> ~ In w MV -> has_cost G u w p -> In (p, w) Q;
    q_e : forall w, ~ In w MV -> match e w with
      | Some x => (exists u c, x = (u, w, c) /\ In u MV /\ has_cost G u w c) /\ forall u c, S u w -> has_cost G u w c -> e_val x <= c
      | None => forall u c, S u w -> ~ has_cost G u w c end }.
  Definition all (MV : list string) (u w : string) : Prop := In u MV.

  Lemma tinv_init : tinv [] [].
  Proof.
    split; [constructor|intros x []|auto|intros a b c []|intros x []| |].
    - intros T1 u v c T2 X. destruct T1; discriminate.
    - intros F HF. exists F. split; [exact HF|]. split; [intros x []|lia].
  Qed.
  Lemma qinv_init : qinv [] (all []) [(0, s)] (fun _ => None).
  Proof.
    split.
    - intros p w [[= <- <-]|[]]. auto.
    - intros u w p [].
    - intros w _ u c [].
  Qed.
  Lemma qinv_skip MV Q e p v Q' : qinv MV (all MV) Q e -> In v MV -> Permutation Q ((p, v) :: Q') -> qinv MV (all MV) Q' e.
  Proof.
    intros [A B C] Hv P. split; [| |exact C].
    - intros p' w H. apply (A p'). eapply Permutation_in; [apply Permutation_sym, P|]. right. exact H.
    - intros u w p' Hu Hw Hc. assert (X := B u w p' Hu Hw Hc). eapply Permutation_in in X; [|exact P]. destruct X as [[= <- <-]|X]; [contradiction|exact X].
  Qed.
  Lemma tinv_comp MV T x : tinv MV T -> In x MV -> linked (priced G) s x.
  Proof. intros I H. apply (linked_mono T); [|apply (t_root _ _ I), H]. intros ((a, b), c) X. apply priced_In, (t_T _ _ I a b c X). Qed.
  Lemma tinv_noncross MV T e : tinv MV T -> In e T -> crosses MV e = false.
  Proof. intros I H. destruct e as ((a, b), c). destruct (t_T _ _ I a b c H) as (_ & A & B). apply mem_true in A, B. unfold crosses. cbn [fst snd]. rewrite A, B. reflexivity. Qed.
  Lemma in_app1 (MV : list string) v x : In x (MV ++ [v]) <-> In x MV \/ x = v.
  Proof. rewrite in_app_iff. cbn. intuition. Qed.
  Lemma tinv_first : tinv [s] [].
  Proof.
    split.
    - repeat constructor. intros [].
    - intros x [<-|[]]. exact Hs.
    - left. left. reflexivity.
    - intros a b c [].
    - intros x [<-|[]]. apply rst_refl.
    - intros T1 u v c T2 X. destruct T1; discriminate.
    - intros F HF. exists F. split; [exact HF|]. split; [intros x []|lia].
  Qed.
  Lemma tinv_add MV T u v c : tinv MV T -> In u MV -> ~ In v MV -> has_cost G u v c -> (forall a b d, In a MV -> ~ In b MV -> has_cost G a b d -> c <= d) ->
    ~ linked T u v /\ tinv (MV ++ [v]) (T ++ [(u, v, c)]).
  Proof.
    intros I Hu Hv Hc Lst.
        assert (NL : ~ linked T u v). { intros X. apply (noncross MV) in X; [|intros f Hf; apply (tinv_noncross MV T f I Hf)]. apply mem_true in Hu. apply mem_false in Hv. congruence. } split; [exact NL|].
        assert (VG : In v (fst G)) by apply (gk_in _ OK _ _ (cost_edge _ _ _ _ Hc)).
        split.
        * apply NoDup_app_snoc || (apply (Permutation_NoDup (l := v :: MV)); [apply Permutation_cons_append|constructor; [exact Hv|apply (t_nd _ _ I)]]).
        * intros y Hy. apply in_app1 in Hy as [Hy| ->]; [apply (t_in _ _ I), Hy|exact VG].
        * left. destruct (t_s _ _ I) as [X|(X & _)]; [apply in_app1; auto|subst MV; destruct Hu].
        * intros a b d X. apply in_app_iff in X as [X|[[= <- <- <-]|[]]].
          -- destruct (t_T _ _ I a b d X) as (A & B & C). rewrite !in_app1. auto.
          -- rewrite !in_app1. auto.
        * assert (M1 : forall x y, linked T x y -> linked (T ++ [(u, v, c)]) x y) by (intros x y; apply linked_mono; intros f Hf; apply in_app_iff; auto). intros y Hy. apply in_app1 in Hy as [Hy| ->]; [apply M1, (t_root _ _ I), Hy|].
          eapply rst_trans; [apply M1, (t_root _ _ I), Hu|]. apply (linked_edge _ u v c). apply in_elt.
        * assert (WT : within (fst G) (map fst T)). { intros a b X. apply in_map_iff in X as (((a', b'), d) & E1 & X). cbn [fst] in E1. injection E1 as -> ->. destruct (t_T _ _ I a b d X) as (X1 & _). apply (gk_in _ OK _ _ (cost_edge _ _ _ _ X1)). }
          assert (WT2 : within (fst G) (map fst ((u, v, c) :: T))). { intros a b [X|X]; [|apply WT, X]. cbn [fst] in X. injection X as <- <-. apply (gk_in _ OK _ _ (cost_edge _ _ _ _ Hc)). }
          apply (forest_perm (fst G) ((u, v, c) :: T)); [apply (gk_v _ OK)|exact WT2|apply Permutation_cons_append|]. apply (sf_forest (fst G)); [apply (gk_v _ OK)|exact WT2|]. cbn [map fst sf]. split; [exact NL|].
          apply (forest_sf T); [apply (t_for _ _ I)|apply forest_nodup, (t_for _ _ I)|apply incl_refl].
        * intros F HF. destruct (t_ex _ _ I F HF) as (F1 & S1 & I1 & C1). destruct (exchange (fst G) (gk_v _ OK) E comp_within MV F1 T u v c S1 I1) as (F2 & S2 & I2 & C2).
          -- intros f Hf. apply (tinv_noncross MV T f I Hf).
          -- apply comp_in. split; [exact Hc|]. apply (tinv_comp MV T u I Hu).
          -- exact Hu.
          -- exact Hv.
          -- intros ((a, b), d) X Cr. cbn [snd]. apply comp_in in X as (X & _). unfold crosses in Cr. cbn [fst snd] in Cr. destruct (mem a MV) eqn:Ma, (mem b MV) eqn:Mb; try discriminate.
             ++ apply mem_true in Ma. apply mem_false in Mb. apply (Lst a b d Ma Mb X).
             ++ apply mem_true in Mb. apply mem_false in Ma. apply (Lst b a d Mb Ma (cost_sym _ _ _ X)).
          -- exists F2. split; [exact S2|]. split; [|lia]. intros f Hf. apply I2. apply in_app_iff in Hf as [Hf|[<-|[]]]; [right; exact Hf|left; reflexivity].
  Qed.
  Lemma pop_add MV T Q e p v Q' : tinv MV T -> qinv MV (all MV) Q e -> ~ In v MV -> Permutation Q ((p, v) :: Q') -> (forall y, In y Q -> p <= fst y) ->
    qinv (MV ++ [v]) (seen MV v []) Q' e /\
    match e v with
    | None => MV = [] /\ T = [] /\ v = s
    | Some x => exists u c, x = (u, v, c) /\ In u MV /\ has_cost G u v c /\ ~ linked T u v /\ tinv (MV ++ [v]) (T ++ [(u, v, c)])
    end.
  Proof.
    intros I QI Hv P Lst. split.
    - destruct QI as [A B C]. split.
      + intros p' w H. assert (X : In (p', w) Q) by (eapply Permutation_in; [apply Permutation_sym, P|]; right; exact H). destruct (A p' w X) as [Y|[(u & Y & Z)|(Y & Z)]].
        * left. apply in_app1. auto.
        * right. left. exists u. split; [apply in_app1; auto|exact Z].
        * left. apply in_app1. right. destruct (A p v) as [W|[(u & W & _)|(_ & W)]]; [eapply Permutation_in; [apply Permutation_sym, P|left; reflexivity]|contradiction|subst MV; destruct W|]. congruence.
      + intros u w p' [Hu|(_ & [])] Hw Hc. assert (Hw' : ~ In w MV) by (intros X; apply Hw, in_app1; auto). assert (X := B u w p' Hu Hw' Hc). eapply Permutation_in in X; [|exact P]. destruct X as [[= <- <-]|X]; [exfalso; apply Hw, in_app1; auto|exact X].
      + intros w Hw. assert (Hw' : ~ In w MV) by (intros X; apply Hw, in_app1; auto). specialize (C w Hw'). destruct (e w) as [x|].
        * destruct C as ((u & c & -> & Hu & Hc) & M). split; [exists u, c; split; [reflexivity|]; split; [apply in_app1; auto|exact Hc]|]. intros u' c' [Hu'|(_ & [])] Hc'. apply (M u' c' Hu' Hc').
        * intros u c [Hu|(_ & [])]. apply C, Hu.
    - assert (PV : In (p, v) Q) by (eapply Permutation_in; [apply Permutation_sym, P|left; reflexivity]). assert (Cv := q_e _ _ _ _ QI v Hv). destruct (e v) as [x|].
      + destruct Cv as ((u & c & -> & Hu & Hc) & M). exists u, c. split; [reflexivity|]. split; [exact Hu|]. split; [exact Hc|].
        assert (Cp : c <= p). { destruct (q_Q _ _ _ _ QI p v PV) as [X|[(u' & X & Y)|(X & _)]]; [contradiction|apply (M u' p X Y)|subst MV; destruct Hu]. }
        apply (tinv_add MV T u v c I Hu Hv Hc). intros a b d Ha Hb Hd. assert (Y := Lst _ (q_c _ _ _ _ QI a b d Ha Hb Hd)). cbn [fst] in Y. lia.
      + destruct (q_Q _ _ _ _ QI p v PV) as [X|[(u' & X & Y)|(X & Y)]]; [contradiction|exfalso; apply (Cv u' p X Y)|]. split; [exact X|]. split; [|exact Y]. destruct (t_s _ _ I) as [Z|(_ & Z)]; [subst MV; destruct Z|exact Z].
  Qed.
  Definition cheaper (o : option edge) (vw : edge) : edge := match o with None => vw | Some x => if e_val vw <? e_val x then vw else x end.
  Lemma loop_step MV v pre Q e w c : qinv (MV ++ [v]) (seen MV v pre) Q e -> has_cost G v w c ->
    qinv (MV ++ [v]) (seen MV v (pre ++ [w])) ((c, w) :: Q) (fun x => if String.eqb x w then Some (cheaper (e w) (v, w, c)) else e x).
  Proof.
    intros [A B C] Hc. split.
    - intros p x [[= <- <-]|H]; [|apply A, H]. right. left. exists v. split; [apply in_app1; auto|exact Hc].
    - intros u x p S Hx Hp. destruct S as [Hu|(-> & Hw)]; [right; apply (B u x p); [left; exact Hu|exact Hx|exact Hp]|]. apply in_app1 in Hw as [Hw| ->]; [right; apply (B v x p); [right; auto|exact Hx|exact Hp]|]. left. rewrite (gcost_fun _ _ _ _ _ OK Hc Hp). reflexivity.
    - intros x Hx. specialize (C x Hx). destruct (SE x w) as [->|N].
      + assert (SP : forall u, seen MV v (pre ++ [w]) u w -> u = v \/ seen MV v pre u w) by (intros u [Hu|(-> & _)]; [right; left; exact Hu|auto]). destruct (e w) as [y|]; cbn [cheaper].
        * destruct C as ((u & c' & -> & Hu & Hc') & M). cbn [e_val snd]. destruct (Z.ltb_spec c c') as [L|L].
          -- split; [exists v, c; split; [reflexivity|]; split; [apply in_app1; auto|exact Hc]|]. intros u0 c0 S H0. cbn [e_val snd]. destruct (SP u0 S) as [->|S0]; [rewrite (gcost_fun _ _ _ _ _ OK H0 Hc); lia|]. specialize (M u0 c0 S0 H0). cbn [e_val snd] in M. lia.
          -- split; [exists u, c'; auto|]. intros u0 c0 S H0. cbn [e_val snd]. destruct (SP u0 S) as [->|S0]; [rewrite (gcost_fun _ _ _ _ _ OK H0 Hc); lia|]. apply (M u0 c0 S0 H0).
        * split; [exists v, c; split; [reflexivity|]; split; [apply in_app1; auto|exact Hc]|]. intros u0 c0 S H0. cbn [e_val snd]. destruct (SP u0 S) as [->|S0]; [rewrite (gcost_fun _ _ _ _ _ OK H0 Hc); lia|]. exfalso. apply (C u0 c0 S0 H0).
      + assert (SP : forall u, seen MV v (pre ++ [w]) u x -> seen MV v pre u x) by (intros u [Hu|(-> & Hw)]; [left; exact Hu|]; apply in_app1 in Hw as [Hw| ->]; [right; auto|contradiction]). destruct (e x) as [y|].
        * destruct C as (C1 & C2). split; [exact C1|]. intros u c0 S. apply C2, SP, S.
        * intros u c0 S. apply C, SP, S.
  Qed.
  Lemma loop_done MV v Q e : qinv (MV ++ [v]) (seen MV v (outs (snd G) v)) Q e -> qinv (MV ++ [v]) (all (MV ++ [v])) Q e.
  Proof.
    intros [A B C]. assert (SP : forall u w c, all (MV ++ [v]) u w -> has_cost G u w c -> seen MV v (outs (snd G) v) u w). { intros u w c H Hc. apply in_app1 in H as [H| ->]; [left; exact H|right]. split; [reflexivity|]. apply outs_In. apply (cost_edge _ _ _ _ Hc). }
    split; [exact A| |].
    - intros u w p H Hw Hc. apply (B u w p (SP u w p H Hc) Hw Hc).
    - intros w Hw. specialize (C w Hw). destruct (e w) as [x|].
      + destruct C as (C1 & C2). split; [exact C1|]. intros u c H Hc. apply (C2 u c (SP u w c H Hc) Hc).
      + intros u c H Hc. apply (C u c (SP u w c H Hc) Hc).
  Qed.
  Lemma qinv_perm MV S Q Q' e e' : Permutation Q Q' -> (forall x, e x = e' x) -> qinv MV S Q e -> qinv MV S Q' e'.
  Proof.
    intros P Ee [A B C]. split.
    - intros p w H. apply (A p). eapply Permutation_in; [apply Permutation_sym, P|exact H].
    - intros u w p X Y Z. eapply Permutation_in; [exact P|]. apply (B u w p X Y Z).
    - intros w Hw. rewrite <- Ee. apply C, Hw.
  Qed.
  Lemma tinv_done MV T : tinv MV T -> MV <> [] -> (forall u w p, In u MV -> ~ In w MV -> ~ has_cost G u w p) -> minimum_spanning_forest E T /\ forall x, In x MV <-> linked (priced G) s x.
  Proof.
    intros I NE B. assert (SM : In s MV) by (destruct (t_s _ _ I) as [X|(X & _)]; [exact X|contradiction]).
    assert (CL : forall x y, linked (priced G) x y -> In x MV <-> In y MV).
    { intros x y H. assert (X : mem x MV = mem y MV). { apply (noncross MV (priced G)); [|exact H]. intros ((a, b), c) Hp. apply priced_In in Hp. unfold crosses. cbn [fst snd]. destruct (mem a MV) eqn:Ma, (mem b MV) eqn:Mb; try reflexivity.
        - apply mem_true in Ma. apply mem_false in Mb. destruct (B a b c Ma Mb Hp).
        - apply mem_true in Mb. apply mem_false in Ma. destruct (B b a c Mb Ma (cost_sym _ _ _ Hp)). }
      rewrite <- !mem_true, X. reflexivity. }
    assert (MV_L : forall x, In x MV <-> linked (priced G) s x). { intros x. split; [apply (tinv_comp MV T x I)|]. intros H. apply (CL s x H), SM. }
    split; [|exact MV_L].
    assert (TE : incl T E). { intros ((a, b), c) H. destruct (t_T _ _ I a b c H) as (A & B1 & _). apply comp_in. split; [exact A|]. apply MV_L, B1. }
    assert (LT : forall x y, linked E x y -> linked T x y). { apply linked_sub. intros a b c H. apply comp_in in H as (H & L). assert (La : In a MV) by (apply MV_L, L). assert (Lb : In b MV). { apply MV_L. eapply rst_trans; [exact L|]. apply (linked_edge _ a b c). apply priced_In, H. } eapply rst_trans; [apply rst_sym, (t_root _ _ I), La|apply (t_root _ _ I), Lb]. }
    assert (ST : spanning_forest E T) by (split; [exact TE|]; split; [apply (t_for _ _ I)|]; intros x y; split; [apply LT|apply linked_mono, TE]).
    split; [exact ST|]. intros F HF. destruct (t_ex _ _ I F HF) as (F' & (I1 & FF & L1) & TF & C). assert (P : Permutation T F'); [|rewrite (total_perm _ _ P); exact C].
    apply NoDup_Permutation; [apply forest_nodup, (t_for _ _ I)|apply forest_nodup, FF|]. intros f. split; [apply TF|]. intros Hf. destruct (in_dec pe_dec f T) as [X|X]; [exact X|]. exfalso. destruct f as ((a, b), c). apply in_split in Hf as (F1 & F2 & EF). apply (FF F1 a b c F2 EF).
    apply (linked_mono T); [|apply LT; apply (linked_edge _ a b c); apply I1; rewrite EF; apply in_elt]. intros g Hg. assert (Y := TF g Hg). rewrite EF in Y. apply in_app_iff in Y as [Y|[<-|Y]]; [apply in_app_iff; auto|contradiction|apply in_app_iff; auto].
  Qed.
  Lemma prim_done MV T e : tinv MV T -> MV <> [] -> qinv MV (all MV) [] e -> minimum_spanning_forest E T /\ forall x, In x MV <-> linked (priced G) s x.
  Proof. intros I NE [_ B _]. apply tinv_done; [exact I|exact NE|]. intros u w p Hu Hw Hp. apply (B u w p Hu Hw Hp). Qed.
End Prim.
