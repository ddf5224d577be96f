(** Sums, cuts, and the breadth-first search of max_flow (C84). *)
From Coq Require Import Strings.String Strings.Ascii.
From Verif Require Import Base DsfModel GraphModel GraphSpec GraphDict GraphProofs PathModel PathProofs FlowModel FlowSpec.
Import List.

(** ** Sums *)
Lemma sum_cons a l f : sum_over (a :: l) f = f a + sum_over l f.
Proof. reflexivity. Qed.
Lemma sum_ext l f f' : (forall x, In x l -> f x = f' x) -> sum_over l f = sum_over l f'.
Proof. induction l as [|a l IH]; intros H; [reflexivity|]. rewrite !sum_cons, IH, (H a); [reflexivity|left; reflexivity|intros; apply H; right; assumption]. Qed.
Lemma sum_le l f f' : (forall x, In x l -> f x <= f' x) -> sum_over l f <= sum_over l f'.
Proof. induction l as [|a l IH]; intros H; [cbn; lia|]. rewrite !sum_cons. assert (X := H a (or_introl eq_refl)). assert (Y := IH (fun x Hx => H x (or_intror Hx))). lia. Qed.
Lemma sum_add l f f' : sum_over l (fun x => f x + f' x) = sum_over l f + sum_over l f'.
Proof. induction l as [|a l IH]; [reflexivity|]. rewrite !sum_cons, IH. lia. Qed.
Lemma sum_opp l f : sum_over l (fun x => - f x) = - sum_over l f.
Proof. induction l as [|a l IH]; [reflexivity|]. rewrite !sum_cons, IH. lia. Qed.
Lemma sum_zero l : sum_over l (fun _ => 0) = 0.
Proof. induction l as [|a l IH]; [reflexivity|]. rewrite !sum_cons, IH. lia. Qed.
Lemma sum_swap l l' (f : string -> string -> Z) : sum_over l (fun x => sum_over l' (f x)) = sum_over l' (fun y => sum_over l (fun x => f x y)).
Proof.
  induction l as [|a l IH]; [symmetry; apply sum_zero|]. rewrite sum_cons, IH. rewrite <- sum_add. apply sum_ext. intros y _. rewrite sum_cons. reflexivity.
Qed.
Lemma sum_point l x a : NoDup l -> In x l -> sum_over l (fun y => if String.eqb y x then a else 0) = a.
Proof.
  induction l as [|b l IH]; [intros _ []|]. intros N H. inversion N; subst. rewrite sum_cons. destruct (SE b x) as [->|Hb].
  - rewrite (sum_ext l _ (fun _ => 0)), sum_zero; [lia|]. intros y Hy. destruct (SE y x) as [->|]; [contradiction|reflexivity].
  - destruct H as [->|H]; [contradiction|]. rewrite IH by assumption. reflexivity.
Qed.
Lemma sum_if l (b : string -> bool) f : sum_over l (fun x => if b x then f x else 0) = sum_over (filter b l) f.
Proof. induction l as [|a l IH]; [reflexivity|]. rewrite sum_cons, IH. cbn [filter]. destruct (b a); [rewrite sum_cons|]; lia. Qed.
Lemma sum_filter l (b : string -> bool) f : sum_over l f = sum_over (filter b l) f + sum_over (filter (fun x => negb (b x)) l) f.
Proof. induction l as [|a l IH]; [reflexivity|]. rewrite sum_cons, IH. cbn [filter]. destruct (b a); cbn [negb]; rewrite sum_cons; lia. Qed.
Lemma sum_skew l (f : string -> string -> Z) : (forall u v, f u v = - f v u) -> sum_over l (fun u => sum_over l (f u)) = 0.
Proof.
  intros H. assert (X : sum_over l (fun u => sum_over l (f u)) = - sum_over l (fun u => sum_over l (f u))); [|lia].
  rewrite sum_swap at 1. rewrite <- sum_opp. apply sum_ext. intros u _. rewrite <- sum_opp. apply sum_ext. intros v _. apply H.
Qed.

(** ** Cuts *)
Lemma cut_value (G : dg) s t f (b : string -> bool) : feasible G s t f -> NoDup (fst G) -> In s (fst G) -> b s = true -> b t = false ->
  flow_value G s f = sum_over (filter b (fst G)) (fun u => sum_over (filter (fun x => negb (b x)) (fst G)) (f u)).
Proof.
  intros F N Hs Bs Bt. unfold flow_value.
  assert (X : sum_over (filter b (fst G)) (fun u => sum_over (fst G) (f u)) = sum_over (fst G) (f s)).
  { rewrite <- sum_if. rewrite <- (sum_point (fst G) s (sum_over (fst G) (f s)) N Hs) at 1. apply sum_ext. intros x Hx. destruct (SE x s) as [->|Hxs]; [rewrite Bs; reflexivity|].
    destruct (b x) eqn:Ebx; [|reflexivity]. apply (conserved _ _ _ _ F); [exact Hx|exact Hxs|congruence]. }
  rewrite <- X. rewrite (sum_ext _ _ (fun u => sum_over (filter b (fst G)) (f u) + sum_over (filter (fun x => negb (b x)) (fst G)) (f u))) by (intros; apply sum_filter).
  rewrite sum_add, sum_skew by apply F. lia.
Qed.
Lemma cut_compare (G : dg) s t f f' (b : string -> bool) : feasible G s t f -> feasible G s t f' -> NoDup (fst G) -> In s (fst G) -> b s = true -> b t = false ->
  (forall u v, In u (fst G) -> In v (fst G) -> b u = true -> b v = false -> f' u v <= f u v) -> flow_value G s f' <= flow_value G s f.
Proof.
  intros F F' N Hs Bs Bt H. rewrite (cut_value G s t f b), (cut_value G s t f' b) by assumption. apply sum_le. intros u Hu. apply sum_le. intros v Hv.
  apply filter_In in Hu as (Hu & Bu). apply filter_In in Hv as (Hv & Bv). apply H; auto. destruct (b v); [discriminate|reflexivity].
Qed.

(** ** The dict of flows *)
Lemma fget_set f u v x a b : fget (fset f u v x) a b = if String.eqb a u && String.eqb b v then x else fget f a b.
Proof. reflexivity. Qed.
(** the pair of updates for one pipe *)
Definition push (f : fmap) (p c : string) (a : Z) : fmap :=
  let f := fset f p c (fget f p c + a) in fset f c p (fget f c p - a).
Lemma push_get f p c a x y : p <> c -> fget (push f p c a) x y = fget f x y + (if String.eqb x p && String.eqb y c then a else 0) - (if String.eqb x c && String.eqb y p then a else 0).
Proof.
  intros H. unfold push. rewrite !fget_set. assert (EC : String.eqb c p && String.eqb p c = false) by (destruct (SE c p); [congruence|reflexivity]). rewrite EC.
  destruct (SE x c) as [->|Hx]; cbn [andb].
  - destruct (SE c p) as [E|_]; [congruence|]. cbn [andb]. destruct (SE y p) as [->|Hy]; lia.
  - destruct (SE x p) as [->|Hx']; cbn [andb]; [|lia]. destruct (SE y c) as [->|Hy]; lia.
Qed.

(** ** Positions in the order of discovery *)
Fixpoint ipos (x : string) (l : list string) : nat := match l with [] => O | a :: l => if String.eqb x a then O else S (ipos x l) end.
Lemma ipos_app x l l' : In x l -> ipos x (l ++ l') = ipos x l.
Proof. induction l as [|a l IH]; [intros []|]. cbn. destruct (SE x a) as [->|H]; [reflexivity|]. intros [->|X]; [contradiction|]. rewrite IH by exact X. reflexivity. Qed.
Lemma ipos_lt x l : In x l -> (ipos x l < length l)%nat.
Proof. induction l as [|a l IH]; [intros []|]. cbn. destruct (SE x a) as [->|H]; [lia|]. intros [->|X]; [contradiction|]. specialize (IH X). lia. Qed.
Lemma ipos_out x l : ~ In x l -> ipos x l = length l.
Proof. induction l as [|a l IH]; [reflexivity|]. cbn. destruct (SE x a) as [->|H]; [tauto|]. intros X. rewrite IH by tauto. reflexivity. Qed.
Lemma ipos_new x l : ~ In x l -> ipos x (l ++ [x]) = length l.
Proof. induction l as [|a l IH]; cbn; [intros; rewrite String.eqb_refl; reflexivity|]. destruct (SE x a) as [->|H]; [tauto|]. intros X. rewrite IH by tauto. reflexivity. Qed.

Section F.
  Context (g : gview) (G : dg) (HG : represents g G) (HC : represents_costs g G) (HN : network G) (s t : string) (Hs : In s (fst G)) (Hst : s <> t).
  Notation V := (fst G).

  Lemma cap_get u v c : has_cost G u v c -> capacity g u v = Ret c.
  Proof. intros H. assert (X := weight_get g G HG HC u v c H). unfold capacity, dgetE in *. destruct (sdget (gv_weights g) (ekey u v)) as [e|]; [|discriminate]. injection X as ->. reflexivity. Qed.
  Lemma cap_fun u v c c' : has_cost G u v c -> has_cost G u v c' -> c = c'.
  Proof. apply cost_fun. eapply rep_ok. exact HG. Qed.
  Lemma cap_V u v c : has_cost G u v c -> In u V /\ In v V.
  Proof. intros H. eapply cost_dom; eassumption. Qed.

  (** a parent dict built by the search *)
  Definition order (parent : list (string * string)) : list string := s :: map fst parent.
  Record tree (f : fmap) (parent : list (string * string)) : Prop := {
    t_nd : NoDup (map fst parent);
    t_V : forall x, In x (map fst parent) -> In x V;
    t_ord : forall x p, In (x, p) parent -> In p (order parent) /\ (x <> s -> (ipos p (order parent) < ipos x (order parent))%nat);
    t_res : forall x p, In (x, p) parent -> exists c, has_cost G p x c /\ c <> 0 /\ 0 < c - fget f p x
  }.
  Definition amounts (f : fmap) (parent : list (string * string)) (cap : list (string * option Z)) : Prop :=
    (forall x p, In (x, p) parent -> x <> s -> exists a c, sdget cap x = Some (Some a) /\ 0 < a /\ has_cost G p x c /\ a <= c - fget f p x /\
        (p <> s -> exists b, sdget cap p = Some (Some b) /\ a <= b)) /\
    (sdget cap s = Some None \/ exists b, sdget cap s = Some (Some b) /\ 0 < b).
  (** every pipe out of [x] that is not full leads to a vertex found *)
  Definition closed_at (f : fmap) (parent : list (string * string)) (x v : string) : Prop :=
    forall c, has_cost G x v c -> c <> 0 -> 0 < c - fget f x v -> In v (map fst parent).

  Lemma tree_add f parent x p c : tree f parent -> In p (order parent) -> In p V -> ~ In x (map fst parent) -> has_cost G p x c -> c <> 0 -> 0 < c - fget f p x -> tree f (sdset parent x p).
  Proof.
    intros T Hp HpV Hx Hc C0 Cr. rewrite sset_new by exact Hx. assert (EO : order (parent ++ [(x, p)]) = order parent ++ [x]) by (unfold order; rewrite map_app; reflexivity). split.
    - rewrite map_app. eapply Permutation_NoDup; [apply Permutation_cons_append|]. constructor; [exact Hx|apply T].
    - intros y Hy. rewrite map_app, in_app_iff in Hy. destruct Hy as [Hy|[<-|[]]]; [apply T; exact Hy|]. apply cap_V in Hc. apply Hc.
    - intros y q H. rewrite EO, in_app_iff. apply in_app_or in H as [H|[[= <- <-]|[]]].
      + destruct (t_ord _ _ T y q H) as (A & B). split; [auto|]. intros Ys. rewrite !ipos_app; [auto| |exact A]. right. apply (in_map fst) in H. exact H.
      + split; [auto|]. intros Xs. rewrite ipos_app by exact Hp. rewrite ipos_new; [apply ipos_lt; exact Hp|]. intros [X|X]; [congruence|contradiction].
    - intros y q H. apply in_app_or in H as [H|[[= <- <-]|[]]]; [apply (t_res _ _ T); exact H|]. exists c. auto.
  Qed.
  Lemma amounts_add f parent cap x p c a : amounts f parent cap -> tree f parent -> ~ In x (map fst parent) -> In p (order parent) -> has_cost G p x c -> 0 < c - fget f p x ->
    sdget cap p = Some a -> amounts f (sdset parent x p) (sdset cap x (omin a (Some (c - fget f p x)))).
  Proof.
    intros (A1 & A2) T Hx Hp Hc Hr Ha. rewrite sset_new by exact Hx.
    assert (Pa : match a with Some a => 0 < a | None => True end).
    { destruct Hp as [<-|Hp]; [destruct A2 as [A2|(b & A2 & B)]; rewrite A2 in Ha; injection Ha as <-; auto|].
      destruct (SD p s) as [->|Hps]; [destruct A2 as [A2|(b & A2 & B)]; rewrite A2 in Ha; injection Ha as <-; auto|].
      apply in_map_iff in Hp as ([p' q] & E & Hp). cbn in E. subst p'. destruct (A1 p q Hp Hps) as (b & c' & B1 & B2 & _). rewrite B1 in Ha. injection Ha as <-. exact B2. }
    assert (M : exists m, omin a (Some (c - fget f p x)) = Some m /\ 0 < m /\ m <= c - fget f p x /\ match a with Some a => m <= a | None => True end).
    { destruct a as [a|]; cbn; eexists; split; [reflexivity| |reflexivity|]; lia. }
    destruct M as (m & EM & M1 & M2 & M3). rewrite EM. split.
    - intros y q H Hy. apply in_app_or in H as [H|[[= <- <-]|[]]].
      + assert (Yx : y <> x) by (intros ->; apply Hx; apply (in_map fst) in H; exact H). rewrite sget_set_ne by exact Yx. destruct (A1 y q H Hy) as (b & c' & B1 & B2 & B3 & B4 & B5).
        exists b, c'. repeat (split; [assumption|]). intros Hq. destruct (B5 Hq) as (b' & B6 & B7). exists b'. split; [|exact B7]. rewrite sget_set_ne; [exact B6|].
        intros ->. destruct (t_ord _ _ T y x H) as ([X|X] & _); [congruence|contradiction].
      + rewrite sget_set_eq. exists m, c. repeat (split; [assumption || reflexivity|]). intros Hq. assert (Hpx : p <> x). { intros ->. destruct Hp as [->|Hp]; contradiction. }
        rewrite sget_set_ne by exact Hpx. destruct a as [a|]; [exists a; auto|]. destruct Hp as [X|Hp]; [congruence|].
        apply in_map_iff in Hp as ([p' q] & E & Hp). cbn in E. subst p'. destruct (A1 p q Hp Hq) as (b & c' & B1 & _). congruence.
    - destruct (SD x s) as [->|Hxs]; [rewrite sget_set_eq; right; exists m; auto|]. rewrite sget_set_ne by congruence. exact A2.
  Qed.
  Definition found_sink (f : fmap) (nf : option Z) (parent : list (string * string)) : Prop :=
    exists a cap, nf = Some a /\ 0 < a /\ tree f parent /\ amounts f parent cap /\ sdget cap t = Some (Some a) /\ In t (map fst parent).
  Definition bfs_inv (f : fmap) (dn : bool) (st : mf) : Prop :=
    m_ret st = None /\ tree f (m_parent st) /\ amounts f (m_parent st) (m_cap st) /\ (forall x, In x (m_queue st) -> In x (order (m_parent st))) /\ (dn = false -> ~ In t (map fst (m_parent st))).
  Definition bfs_post (f : fmap) (dn : bool) (r : option Z * list (string * string)) : Prop :=
    (dn = false /\ found_sink f (fst r) (snd r)) \/
    (fst r = Some 0 /\ tree f (snd r) /\ (forall x v, In x (order (snd r)) -> closed_at f (snd r) x v) /\ (dn = false -> ~ In t (map fst (snd r)))).

  Lemma tree_len f parent : tree f parent -> (length parent <= length V)%nat.
  Proof. intros T. rewrite <- (map_length fst). apply NoDup_incl_length; [apply T|]. intros x. apply T. Qed.
  Lemma order_V f parent x : tree f parent -> In x (order parent) -> In x V.
  Proof. intros T [<-|H]; [exact Hs|]. eapply t_V; eassumption. Qed.
  Lemma order_cap f parent cap x : amounts f parent cap -> In x (order parent) -> exists a, sdget cap x = Some a.
  Proof.
    intros (A1 & A2) H. destruct (SD x s) as [->|Hx]; [destruct A2 as [->|(b & -> & _)]; eauto|]. destruct H as [X|H]; [congruence|].
    apply in_map_iff in H as ([x' q] & E & H). cbn in E. subst x'. destruct (A1 x q H Hx) as (a & _ & -> & _). eauto.
  Qed.
  Lemma order_add parent x p y : In y (order parent) -> In y (order (sdset parent x p)).
  Proof. unfold order. rewrite sset_keys. destruct (mem x (map fst parent)); [auto|]. cbn. rewrite in_app_iff. tauto. Qed.

  Lemma bfs_ok f dn : wp (mf_bfs g s t f dn) (bfs_post f dn).
  Proof.
    unfold mf_bfs. destruct HG as (EV & NV & _ & _ & HE & HNB). rewrite EV.
    apply (wp_while _ _ (fun st => bfs_inv f dn st /\ forall x, In x (order (m_parent st)) -> In x (m_queue st) \/ forall v, closed_at f (m_parent st) x v)
             (fun st => (length (m_queue st) + (length V - length (m_parent st)))%nat)).
    - intros st ((RN & T & A & Q & D) & CL). destruct (m_queue st) as [|u rest] eqn:EQ.
      { cbn [wp]. right. cbn [fst snd]. split; [reflexivity|]. split; [exact T|]. split; [|exact D]. intros x v Hx. destruct (CL x Hx) as [[]|X]; apply X. }
      assert (HuO : In u (order (m_parent st))) by (apply Q; left; reflexivity). assert (HuV := order_V _ _ _ T HuO). destruct (HNB u HuV) as (nb & ENB & NNB & HNE). rewrite ENB. cbn [bind].
      apply wp_bind. eapply wp_mono.
      + apply (wp_forM _ _ nb _ (fun pre st' => match m_ret st' with
            | Some nf => dn = false /\ found_sink f nf (m_parent st')
            | None => bfs_inv f dn st' /\ (forall x, In x (order (m_parent st)) -> In x (order (m_parent st'))) /\ (length (m_queue st') + length (m_parent st) = length rest + length (m_parent st'))%nat /\
                (forall x, In x rest -> In x (m_queue st')) /\ (forall x, In x (order (m_parent st')) -> In x (order (m_parent st)) \/ In x (m_queue st')) /\ (forall x, In x (map fst (m_parent st)) -> In x (map fst (m_parent st'))) /\
                forall v, In v pre -> closed_at f (m_parent st') u v end)).
        * intros pre b post st' Epre. unfold mf_visit. destruct (m_ret st') as [nf|] eqn:ER; [cbn [wp]; rewrite ER; auto|]. intros ((_ & T' & A' & Q' & D') & O' & L' & R' & N' & K' & C').
          assert (Eub : is_edge G u b) by (apply HNE; rewrite Epre; apply in_elt). destruct (proj1 HN u b Eub) as (c & Hc). rewrite (cap_get u b c Hc). cbn [bind].
          destruct (Z.eqb_spec c 0) as [->|C0]; cbn [negb andb].
          { cbn [wp]. rewrite ER. split; [split; auto|]. repeat (split; [assumption|]). intros v Hv. apply in_app_or in Hv as [Hv|[<-|[]]]; [auto|]. intros c' Hc' NZ. rewrite (cap_fun _ _ _ _ Hc Hc') in NZ. congruence. }
          destruct (sdget (m_parent st') b) as [q|] eqn:EP; cbn [andb].
          { cbn [wp]. rewrite ER. split; [split; auto|]. repeat (split; [assumption|]). intros v Hv. apply in_app_or in Hv as [Hv|[<-|[]]]; [auto|]. intros _ _ _ _. eapply sget_key. exact EP. }
          apply sget_none in EP. destruct (Z.ltb_spec 0 (c - fget f u b)) as [Cr|Cr].
          2:{ cbn [wp]. rewrite ER. split; [split; auto|]. repeat (split; [assumption|]). intros v Hv. apply in_app_or in Hv as [Hv|[<-|[]]]; [auto|]. intros c' Hc' NZ X. rewrite (cap_fun _ _ _ _ Hc' Hc) in X. lia. }
          assert (HuO' := O' u HuO). destruct (order_cap _ _ _ _ A' HuO') as (a & Ea). unfold dgetE. rewrite Ea. cbn [bind].
          assert (T2 := tree_add f _ b u c T' HuO' HuV EP Hc C0 Cr). assert (A2 := amounts_add f _ _ b u c a A' T' EP HuO' Hc Cr Ea).
          destruct (String.eqb b t && negb dn) eqn:EB; cbn [wp m_ret m_parent m_queue m_cap].
          -- apply andb_true_iff in EB as (EB & ED). destruct (SE b t) as [->|]; [|discriminate]. destruct dn; [discriminate|]. split; [reflexivity|].
             assert (BB : exists m, omin a (Some (c - fget f u t)) = Some m) by (destruct a; cbn; eauto). destruct BB as (m & EM). rewrite EM in *.
             assert (IT : In (t, u) (sdset (m_parent st') t u)) by (apply sget_In, sget_set_eq).
             exists m, (sdset (m_cap st') t (Some m)). destruct (proj1 A2 t u IT) as (m' & c' & M1 & M2 & _); [congruence|]. rewrite sget_set_eq in M1. injection M1 as <-.
             split; [reflexivity|]. split; [exact M2|]. split; [exact T2|]. split; [exact A2|]. split; [apply sget_set_eq|]. apply (in_map fst) in IT. exact IT.
          -- assert (KK : forall x, In x (map fst (m_parent st')) -> In x (map fst (sdset (m_parent st') b u))). { intros x Hx. rewrite sset_keys. destruct (mem b _); [exact Hx|apply in_or_app; auto]. }
             split; [|split; [|split; [|split; [|split; [|split]]]]].
             ++ split; [reflexivity|]. split; [exact T2|]. split; [exact A2|]. cbn [m_queue m_parent]. split.
                ** intros x Hx. apply in_app_or in Hx as [Hx|[<-|[]]]; [apply order_add; auto|]. right. apply (in_map fst (sdset (m_parent st') b u) (b, u)). apply sget_In, sget_set_eq.
                ** intros ED Ht. rewrite ED in EB. rewrite sset_new, map_app, in_app_iff in Ht by exact EP. cbn in Ht. destruct Ht as [Ht|[->|[]]]; [apply D'; assumption|]. rewrite String.eqb_refl in EB. discriminate.
             ++ intros x Hx. apply order_add. auto.
             ++ rewrite app_length, sset_new, app_length by exact EP. cbn [length]. lia.
             ++ intros x Hx. apply in_or_app. auto.
             ++ intros x Hx. rewrite in_app_iff. unfold order in Hx. rewrite sset_new, map_app in Hx by exact EP. destruct Hx as [Hx|Hx]; [destruct (N' x) as [?|?]; [left; exact Hx|auto|auto]|].
                apply in_app_or in Hx as [Hx|[<-|[]]]; [destruct (N' x) as [?|?]; [right; exact Hx|auto|auto]|]. right. right. left. reflexivity.
             ++ auto.
             ++ intros v Hv c' H1 H2 H3. apply in_app_or in Hv as [Hv|[<-|[]]]; [apply KK; eapply C'; eauto|]. apply (in_map fst (sdset (m_parent st') b u) (b, u)). apply sget_In, sget_set_eq.
        * cbn [m_ret m_parent m_queue]. split; [split; [reflexivity|]; split; [exact T|]; split; [exact A|]; split; [intros; apply Q; right; assumption|exact D]|].
          split; [auto|]. split; [reflexivity|]. split; [auto|]. split; [auto|]. split; [auto|]. intros v [].
      + intros st' H. cbv beta in H. destruct (m_ret st') as [nf|] eqn:ER; cbn [wp].
        * left. exact H.
        * destruct H as (I & O' & L' & R' & N' & K' & C'). split; [split; [exact I|]|].
          -- intros x Hx. destruct (N' x Hx) as [Hx'|Hx']; [|auto]. destruct (CL x Hx') as [[->|X]|X]; [|auto|right; intros v c Y1 Y2 Y3; apply K'; eapply X; eauto].
             right. intros v c Hc C0 Cr. destruct (in_dec SD v nb) as [Hv|Hv]; [eapply C'; eauto|]. exfalso. apply Hv, HNE. eapply cost_edge. exact Hc.
          -- destruct I as (_ & T' & _). assert (LT := tree_len _ _ T'). cbn [length]. lia.
    - split; [|intros x [<-|[]]; left; left; reflexivity]. split; [reflexivity|]. split; [|split; [|split]].
      + split; cbn; try tauto. constructor.
      + split; [intros x p []|]. left. cbn. rewrite String.eqb_refl. reflexivity.
      + intros x H. exact H.
      + intros _ [].
    - cbn. lia.
  Qed.
End F.
