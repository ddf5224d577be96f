(** Proofs about SkipList, continued: histories, and the levels read off the heap. *)
From Verif Require Import Base SkipModel SkipSpec SkipProofs SkipProofs2 SkipProofs3 SkipProofs4.

Section Bag.
  Context {D : Type}.
  Notation bag := (list (Z * option D)).
  Notation at_key k := (filter (fun e : Z * option D => fst e =? k)).
  Definition sameb (l m : bag) : Prop := forall k, at_key k l = at_key k m.
  Lemma head_at k (x : Z * option D) t (m : bag) : at_key k m = x :: t -> exists m1 m2, m = m1 ++ x :: m2 /\ at_key k m1 = [] /\ at_key k m2 = t.
  Proof.
    induction m as [|y m IH]; [discriminate|]. cbn [filter]. destruct (fst y =? k) eqn:E.
    - intros [= -> <-]. exists [], m. auto.
    - intros H. destruct (IH H) as (m1 & m2 & -> & A & B). exists (y :: m1), m2. cbn [app filter]. rewrite E. auto.
  Qed.
  Lemma sameb_perm (l m : bag) : sameb l m -> Permutation l m.
  Proof.
    revert m. induction l as [|x l IH]; intros m S.
    - destruct m as [|y m]; [constructor|]. specialize (S (fst y)). cbn in S. rewrite Z.eqb_refl in S. discriminate.
    - assert (Sx := S (fst x)). cbn [filter] in Sx. rewrite Z.eqb_refl in Sx. symmetry in Sx. destruct (head_at _ _ _ _ Sx) as (m1 & m2 & -> & A & B). rewrite <- Permutation_middle. constructor. apply IH. intros k. specialize (S k). rewrite filter_app in *. cbn [filter] in S.
      destruct (Z.eqb_spec (fst x) k) as [E|_]; [|exact S]. subst k. rewrite A. cbn [app]. symmetry. exact B.
  Qed.
  Lemma at_filter k' (f : Z -> bool) (l : bag) : at_key k' (filter (fun e => f (fst e)) l) = if f k' then at_key k' l else [].
  Proof. induction l as [|x l IH]; [destruct (f k'); reflexivity|]. cbn [filter]. destruct (f (fst x)) eqn:E; cbn [filter]; rewrite IH; destruct (Z.eqb_spec (fst x) k') as [<-|_]; rewrite ?E; try reflexivity; destruct (f k'); reflexivity. Qed.
  Lemma ins_same k d (l m : bag) : sameb l m -> sameb (ins_items k d l) ((k, d) :: m).
  Proof.
    intros S k'. unfold ins_items. rewrite filter_app. cbn [filter fst]. rewrite (at_filter k' (fun z => negb (k <=? z))), (at_filter k' (fun z => k <=? z)). rewrite <- S. destruct (Z.eqb_spec k k') as [<-|Ne]; [rewrite Z.leb_refl; reflexivity|]. destruct (k <=? k'); cbn [negb app]; [reflexivity|apply app_nil_r].
  Qed.
  Lemma asc_filter (f : Z * option D -> bool) (l : bag) : ascending (map fst l) -> ascending (map fst (filter f l)).
  Proof. intros A. apply (sub_asc _ (map fst l)); [|exact A]. apply sub_map. induction l as [|x l IH]; [constructor|]. cbn [filter]. cbn [map ascending] in A. destruct (f x); [apply sub_keep|apply sub_skip]; apply IH, A. Qed.
  Lemma ins_asc k d (l : bag) : ascending (map fst l) -> ascending (map fst (ins_items k d l)).
  Proof.
    intros A. unfold ins_items. rewrite map_app. cbn [map fst]. apply asc_app. split; [apply asc_filter, A|]. split.
    - cbn [ascending]. split; [|apply asc_filter, A]. rewrite Forall_map, Forall_forall. intros x Hx. apply filter_In in Hx. lia.
    - intros x y Hx Hy. apply in_map_iff in Hx as (a & <- & Ha). apply filter_In in Ha as (_ & Ha). destruct Hy as [<-|Hy]; [lia|]. apply in_map_iff in Hy as (b & <- & Hb). apply filter_In in Hb as (_ & Hb). lia.
  Qed.
  Lemma ext_asc k (l : bag) : ascending (map fst l) -> ascending (map fst (ext_items k l)).
  Proof.
    intros A. unfold ext_items. rewrite map_app. apply asc_app. split; [apply asc_filter, A|]. assert (B := asc_filter (fun e => k <=? fst e) l A). split.
    - destruct (filter (fun e => k <=? fst e) l) as [|x q]; [exact I|]. cbn [tl]. cbn [map ascending] in B. apply B.
    - intros x y Hx Hy. apply in_map_iff in Hx as (a & <- & Ha). apply filter_In in Ha as (_ & Ha). apply in_map_iff in Hy as (b & <- & Hb). assert (Hb' : In b (filter (fun e => k <=? fst e) l)) by (destruct (filter (fun e => k <=? fst e) l); [destruct Hb|right; exact Hb]). apply filter_In in Hb' as (_ & Hb'). lia.
  Qed.
  Lemma take_some k d t (m : bag) : at_key k m = (k, d) :: t -> exists m', take_key k m = Some (d, m') /\ at_key k m' = t /\ forall k', k' <> k -> at_key k' m' = at_key k' m.
  Proof.
    induction m as [|(z, e) m IH]; [discriminate|]. cbn [filter fst take_key]. destruct (Z.eqb_spec z k) as [->|Ne].
    - intros [= -> <-]. exists m. split; [reflexivity|]. split; [reflexivity|]. intros k' Nk. destruct (Z.eqb_spec k k'); [congruence|reflexivity].
    - intros H. destruct (IH H) as (m' & -> & A & B). exists ((z, e) :: m'). split; [reflexivity|]. cbn [filter fst]. split; [destruct (Z.eqb_spec z k); [congruence|exact A]|]. intros k' Nk. rewrite (B k' Nk). reflexivity.
  Qed.
  Lemma take_none k (m : bag) : at_key k m = [] -> take_key k m = None.
  Proof. induction m as [|(z, e) m IH]; [reflexivity|]. cbn [filter fst take_key]. destruct (z =? k); [discriminate|]. intros H. rewrite (IH H). reflexivity. Qed.
  Lemma ext_same k d rest (l m : bag) : sameb l m -> filter (fun e => k <=? fst e) l = (k, d) :: rest -> exists m', take_key k m = Some (d, m') /\ sameb (ext_items k l) m'.
  Proof.
    intros S F. assert (FK : forall k', k <= k' -> at_key k' l = at_key k' ((k, d) :: rest)). { intros k' L. rewrite <- F. rewrite (at_filter k' (fun z => k <=? z)). destruct (Z.leb_spec k k'); [reflexivity|lia]. }
    assert (E := FK k (Z.le_refl k)). cbn [filter fst] in E. rewrite Z.eqb_refl in E. rewrite (S k) in E. destruct (take_some k d _ m E) as (m' & T & A & B). exists m'. split; [exact T|].
    intros k'. unfold ext_items. rewrite F. cbn [tl]. rewrite filter_app, (at_filter k' (fun z => negb (k <=? z))). destruct (Z.leb_spec k k') as [L|L]; cbn [negb app].
    - destruct (Z.eq_dec k' k) as [->|Nk]; [symmetry; exact A|]. rewrite (B k' Nk), <- (S k'), (FK k' L). cbn [filter fst]. destruct (Z.eqb_spec k k'); [congruence|reflexivity].
    - rewrite (B k' ltac:(lia)), <- (S k'). assert (N : at_key k' rest = []). { apply no_elem. intros x Hx. apply filter_In in Hx as (Hx & Ex). assert (In x (filter (fun e => k <=? fst e) l)) by (rewrite F; right; exact Hx). apply filter_In in H. lia. } rewrite N. apply app_nil_r.
  Qed.
  Lemma exists_at k (l : bag) : existsb (fun e => fst e =? k) l = match at_key k l with [] => false | _ => true end.
  Proof. induction l as [|x l IH]; [reflexivity|]. cbn [existsb filter]. destruct (fst x =? k); [reflexivity|exact IH]. Qed.

  Definition related (st : skip D) (b : bag) : Prop := exists Ls, rep st Ls /\ sameb (items (k_heap st) Ls) b.
  Lemma new_related : related skip_new [].
  Proof.
    exists [Lv 1 [] 0]. split; [|intros k; reflexivity]. destruct (add_level_ok (SK (@nil (snode D)) None None 0 0) []) as (R & _).
    - split; [constructor|constructor|exact I|constructor|intros a []].
    - reflexivity.
    - reflexivity.
    - split; [exact R|discriminate|reflexivity|reflexivity|reflexivity|reflexivity].
  Qed.
  Lemma items_asc (st : skip D) Ls : rep st Ls -> ascending (map fst (items (k_heap st) Ls)).
  Proof. intros R. destruct (tip_ok st Ls 0 R) as (L & Up & _ & OK & EB & _). unfold items. rewrite EB, map_map. cbn [fst]. apply OK. Qed.
  Lemma step_related st b o : related st b -> exists st', skip_step st o = Ret (st', snd (bag_step b o)) /\ related st' (fst (bag_step b o)).
  Proof.
    intros (Ls & R & S). destruct o as [k d flips|k|k|]; cbn [skip_step bag_step].
    - destruct (insert_ok st Ls k d flips R) as (st' & Ls' & E & R' & EI). rewrite E. cbn [bind fst snd]. exists st'. split; [reflexivity|]. exists Ls'. split; [exact R'|]. rewrite EI. apply ins_same, S.
    - destruct (extract_ok st Ls k R) as [(EX & E)|(d & rest & st' & Ls' & F & E & R' & EI)]; rewrite E.
      + rewrite exists_at, S in EX. destruct (at_key k b) eqn:EA; [|discriminate]. rewrite (take_none k b EA). exists st. split; [reflexivity|]. exists Ls. auto.
      + destruct (ext_same k d rest _ b S F) as (m' & T & S'). rewrite T. exists st'. split; [reflexivity|]. exists Ls'. split; [exact R'|]. rewrite EI. exact S'.
    - rewrite (search_ok st Ls k R). cbn [bind fst snd]. exists st. rewrite !exists_at, S. split; [reflexivity|]. exists Ls. auto.
    - exists st. cbn [fst snd]. rewrite (p_num _ _ R). split; [|exists Ls; auto]. unfold len. rewrite (Permutation_length (sameb_perm _ _ S)). reflexivity.
  Qed.
  Lemma run_related ops : forall st b, related st b -> exists st', skip_run st ops = Ret (st', snd (bag_run b ops)) /\ related st' (fst (bag_run b ops)).
  Proof.
    induction ops as [|o ops IH]; intros st b H; [exists st; auto|]. cbn [skip_run bag_run]. destruct (step_related st b o H) as (st1 & E & H1). destruct (bag_step b o) as (b1 & r). cbn [fst snd] in *. rewrite E. cbn [bind]. destruct (IH st1 b1 H1) as (st2 & E2 & H2). destruct (bag_run b1 ops) as (b2 & rs). cbn [fst snd] in *. rewrite E2. cbn [bind]. exists st2. auto.
  Qed.

  (** ** reading the levels *)
  Notation cell h a := (K h a, DD h a).
  Lemma read_chain (h : list (snode D)) : forall l a t fuel, chain (N h) a l t -> K h a <> PInf -> (forall x, In x l -> K h x <> PInf) -> K h t = PInf -> (forall x, In x (a :: l ++ [t]) -> (x < length h)%nat) -> (S (length l) < fuel)%nat ->
    read_right fuel h (Some a) = map (fun x => cell h x) (a :: l ++ [t]).
  Proof.
    assert (RD : forall f a, (a < length h)%nat -> read_right (S f) h (Some a) = cell h a :: match K h a with PInf => [] | _ => read_right f h (N h a) end). { intros f a L. cbn [read_right]. unfold K, DD, N. destruct (nth_error h a) eqn:E; [reflexivity|]. apply nth_error_None in E. lia. }
    induction l as [|y l IH]; intros a t fuel C Ka Kl Kt B F; (destruct fuel as [|fuel]; [lia|]); rewrite RD by (apply B; left; reflexivity).
    - cbn [chain] in C. rewrite C. cbn [length] in F. destruct fuel as [|fuel]; [lia|]. rewrite RD by (apply B; right; left; reflexivity). rewrite Kt. cbn [map app]. rewrite Kt. destruct (K h a); [reflexivity|reflexivity|congruence].
    - destruct C as (C1 & C2). rewrite C1. cbn [map app length] in *. assert (Q : read_right fuel h (Some y) = map (fun x => cell h x) (y :: l ++ [t])) by (apply (IH y t fuel C2); [apply Kl; left; reflexivity|intros x Hx; apply Kl; right; exact Hx|exact Kt|intros x Hx; apply B; right; exact Hx|lia]). cbn [map] in Q. rewrite Q. destruct (K h a); [reflexivity|reflexivity|congruence].
  Qed.
  Lemma read_lvl (h : list (snode D)) L : lok h L -> read_right (S (length h)) h (Some (lh L)) = (NInf, DD h (lh L)) :: map (fun a => (Fin (kz (K h) a), DD h a)) (lm L) ++ [(PInf, DD h (lt L))].
  Proof.
    intros (C & (K1 & K2 & F & _) & ND & BD). assert (FN : forall x, In x (lm L) -> K h x = Fin (kz (K h) x)) by (intros x Hx; rewrite Forall_forall in F; destruct (F x Hx) as (z & E); unfold kz; rewrite E; reflexivity).
    rewrite (read_chain h (lm L) (lh L) (lt L)); auto.
    - cbn [map]. rewrite K1, map_app. cbn [map]. rewrite K2. f_equal. f_equal. apply map_ext_in. intros a Ha. rewrite (FN a Ha). reflexivity.
    - rewrite K1. discriminate.
    - intros x Hx. rewrite (FN x Hx). discriminate.
    - assert (X : (length (addrs L) <= length (seq 0 (length h)))%nat). { apply NoDup_incl_length; [exact ND|]. intros a Ha. apply in_seq. apply BD in Ha. lia. } rewrite seq_length in X. unfold addrs in X. cbn [length] in X. rewrite app_length in X. cbn [length] in X. lia.
  Qed.
  Definition lvl_read (h : list (snode D)) (L : lvl) : list (xkey * option D) := (NInf, DD h (lh L)) :: map (fun a => (Fin (kz (K h) a), DD h a)) (lm L) ++ [(PInf, DD h (lt L))].
  Lemma read_all (h : list (snode D)) : forall Ls fuel, (forall L, In L Ls -> lok h L) -> linked (K h) (Dn h) Ls -> (length Ls < fuel)%nat -> read_levels fuel h (topH Ls) = map (lvl_read h) Ls.
  Proof.
    induction Ls as [|L Ls IH]; intros fuel OK LN F; [destruct fuel; reflexivity|]. destruct fuel as [|fuel]; [lia|]. cbn [topH read_levels map]. assert (OKL := OK L (or_introl eq_refl)). rewrite (read_lvl h L OKL). fold (lvl_read h L). f_equal.
    assert (ED : Dn h (lh L) = topH Ls) by (destruct LN as (A & _); destruct Ls as [|L' Ls]; apply A). assert (B : (lh L < length h)%nat) by (apply OKL, in_addrs; auto). unfold Dn in ED. destruct (nth_error h (lh L)) as [c|] eqn:E; [|apply nth_error_None in E; lia]. rewrite ED. apply IH; [intros L' I; apply OK; right; exact I|apply LN|cbn [length] in F; lia].
  Qed.
  Lemma levels_ok (st : skip D) Ls : rep st Ls -> skip_levels st = map (lvl_read (k_heap st)) Ls.
  Proof.
    intros R. unfold skip_levels. rewrite (p_head _ _ R). apply read_all; [intros L I; apply (repH_lok _ _ _ (p_h _ _ R) I)|apply R|]. assert (C := cost_bound _ _ (p_h _ _ R)). assert (X : (length Ls <= cost Ls)%nat); [|lia]. clear. induction Ls as [|L Ls IH]; [cbn; lia|]. cbn [cost fold_right length]. fold (cost Ls). lia.
  Qed.
End Bag.
