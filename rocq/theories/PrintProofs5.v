(** Printing a skip list, part 2. *)
From Verif Require Import Base SkipModel SkipSpec SkipProofs SkipProofs2 SkipProofs3 SkipProofs5 PrintModel PrintSpec PrintProofs4.

(** ** columns and rows *)
Fixpoint cols (c : Z) (ks : list Z) : list (Z * Z) := match ks with [] => [] | k :: ks => (k, c) :: cols (c + 1) ks end.
Fixpoint lastix (k : Z) (ks : list Z) : Z := match ks with [] => 0 | _ :: ks => if existsb (Z.eqb k) ks then 1 + lastix k ks else 0 end.
Lemma ex_in k ks : existsb (Z.eqb k) ks = true <-> In k ks.
Proof. rewrite existsb_exists. split; [intros (x & I & E); apply Z.eqb_eq in E; subst; exact I|intros I; exists k; rewrite Z.eqb_refl; auto]. Qed.
Lemma find_col_app a b k : find_col (a ++ b) k = match find_col a k with Ret v => Ret v | _ => find_col b k end.
Proof. induction a as [|(x, v) a IH]; [reflexivity|]. cbn [app find_col]. destruct (x =? k); [reflexivity|exact IH]. Qed.
Lemma find_cols ks : forall c k, find_col (rev (cols c ks)) k = if existsb (Z.eqb k) ks then Ret (c + lastix k ks) else Raise KeyError.
Proof.
  induction ks as [|x ks IH]; intros c k; [reflexivity|]. cbn [cols rev existsb lastix]. rewrite find_col_app, IH. destruct (existsb (Z.eqb k) ks) eqn:E; [rewrite orb_true_r; f_equal; lia|]. rewrite orb_false_r. cbn [find_col]. rewrite (Z.eqb_sym x k). destruct (k =? x); [f_equal; lia|reflexivity].
Qed.
Lemma lastix_range k ks : In k ks -> 0 <= lastix k ks < len ks.
Proof. unfold len. induction ks as [|x ks IH]; [intros []|]. intros I. cbn [lastix length]. destruct (existsb (Z.eqb k) ks) eqn:E; [|lia]. apply ex_in in E. specialize (IH E). lia. Qed.
Section Rows.
  Context {D : Type}.
  Implicit Type lv : list (Z * option D).
  Lemma row_len lv ks : len (skip_row lv ks) = len ks.
  Proof. unfold len. induction ks as [|k ks IH]; [reflexivity|]. cbn [skip_row length]. lia. Qed.
  Lemma row_nil ks : skip_row (@nil (Z * option D)) ks = repeat None (length ks).
  Proof. induction ks as [|k ks IH]; [reflexivity|]. cbn. rewrite IH. destruct (existsb (Z.eqb k) ks); reflexivity. Qed.
  Lemma row_other lv k d ks : ~ In k ks -> skip_row (lv ++ [(k, d)]) ks = skip_row lv ks.
  Proof. induction ks as [|x ks IH]; [reflexivity|]. intros N. cbn [skip_row]. rewrite IH by (intros I; apply N; right; exact I). f_equal. destruct (existsb (Z.eqb x) ks); [reflexivity|]. rewrite rev_app_distr. cbn [rev app find fst]. destruct (Z.eqb_spec k x) as [->|]; [exfalso; apply N; left; reflexivity|reflexivity]. Qed.
  Lemma row_snoc lv k d ks : In k ks -> skip_row (lv ++ [(k, d)]) ks = zupd (skip_row lv ks) (lastix k ks) (Some (k, d)).
  Proof.
    induction ks as [|x ks IH]; [intros []|]. intros I. cbn [skip_row lastix]. destruct (existsb (Z.eqb k) ks) eqn:E.
    - apply ex_in in E. rewrite IH by exact E. assert (B := lastix_range k ks E). unfold zupd. replace (Z.to_nat (1 + lastix k ks)) with (S (Z.to_nat (lastix k ks))) by lia. cbn [upd]. f_equal. destruct (Z.eqb_spec k x) as [->|Ne]; [assert (X := proj2 (ex_in x ks) E); rewrite X; reflexivity|].
      destruct (existsb (Z.eqb x) ks); [reflexivity|]. rewrite rev_app_distr. cbn [rev app find fst]. destruct (Z.eqb_spec k x); [congruence|reflexivity].
    - assert (NI : ~ In k ks) by (rewrite <- ex_in, E; discriminate). destruct I as [->|I]; [|contradiction]. rewrite row_other by exact NI. rewrite E. unfold zupd. cbn [Z.to_nat upd]. rewrite rev_app_distr. cbn [rev app find fst]. rewrite Z.eqb_refl. reflexivity.
  Qed.
End Rows.

Lemma get_mid {V} (A B : list V) x : lget (A ++ x :: B) (len A) = Ret x.
Proof. rewrite (lget_ok _ x) by (unfold len; rewrite app_length; cbn [length]; lia). f_equal. unfold zn, len. rewrite Nat2Z.id, app_nth2 by lia. rewrite Nat.sub_diag. reflexivity. Qed.
Lemma set_mid {V} (A B : list V) x y : aset (A ++ x :: B) (len A) y = Ret (A ++ y :: B).
Proof. rewrite aset_ok by (unfold len; rewrite app_length; cbn [length]; lia). f_equal. unfold zupd, len. rewrite Nat2Z.id. induction A as [|a A IH]; [reflexivity|]. cbn [app length upd]. f_equal. exact IH. Qed.

(** ** walking along next *)
Section Walk.
  Context {D : Type} (h : list (snode D)).
  Fixpoint walk (p : option nat) (l : list nat) : Prop := match l with [] => p = None | a :: l => p = Some a /\ (a < length h)%nat /\ walk (N h a) l end.
  Lemma chain_walk : forall l a t, chain (N h) a l t -> N h t = None -> (forall x, In x (a :: l ++ [t]) -> (x < length h)%nat) -> walk (Some a) (a :: l ++ [t]).
  Proof.
    induction l as [|y l IH]; intros a t C E B.
    - cbn [app walk]. split; [reflexivity|]. split; [apply B; left; reflexivity|]. split; [exact C|]. split; [apply B; right; left; reflexivity|exact E].
    - destruct C as (C1 & C2). split; [reflexivity|]. split; [apply B; left; reflexivity|]. rewrite C1. apply IH; [exact C2|exact E|]. intros x Hx. apply B. right. exact Hx.
  Qed.
  Lemma level_walk L : pinf_ok h -> lok h L -> walk (Some (lh L)) (addrs L).
  Proof.
    intros P (C & (_ & K2 & _) & ND & BD). apply chain_walk; [exact C| |exact BD]. assert (B : (lt L < length h)%nat) by (apply BD, in_addrs; auto). unfold K, N in *. destruct (nth_error h (lt L)) as [c|] eqn:E; [|apply nth_error_None in E; lia]. apply (P _ _ E K2).
  Qed.
  Lemma addrs_len L : lok h L -> (length (addrs L) <= length h)%nat.
  Proof. intros (_ & _ & ND & BD). assert (X : (length (addrs L) <= length (seq 0 (length h)))%nat). { apply NoDup_incl_length; [exact ND|]. intros a Ha. apply in_seq. apply BD in Ha. lia. } rewrite seq_length in X. exact X. Qed.
  Notation kzh := (kz (K h)).

  Definition nbody (level : Z) (bottom : bool) := (fun '(node, col, r, c) =>
      match node with
      | None => Ret (Break (r, c))
      | Some a =>
        n <- sderef h node ;;
        match s_key n with
        | Fin k => Ret (Next (s_next n, col + 1, (a, level) :: r, if bottom : bool then (k, col) :: c else c))
        | _ => Ret (Next (s_next n, col, r, c))
        end
      end : res (ctl (option nat * Z * list (nat * Z) * list (Z * Z)) (list (nat * Z) * list (Z * Z)))).
  Lemma note_end level bottom t col r c fuel : walk (Some t) [t] -> K h t = PInf -> (1 < fuel)%nat -> while_loop fuel (nbody level bottom) (Some t, col, r, c) = Ret (r, c).
  Proof.
    intros (_ & B & E) Kt F. destruct fuel as [|[|fuel]]; try lia. cbn [while_loop nbody]. rewrite deref_ok by exact B. cbn [bind s_key]. rewrite Kt. cbn [s_next]. cbn [walk] in E. rewrite E. reflexivity.
  Qed.
  Lemma note_mid level bottom t : K h t = PInf -> forall l p col r c fuel, walk p (l ++ [t]) -> Forall (fun a => exists z, K h a = Fin z) l -> (S (length l) < fuel)%nat ->
    while_loop fuel (nbody level bottom) (p, col, r, c) = Ret (rev (map (fun a => (a, level)) l) ++ r, if bottom then rev (cols col (map kzh l)) ++ c else c).
  Proof.
    intros Kt. induction l as [|a l IH]; intros p col r c fuel W Fl F.
    - cbn [app] in W. assert (W' := W). destruct W as (-> & _). rewrite note_end by (try exact W'; try exact Kt; cbn in F; lia). cbn. destruct bottom; reflexivity.
    - cbn [app] in W. destruct W as (-> & B & W). inversion Fl as [|? ? (z & Ez) Fl']; subst. destruct fuel as [|fuel]; [lia|]. cbn [while_loop nbody]. rewrite deref_ok by exact B. cbn [bind s_key]. rewrite Ez. cbn [s_next]. rewrite (IH _ _ _ _ fuel W Fl') by (cbn [length] in F; lia).
      assert (Ka : kzh a = z) by (unfold kz; rewrite Ez; reflexivity). cbn [map rev cols]. rewrite Ka, <- !app_assoc. cbn [app]. destruct bottom; reflexivity.
  Qed.
  Lemma skip_note_ok (st : skip D) level bottom L r c : k_heap st = h -> pinf_ok h -> lok h L ->
    skip_note st level bottom (Some (lh L)) r c = Ret (rev (map (fun a => (a, level)) (lm L)) ++ r, if bottom then rev (cols 0 (map kzh (lm L))) ++ c else c).
  Proof.
    intros E P OK. unfold skip_note. rewrite E. change (while_loop (S (length h)) (nbody level bottom) (Some (lh L), 0, r, c) = Ret (rev (map (fun a => (a, level)) (lm L)) ++ r, if bottom then rev (cols 0 (map kzh (lm L))) ++ c else c)).
    assert (W := level_walk L P OK). assert (LN := addrs_len L OK). destruct OK as (_ & (K1 & K2 & F & _) & _). unfold addrs in *. cbn [length] in LN. rewrite app_length in LN. cbn [length] in LN. destruct W as (_ & B & W). cbn [while_loop nbody]. rewrite deref_ok by exact B. cbn [bind s_key]. rewrite K1. cbn [s_next]. apply (note_mid level bottom (lt L) K2 (lm L)); [exact W|exact F|lia].
  Qed.

  Fixpoint rows (Ls : list lvl) (r : list (nat * Z)) : list (nat * Z) := match Ls with [] => r | L :: Ls => rows Ls (rev (map (fun a => (a, len Ls)) (lm L)) ++ r) end.
  Definition wbody (st : skip D) := (fun '(walk, level, r, c) =>
      match walk with
      | None => Ret (Break (r, c))
      | Some a =>
        w <- sderef h walk ;;
        ' (r, c) <- skip_note st level (match s_down w with None => true | Some _ => false end) walk r c ;;
        Ret (Next (s_down w, level - 1, r, c))
      end : res (ctl (option nat * Z * list (nat * Z) * list (Z * Z)) (list (nat * Z) * list (Z * Z)))).
  Lemma down_top L Ls : linked (K h) (Dn h) (L :: Ls) -> Dn h (lh L) = topH Ls.
  Proof. intros (A & _). destruct Ls as [|L' Ls]; apply A. Qed.
  Lemma notes_ok (st : skip D) : k_heap st = h -> pinf_ok h -> forall Ls fuel r c, (forall L, In L Ls -> lok h L) -> linked (K h) (Dn h) Ls -> (length Ls < fuel)%nat ->
    while_loop fuel (wbody st) (topH Ls, len Ls - 1, r, c) = Ret (rows Ls r, match Ls with [] => c | _ => rev (cols 0 (map kzh (bot Ls))) ++ c end).
  Proof.
    intros E P. induction Ls as [|L Ls IH]; intros fuel r c OK LN F; [destruct fuel; [cbn in F; lia|reflexivity]|]. destruct fuel as [|fuel]; [lia|]. cbn [topH while_loop wbody]. assert (OKL := OK L (or_introl eq_refl)). assert (B : (lh L < length h)%nat) by (apply OKL, in_addrs; auto).
    rewrite deref_ok by exact B. cbn [bind s_down]. rewrite (down_top _ _ LN), (skip_note_ok st _ _ L r c E P OKL). cbn [bind]. replace (len (L :: Ls) - 1) with (len Ls) by (unfold len; cbn [length]; lia). rewrite IH; [|intros L' I; apply OK; right; exact I|apply LN|cbn [length] in F; lia]. cbn [rows]. destruct Ls as [|L' Ls]; reflexivity.
  Qed.

  Lemma find_row_app a b x : find_row (a ++ b) x = match find_row a x with Some v => Some v | None => find_row b x end.
  Proof. induction a as [|(y, v) a IH]; [reflexivity|]. cbn [app find_row]. destruct (y =? x)%nat; [reflexivity|exact IH]. Qed.
  Lemma find_row_map v l x : find_row (rev (map (fun a => (a, v)) l)) x = if existsb (Nat.eqb x) l then Some v else None.
  Proof. induction l as [|y l IH]; [reflexivity|]. cbn [map rev existsb]. rewrite find_row_app, IH. destruct (existsb (Nat.eqb x) l); [rewrite orb_true_r; reflexivity|]. rewrite orb_false_r. cbn [find_row]. rewrite (Nat.eqb_sym y x). reflexivity. Qed.
  Lemma nex (x : nat) l : existsb (Nat.eqb x) l = true <-> In x l.
  Proof. rewrite existsb_exists. split; [intros (y & I & E); apply Nat.eqb_eq in E; subst; exact I|intros I; exists x; rewrite Nat.eqb_refl; auto]. Qed.
  Lemma rows_none Ls : forall r x, (forall L, In L Ls -> ~ In x (lm L)) -> find_row (rows Ls r) x = find_row r x.
  Proof.
    induction Ls as [|L Ls IH]; intros r x H; [reflexivity|]. cbn [rows]. rewrite IH by (intros L' I; apply H; right; exact I). rewrite find_row_app, find_row_map. destruct (existsb (Nat.eqb x) (lm L)) eqn:E; [|reflexivity]. apply nex in E. exfalso. apply (H L); [left; reflexivity|exact E].
  Qed.
  Lemma rows_some Up L Lo : forall r x, (forall L', In L' Lo -> ~ In x (lm L')) -> In x (lm L) -> find_row (rows (Up ++ L :: Lo) r) x = Some (len Lo).
  Proof.
    induction Up as [|U Up IH]; intros r x H I.
    - cbn [app rows]. rewrite rows_none by exact H. rewrite find_row_app, find_row_map. apply nex in I. rewrite I. reflexivity.
    - cbn [app rows]. apply IH; assumption.
  Qed.

  (** ** drawing *)
  Notation item a := (kzh a, DD h a).
  Definition dwbody (r : list (nat * Z)) (c : list (Z * Z)) := (fun '(node, mat) =>
      match node with
      | None => Ret (Break mat)
      | Some a =>
        n <- sderef h node ;;
        match find_row r a with
        | None => Ret (Next (s_next n, mat))
        | Some row =>
          match s_key n with
          | Fin k => col <- find_col c k ;; line <- lget mat row ;; line <- aset line col (Some (k, s_data n)) ;; mat <- aset mat row line ;; Ret (Next (s_next n, mat))
          | _ => Raise KeyError
          end
        end
      end : res (ctl (option nat * list (list (option (Z * option D)))) (list (list (option (Z * option D)))))).
  Lemma draw_mid r ks t A B : find_row r t = None -> forall l p pre fuel, walk p (l ++ [t]) -> Forall (fun a => exists z, K h a = Fin z) l -> (forall a, In a l -> find_row r a = Some (len A) /\ In (kzh a) ks) -> (S (length l) < fuel)%nat ->
    while_loop fuel (dwbody r (rev (cols 0 ks))) (p, A ++ skip_row pre ks :: B) = Ret (A ++ skip_row (pre ++ map (fun a => item a) l) ks :: B).
  Proof.
    intros Et. induction l as [|a l IH]; intros p pre fuel W Fl HR F.
    - cbn [app] in W. destruct W as (-> & Bt & E). destruct fuel as [|[|fuel]]; cbn in F; try lia. cbn [while_loop dwbody]. rewrite deref_ok by exact Bt. cbn [bind]. rewrite Et. cbn [s_next]. cbn [walk] in E. rewrite E. cbn [map]. rewrite app_nil_r. reflexivity.
    - cbn [app] in W. destruct W as (-> & Ba & W). inversion Fl as [|? ? (z & Ez) Fl']; subst. destruct fuel as [|fuel]; [lia|]. destruct (HR a (or_introl eq_refl)) as (Er & Ik). cbn [while_loop dwbody]. rewrite deref_ok by exact Ba. cbn [bind s_key s_next s_data]. rewrite Er, Ez.
      assert (Ka : kzh a = z) by (unfold kz; rewrite Ez; reflexivity). rewrite Ka in Ik. rewrite find_cols. rewrite (proj2 (ex_in z ks) Ik). cbn [bind]. rewrite get_mid. cbn [bind]. rewrite aset_ok by (rewrite row_len; apply lastix_range, Ik). cbn [bind]. rewrite set_mid. cbn [bind].
      rewrite Z.add_0_l, <- (row_snoc pre z (DD h a) ks Ik). rewrite (IH _ _ fuel W Fl'); [|intros b Hb; apply HR; right; exact Hb|cbn [length] in F; lia]. cbn [map]. rewrite Ka, <- app_assoc. reflexivity.
  Qed.
  Lemma draw_level (st : skip D) r ks A B L : k_heap st = h -> pinf_ok h -> lok h L -> find_row r (lh L) = None -> find_row r (lt L) = None -> (forall a, In a (lm L) -> find_row r a = Some (len A) /\ In (kzh a) ks) ->
    skip_draw st r (rev (cols 0 ks)) (Some (lh L)) (A ++ repeat None (length ks) :: B) = Ret (A ++ skip_row (map (fun a => item a) (lm L)) ks :: B).
  Proof.
    intros E P OK Eh Et HR. unfold skip_draw. rewrite E. change (while_loop (S (length h)) (dwbody r (rev (cols 0 ks))) (Some (lh L), A ++ repeat None (length ks) :: B) = Ret (A ++ skip_row (map (fun a => item a) (lm L)) ks :: B)).
    assert (W := level_walk L P OK). assert (LN := addrs_len L OK). destruct OK as (_ & (K1 & K2 & F & _) & _). unfold addrs in *. cbn [length] in LN. rewrite app_length in LN. cbn [length] in LN. destruct W as (_ & Bh & W). cbn [while_loop dwbody]. rewrite deref_ok by exact Bh. cbn [bind]. rewrite Eh. cbn [s_next].
    rewrite <- row_nil. apply (draw_mid r ks (lt L) A B Et (lm L) _ []); [exact W|exact F|exact HR|lia].
  Qed.
End Walk.

Section All.
  Context {D : Type}.
  Lemma below_keys (h : list (snode D)) : forall Ls, linked (K h) (Dn h) Ls -> forall L, In L Ls -> forall a, In a (lm L) -> In (kz (K h) a) (map (kz (K h)) (bot Ls)).
  Proof.
    induction Ls as [|L Ls IH]; intros LN L1 I a Ha; [destruct I|]. destruct LN as (A & B). destruct Ls as [|L' Ls].
    - destruct I as [<-|[]]. unfold bot. cbn [last]. apply in_map, Ha.
    - change (bot (L :: L' :: Ls)) with (bot (L' :: Ls)). destruct I as [<-|I]; [|apply (IH B L1 I a Ha)]. destruct A as (_ & _ & ds & S & F2). apply In_nth_error in Ha as (i & Ei). destruct (nth_error ds i) as [d|] eqn:Ed; [|exfalso; apply nth_error_None in Ed; assert (i < length (lm L))%nat by (apply nth_error_Some; congruence); apply f2_len in F2; lia].
      destruct (f2_nth _ _ _ F2 i a d Ei Ed) as (_ & Q). assert (Id : In d (lm L')) by (apply (sub_in _ _ S); eapply nth_error_In; exact Ed). assert (X := IH B L' (or_introl eq_refl) d Id). unfold kz in X at 1. rewrite Q in X. exact X.
  Qed.
  Lemma disj_addrs h (Up : list lvl) L Lo x : @repH D h (Up ++ L :: Lo) -> In x (addrs L) -> forall L', In L' (Up ++ Lo) -> ~ In x (addrs L').
  Proof.
    intros R Ix L' I Ix'. assert (ND := h_nd _ _ R). rewrite flat_map_app in ND. cbn [flat_map] in ND. apply in_app_iff in I as [I|I].
    - apply (nd_disj _ _ x ND); [apply in_flat_map; eauto|apply in_app_iff; auto].
    - apply nd_r in ND. apply (nd_disj _ _ x ND Ix). apply in_flat_map. eauto.
  Qed.
  Lemma own_ends h L : @lok D h L -> ~ In (lh L) (lm L) /\ ~ In (lt L) (lm L).
  Proof. intros (_ & _ & ND & _). unfold addrs in ND. inversion ND as [|? ? N1 N2]; subst. split; [intros X; apply N1, in_app_iff; auto|]. intros X. apply (nd_disj _ _ _ N2 X). left. reflexivity. Qed.
  Definition drow (h : list (snode D)) (ks : list Z) (L : lvl) := skip_row (map (fun a => (kz (K h) a, DD h a)) (lm L)) ks.
  Lemma draw_all (st : skip D) Ls0 : let h := k_heap st in let ks := map (kz (K h)) (bot Ls0) in pinf_ok h -> repH h Ls0 -> forall Ls Up fuel done, Ls0 = Up ++ Ls -> (length Ls < fuel)%nat ->
    while_loop fuel (fun '(walk, mat) =>
      match walk with
      | None => Ret (Break mat)
      | Some a => mat <- skip_draw st (rows Ls0 []) (rev (cols 0 ks)) walk mat ;; w <- sderef (k_heap st) walk ;; Ret (Next (s_down w, mat))
      end) (topH Ls, repeat (repeat None (length ks)) (length Ls) ++ done) = Ret (rev (map (drow h ks) Ls) ++ done).
  Proof.
    intros h ks P R. induction Ls as [|L Ls IH]; intros Up fuel done E F; [destruct fuel; [cbn in F; lia|reflexivity]|]. destruct fuel as [|fuel]; [lia|]. cbn [topH while_loop].
    assert (IL : In L Ls0) by (rewrite E; apply in_elt). assert (OK := repH_lok _ _ _ R IL). assert (R' := R). rewrite E in R'.
    replace (repeat (repeat None (length ks)) (length (L :: Ls)) ++ done) with (repeat (repeat None (length ks)) (length Ls) ++ repeat None (length ks) :: done).
    2: { cbn [length]. change (repeat None (length ks) :: done) with ([repeat None (length ks)] ++ done : list (list (option (Z * option D)))). rewrite app_assoc. f_equal. cbn [repeat]. rewrite (repeat_cons (length Ls)). reflexivity. }
    assert (NL : forall x, In x (addrs L) -> forall L', In L' Ls -> ~ In x (lm L')) by (intros x Hx L' I Hm; apply (disj_addrs h Up L Ls x R' Hx L'); [apply in_app_iff; auto|apply in_addrs; auto]).
    assert (NU : forall x, In x (addrs L) -> forall L', In L' Up -> ~ In x (lm L')) by (intros x Hx L' I Hm; apply (disj_addrs h Up L Ls x R' Hx L'); [apply in_app_iff; auto|apply in_addrs; auto]).
    assert (EN : forall x, In x (addrs L) -> ~ In x (lm L) -> find_row (rows Ls0 []) x = None). { intros x Hx Hn. rewrite rows_none; [reflexivity|]. intros L' I. rewrite E in I. apply in_app_iff in I as [I|[<-|I]]; [apply NU; assumption|exact Hn|apply NL; assumption]. }
    destruct (own_ends h L OK) as (O1 & O2).
    rewrite (draw_level h st _ ks _ done L eq_refl P OK); [|apply EN; [apply in_addrs; auto|exact O1]|apply EN; [apply in_addrs; auto|exact O2]|].
    - cbn [bind]. fold h. rewrite deref_ok by (apply OK, in_addrs; auto). cbn [bind s_down]. assert (LN := h_link _ _ R'). apply linked_app in LN as (_ & LN). rewrite (down_top h L Ls LN). fold (drow h ks L). etransitivity; [apply (IH (Up ++ [L]) fuel (drow h ks L :: done)); [rewrite <- app_assoc; exact E|cbn [length] in F; lia]|]. cbn [map rev]. rewrite <- app_assoc. reflexivity.
    - intros a Ha. split; [|apply (below_keys h Ls0 (h_link _ _ R) L IL a Ha)]. rewrite E. rewrite (rows_some Up L Ls [] a); [|apply NL, in_addrs; auto|exact Ha]. f_equal. unfold len. rewrite repeat_length. reflexivity.
  Qed.
  Lemma skip_printed_ok (st : skip D) Ls : rep st Ls -> pinf_ok (k_heap st) -> skip_printed st = Ret (map (drow (k_heap st) (map (kz (K (k_heap st))) (bot Ls))) Ls).
  Proof.
    intros R P. unfold skip_printed, skip_notes. assert (RH := p_h _ _ R). assert (LC : (length Ls < S (length (k_heap st)))%nat). { assert (C := cost_bound _ _ RH). assert (X : (length Ls <= cost Ls)%nat); [|lia]. clear. induction Ls as [|L Ls IH]; [cbn; lia|]. cbn [cost fold_right length]. fold (cost Ls). lia. }
    rewrite (p_head _ _ R), (p_lev _ _ R).
    assert (E1 : while_loop (S (length (k_heap st))) (wbody (k_heap st) st) (topH Ls, len Ls - 1, [], []) = Ret (rows Ls [], rev (cols 0 (map (kz (K (k_heap st))) (bot Ls))))).
    { rewrite (notes_ok (k_heap st) st eq_refl P Ls); [|intros L I; apply (repH_lok _ _ _ RH I)|apply RH|exact LC]. destruct Ls as [|L Ls]; [exfalso; apply (p_ne _ _ R); reflexivity|]. rewrite app_nil_r. reflexivity. }
    unfold wbody in E1. rewrite E1. cbn [bind]. clear E1.
    assert (EN : Z.to_nat (k_num st) = length (map (kz (K (k_heap st))) (bot Ls))) by (rewrite (p_num _ _ R); unfold items, len; rewrite !map_length; lia). rewrite EN. unfold len at 1. rewrite Nat2Z.id.
    assert (E2 := draw_all st Ls P RH Ls [] _ [] eq_refl LC). rewrite !app_nil_r in E2. cbn zeta in E2. rewrite E2. cbn [bind]. rewrite rev_involutive. reflexivity.
  Qed.
  Lemma level_pairs_read (h : list (snode D)) L : level_pairs (lvl_read h L) = map (fun a => (kz (K h) a, DD h a)) (lm L).
  Proof. unfold level_pairs, lvl_read. cbn [flat_map fst app]. rewrite flat_map_app. cbn [flat_map fst app]. rewrite app_nil_r. induction (lm L) as [|a l IH]; [reflexivity|]. cbn [map flat_map fst snd app]. rewrite IH. reflexivity. Qed.
  Lemma skip_print (ops : list (sop D)) st outs : skip_run skip_new ops = Ret (st, outs) ->
    skip_printed st = Ret (map (fun lv => skip_row (level_pairs lv) (map fst (level_pairs (last (skip_levels st) [])))) (skip_levels st)).
  Proof.
    intros E. destruct (run_related ops skip_new [] new_related) as (st' & E' & Ls & R & _). rewrite E in E'. injection E' as <- _. assert (P := run_pinf ops _ _ _ new_pinf E). rewrite (skip_printed_ok st Ls R P), (levels_ok st Ls R). f_equal.
    assert (EB : map fst (level_pairs (last (map (lvl_read (k_heap st)) Ls) [])) = map (kz (K (k_heap st))) (bot Ls)).
    { destruct (exists_last (p_ne _ _ R)) as (Up & L & ->). rewrite map_app. cbn [map]. rewrite last_last. unfold bot. rewrite last_last, level_pairs_read, map_map. reflexivity. }
    rewrite EB, map_map. apply map_ext. intros L. rewrite level_pairs_read. reflexivity.
  Qed.
  (** distinct keys: nothing is missing *)
  Lemma row_distinct (lv : list (Z * option D)) ks : NoDup ks -> NoDup (map fst lv) -> skip_row lv ks = map (fun k => find (fun e => fst e =? k) lv) ks.
  Proof.
    intros N M. assert (FR : forall k (l : list (Z * option D)), NoDup (map fst l) -> find (fun e => fst e =? k) (rev l) = find (fun e => fst e =? k) l).
    { intros k l. induction l as [|x l IH]; [reflexivity|]. cbn [map rev find]. intros ND. inversion ND as [|? ? N1 N2]; subst. assert (FA : forall a b, find (fun e : Z * option D => fst e =? k) (a ++ b) = match find (fun e => fst e =? k) a with Some v => Some v | None => find (fun e => fst e =? k) b end) by (induction a as [|y a IHa]; intros b; [reflexivity|]; cbn [app find]; destruct (fst y =? k); [reflexivity|apply IHa]).
      rewrite FA, (IH N2). cbn [find]. destruct (Z.eqb_spec (fst x) k) as [<-|]; [|destruct (find _ l); reflexivity]. destruct (find (fun e => fst e =? fst x) l) as [y|] eqn:Ef; [|reflexivity]. apply find_some in Ef as (I & Ey). apply Z.eqb_eq in Ey. exfalso. apply N1. rewrite <- Ey. apply in_map, I. }
    induction N as [|k ks Nk N IH]; [reflexivity|]. cbn [skip_row map]. rewrite IH, FR by exact M. destruct (existsb (Z.eqb k) ks) eqn:E; [apply ex_in in E; contradiction|reflexivity].
  Qed.
End All.
