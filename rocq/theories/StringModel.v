(** Model of the string searches find(text, query, algorithm) (pydatastructs/strings/algorithms.py). A string is the list of its
    characters; only equality of characters is used, except by _rabin_karp, which is on code points (ord). Indexing a string is [lget].
    The DynamicOneDimensionalArray of positions is only appended to, so it is the plain list (DodaPacked.v). A OneDimensionalArray(int, n)
    starts with None cells; using a None cell as a number raises TypeError ([iget]). find itself (75-84) only dispatches on the name. *)
From Verif Require Import Base.

(** reading a number from a OneDimensionalArray(int, n) *)
Definition iget (a : list (option Z)) (i : Z) : res Z :=
  x <- aget a i ;; match x with Some v => Ret v | None => Raise TypeError end.

Section Str.
  Context {A : Type} (eqb : A -> A -> bool).

  (** the inner loop of _build_kmp_table (106-107) *)
  Definition kmp_fall (query : list A) (tab : list (option Z)) (pos cnd : Z) : res Z :=
    while_loop (S (S (length query))) (fun cnd =>
      if 0 <=? cnd then
        x <- lget query pos ;; y <- lget query cnd ;;
        if negb (eqb x y) then c <- iget tab cnd ;; Ret (Next c) else Ret (Break cnd)
      else Ret (Break cnd)) cnd.
  (** _build_kmp_table (95-111) *)
  Definition build_kmp_table (query : list A) : res (list (option Z)) :=
    tab <- aset (repeat None (S (length query))) 0 (Some (-1)) ;;
    ' (tab, pos, cnd) <- while_loop (S (length query)) (fun '(tab, pos, cnd) =>
      if pos <? len query then
        x <- lget query pos ;; y <- lget query cnd ;;
        ' (tab, cnd) <- (if eqb x y then c <- iget tab cnd ;; tab <- aset tab pos (Some c) ;; Ret (tab, cnd)
                         else tab <- aset tab pos (Some cnd) ;; cnd <- kmp_fall query tab pos cnd ;; Ret (tab, cnd)) ;;
        Ret (Next (tab, pos + 1, cnd + 1))
      else Ret (Break (tab, pos, cnd))) (tab, 1, 0) ;;
    aset tab pos (Some cnd).
  (** _do_match (115-132) *)
  Definition do_match (string query : list A) (tab : list (option Z)) : res (list Z) :=
    while_loop (S (2 * length string + 1)) (fun '(j, k, positions) =>
      if j <? len string then
        x <- lget query k ;; y <- lget string j ;;
        if eqb x y then
          let j := j + 1 in
          let k := k + 1 in
          if k =? len query then k' <- iget tab k ;; Ret (Next (j, k', positions ++ [j - k]))
          else Ret (Next (j, k, positions))
        else
          k <- iget tab k ;;
          if k <? 0 then Ret (Next (j + 1, k + 1, positions)) else Ret (Next (j, k, positions))
      else Ret (Break positions)) (0, 0, []).
  (** _knuth_morris_pratt (87-93) *)
  Definition find_kmp (text query : list A) : res (list Z) :=
    if (len text =? 0) || (len query =? 0) then Ret []
    else tab <- build_kmp_table query ;; do_match text query tab.

  (** dict lookup and assignment (insertion order is irrelevant here) *)
  Fixpoint bget (t : list (A * Z)) (c : A) : option Z :=
    match t with [] => None | (c', v) :: t' => if eqb c c' then Some v else bget t' c end.
  Definition bset (t : list (A * Z)) (c : A) (v : Z) : list (A * Z) := (c, v) :: t.
  (** _boyer_moore (169-202) *)
  Definition find_bm (text query : list A) : res (list Z) :=
    if (len text =? 0) || (len query =? 0) then Ret []
    else
      bad <- forM (zrange 0 (len query)) (fun i bad => c <- lget query i ;; Ret (bset bad c i)) [] ;;
      while_loop (S (S (length text))) (fun '(shift, positions) =>
        if shift <=? len text - len query then
          j <- while_loop (S (length query)) (fun j =>
            if 0 <=? j then
              x <- lget query j ;; y <- lget text (shift + j) ;;
              if eqb x y then Ret (Next (j - 1)) else Ret (Break j)
            else Ret (Break j)) (len query - 1) ;;
          if j <? 0 then
            let positions := positions ++ [shift] in
            if shift + len query <? len text then
              c <- lget text (shift + len query) ;;
              match bget bad c with
              | Some p => Ret (Next (shift + (len query - p), positions))
              | None => Ret (Next (shift + (len query + 1), positions))
              end
            else Ret (Next (shift + 1, positions))
          else
            c <- lget text (shift + j) ;;
            match bget bad c with
            | Some p => Ret (Next (shift + Z.max 1 (j - p), positions))
            | None => Ret (Next (shift + Z.max 1 (j + 1), positions))
            end
        else Ret (Break positions)) (0, []).

  (** _z_vector (204-235); [dollar] is the character '$' *)
  Definition z_vector (dollar : A) (text query : list A) : res (list Z) :=
    let string := match query with [] => text | _ => query ++ [dollar] ++ text end in
    ' (z, _, _) <- forM (zrange 1 (len string)) (fun cur '(z, l, r) =>
      z <- (if cur <=? r then v <- iget z (cur - l) ;; aset z cur (Some (Z.min (r - cur + 1) v)) else Ret z) ;;
      z <- while_loop (S (length string)) (fun z =>
        v <- iget z cur ;;
        if cur + v <? len string then
          x <- lget string v ;; y <- lget string (cur + v) ;;
          if eqb x y then z <- aset z cur (Some (v + 1)) ;; Ret (Next z) else Ret (Break z)
        else Ret (Break z)) z ;;
      v <- iget z cur ;;
      if r <? cur + v - 1 then Ret (z, cur, cur + v - 1) else Ret (z, l, r)) (repeat (Some 0) (length string), 0, 0) ;;
    let start_index := match query with [] => 0 | _ => len query + 1 end in
    forM (zrange start_index (len string)) (fun pos out => v <- iget z pos ;; Ret (out ++ [v])) [].
  (** _z_function (237-247) *)
  Definition find_z (dollar : A) (text query : list A) : res (list Z) :=
    if (len text =? 0) || (len query =? 0) then Ret []
    else
      fct <- z_vector dollar text query ;;
      forM (zrange 0 (len fct)) (fun pos positions =>
        v <- lget fct pos ;; Ret (if v =? len query then positions ++ [pos] else positions)) [].
End Str.

(** PRIME_NUMBER, MOD (10) *)
Definition PRIME_NUMBER : Z := 257.
Definition MOD : Z := 1000000007.
(** _p_pow (134-139) *)
Definition p_pow (length_ : Z) (p m : Z) : res (list (option Z)) :=
  a <- aset (repeat None (Z.to_nat length_)) 0 (Some 1) ;;
  forM (zrange 1 length_) (fun i a => v <- iget a (i - 1) ;; aset a i (Some ((v * p) mod m))) a.
(** _hash_str (141-146) *)
Definition hash_str (string : list Z) (p m : Z) : res Z :=
  pw <- p_pow (len string) p m ;;
  forM (zrange 0 (len string)) (fun i h => c <- lget string i ;; v <- iget pw i ;; Ret ((h + c * v) mod m)) 0.
(** _rabin_karp (148-167) on code points *)
Definition find_rk (text query : list Z) : res (list Z) :=
  let t := len text in
  let q := len query in
  if (q =? 0) || (t =? 0) then Ret []
  else
    query_hash <- hash_str query PRIME_NUMBER MOD ;;
    pw <- p_pow t PRIME_NUMBER MOD ;;
    text_hash <- forM (zrange 0 t) (fun i th =>
      h <- iget th i ;; c <- lget text i ;; v <- iget pw i ;; aset th (i + 1) (Some ((h + c * v) mod MOD))) (repeat (Some 0) (Z.to_nat (t + 1))) ;;
    forM (zrange 0 (t - q + 1)) (fun i positions =>
      h1 <- iget text_hash (i + q) ;; h0 <- iget text_hash i ;; v <- iget pw i ;;
      Ret (if (h1 + MOD - h0) mod MOD =? (query_hash * v) mod MOD then positions ++ [i] else positions)) [].
