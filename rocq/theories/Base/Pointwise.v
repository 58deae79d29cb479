(** Backward reasoning about elementwise numpy expressions: the length and the
    i-th element of a composed expression, in time linear in its size. *)
From Verif Require Import Base.Num Base.ListFacts.

Lemma len_map {A B} (f : A -> B) l n : length l = n -> length (map f l) = n.
Proof. intros <-; apply map_length. Qed.
Lemma len_map2 {A B C} (f : A -> B -> C) a b n :
  length a = n -> length b = n -> length (map2 f a b) = n.
Proof. intros H1 H2; rewrite map2_length, H1, H2; lia. Qed.
Lemma len_land a b n : length a = n -> length b = n -> length (land a b) = n.
Proof. apply len_map2. Qed.
Lemma len_lor a b n : length a = n -> length b = n -> length (lor a b) = n.
Proof. apply len_map2. Qed.
Lemma len_lnot a n : length a = n -> length (lnot a) = n.
Proof. apply len_map. Qed.
Lemma len_mset {A} m (v x : list A) n :
  length m = n -> length v = n -> length x = n -> length (mset m v x) = n.
Proof. intros; unfold mset, map3; repeat apply len_map2; auto. Qed.
Lemma len_msetc {A} m c (x : list A) n :
  length m = n -> length x = n -> length (msetc m c x) = n.
Proof. apply len_map2. Qed.
Lemma len_map3 {A B C D} (f : A -> B -> C -> D) a b c n :
  length a = n -> length b = n -> length c = n -> length (map3 f a b c) = n.
Proof. intros; unfold map3; repeat apply len_map2; auto. Qed.

Lemma at_map {A B} (f : A -> B) l i x :
  nth_error l i = Some x -> nth_error (map f l) i = Some (f x).
Proof. intro E; rewrite map_nth_error', E; auto. Qed.
Lemma at_map2 {A B C} (f : A -> B -> C) a b i x y :
  nth_error a i = Some x -> nth_error b i = Some y ->
  nth_error (map2 f a b) i = Some (f x y).
Proof. intros E1 E2; rewrite map2_nth_error, E1, E2; auto. Qed.
Lemma at_map3 {A B C D} (f : A -> B -> C -> D) a b c i x y z :
  nth_error a i = Some x -> nth_error b i = Some y -> nth_error c i = Some z ->
  nth_error (map3 f a b c) i = Some (f x y z).
Proof. intros E1 E2 E3; rewrite map3_nth_error, E1, E2, E3; auto. Qed.
Lemma at_land a b i x y : nth_error a i = Some x -> nth_error b i = Some y ->
  nth_error (land a b) i = Some (x && y).
Proof. apply at_map2. Qed.
Lemma at_lor a b i x y : nth_error a i = Some x -> nth_error b i = Some y ->
  nth_error (lor a b) i = Some (x || y).
Proof. apply at_map2. Qed.
Lemma at_lnot a i x : nth_error a i = Some x -> nth_error (lnot a) i = Some (negb x).
Proof. apply at_map. Qed.
Lemma at_mset {A} m (v x : list A) i b n o :
  nth_error m i = Some b -> nth_error v i = Some n -> nth_error x i = Some o ->
  nth_error (mset m v x) i = Some (if (b : bool) then n else o).
Proof. intros E1 E2 E3; rewrite mset_nth_error, E1, E2, E3; auto. Qed.
Lemma at_msetc {A} m (c : A) (x : list A) i b o :
  nth_error m i = Some b -> nth_error x i = Some o ->
  nth_error (msetc m c x) i = Some (if (b : bool) then c else o).
Proof. apply at_map2. Qed.

(** solve [length e = n] *)
Ltac pwlen :=
  repeat first [ eassumption | reflexivity | apply len_mset | apply len_msetc | apply len_land
    | apply len_lor | apply len_lnot | apply len_map3 | apply len_map2 | apply len_map ];
  try solve [eauto | congruence].
(** solve [nth_error e i = Some ?v] *)
Ltac pw :=
  repeat first [ eassumption | eapply at_mset | eapply at_msetc | eapply at_land
    | eapply at_lor | eapply at_lnot | eapply at_map3 | eapply at_map2 | eapply at_map ].
(** goal [nth_error e i = Some spec] becomes [elem = spec] *)
Ltac pwr := etransitivity; [solve [pw] | apply f_equal].
