(** * A convex set away from the origin lies behind a plane. *)
From Coq Require Import Reals Lra Psatz List.
From Verif Require Import Mat.
Local Open Scope R_scope.

Lemma small_slack a b K : (forall s, 0 < s <= 1 -> a <= b + s * K) -> a <= b.
Proof.
  intros H. destruct (Rle_dec a b) as [|N]; auto. exfalso. set (M := Rabs K + 1). assert (P : 1 <= M) by (unfold M; pose proof (Rabs_pos K); lra).
  set (s := Rmin 1 ((a - b) / (2 * M))). assert (Q : 0 < (a - b) / (2 * M)) by (apply Rdiv_lt_0_compat; lra).
  assert (S0 : 0 < s <= 1) by (unfold s; split; [apply Rmin_glb_lt; lra|apply Rmin_l]). specialize (H s S0).
  assert (s * K <= s * M) by (apply Rmult_le_compat_l; [lra|]; unfold M; pose proof (Rle_abs K); lra).
  assert (s * M <= (a - b) / (2 * M) * M) by (apply Rmult_le_compat_r; [lra|apply Rmin_r]). replace ((a - b) / (2 * M) * M) with ((a - b) / 2) in * by (field; lra). lra.
Qed.

Section Convex.
Context (C : vec3 -> Prop).
Context (Cx : forall x y t, 0 <= t <= 1 -> C x -> C y -> C (vadd x (vscale t (vsub y x)))).
Context (x0 : vec3) (C0 : C x0).

Lemma inf_exists : { D : R | 0 <= D /\ (forall x, C x -> D <= norm2 x) /\ forall e, 0 < e -> exists x, C x /\ norm2 x <= D + e }.
Proof.
  destruct (completeness (fun t => exists x, C x /\ t = - norm2 x)) as [m [U L]].
  - exists 0. intros t (x & _ & ->). destruct x as [a b c]. unfold norm2, vdot. cbn. nra.
  - exists (- norm2 x0). exists x0. auto.
  - exists (- m). assert (G : forall x, C x -> - m <= norm2 x) by (intros x Hx; pose proof (U (- norm2 x) ltac:(exists x; auto)); lra). split; [|split; auto].
    + assert (m <= 0); [|lra]. apply L. intros t (x & _ & ->). destruct x as [a b c]. unfold norm2, vdot. cbn. nra.
    + intros e He. apply Classical_Prop.NNPP. intros N. assert (m <= m - e); [|lra]. apply L. intros t (x & Hx & ->). destruct (Rle_dec (norm2 x) (- m + e)) as [Q|Q]; [|lra]. exfalso. apply N. eauto.
Qed.
Context (D : R) (D0 : 0 <= D) (Dlow : forall x, C x -> D <= norm2 x) (Dinf : forall e, 0 < e -> exists x, C x /\ norm2 x <= D + e).
Definition near (e : R) (x : vec3) : Prop := C x /\ norm2 x <= D + e * e.
Lemma near_ex e : 0 < e -> exists x, near e x.
Proof. intros H. apply Dinf. nra. Qed.
Lemma near_le e e' x : 0 < e <= e' -> near e x -> near e' x.
Proof. intros H [H1 H2]. split; auto. nra. Qed.
Lemma near_close e x y : 0 < e -> near e x -> near e y -> norm2 (vsub x y) <= (2 * e) * (2 * e).
Proof.
  intros H [Cx1 Hx] [Cy Hy]. pose proof (Dlow _ (Cx x y (/ 2) ltac:(lra) Cx1 Cy)) as M.
  assert (E : norm2 (vsub x y) = 2 * norm2 x + 2 * norm2 y - 4 * norm2 (vadd x (vscale (/ 2) (vsub y x)))) by (destruct x, y; unfold norm2, vdot; cbn; field). lra.
Qed.
(** limit of a coordinate over better and better points *)
Section Coordinate.
Context (f : vec3 -> R) (Hf : forall x y, (f x - f y) * (f x - f y) <= norm2 (vsub x y)).
Lemma f_close e x y : 0 < e -> near e x -> near e y -> f x <= f y + 2 * e.
Proof. intros H Hx Hy. pose proof (near_close e x y H Hx Hy). pose proof (Hf x y). assert (f x - f y <= 2 * e); [|lra]. destruct (Rle_dec (f x - f y) (2 * e)); auto. nra. Qed.
Lemma limit : { m : R | forall e x, 0 < e -> near e x -> - (2 * e) <= f x - m <= 2 * e }.
Proof.
  destruct (completeness (fun t => exists e, 0 < e /\ forall x, near e x -> t <= f x)) as [m [U L]].
  - destruct (near_ex 1 ltac:(lra)) as [y Hy]. exists (f y + 2). intros t (e & He & H). destruct (near_ex (Rmin e 1)) as [x Hx]; [apply Rmin_glb_lt; lra|].
    assert (0 < Rmin e 1) by (apply Rmin_glb_lt; lra). pose proof (H x (near_le _ e x (conj H0 (Rmin_l _ _)) Hx)). pose proof (f_close 1 x y ltac:(lra) (near_le _ 1 x (conj H0 (Rmin_r _ _)) Hx) Hy). lra.
  - destruct (near_ex 1 ltac:(lra)) as [y Hy]. exists (f y - 2). exists 1. split; [lra|]. intros x Hx. pose proof (f_close 1 y x ltac:(lra) Hy Hx). lra.
  - exists m. intros e x He Hx. split.
    + assert (m <= f x + 2 * e); [|lra]. apply L. intros t (e' & He' & H). assert (P : 0 < Rmin e e') by (apply Rmin_glb_lt; lra). destruct (near_ex (Rmin e e') P) as [y Hy].
      pose proof (H y (near_le _ e' y (conj P (Rmin_r _ _)) Hy)). pose proof (f_close e y x He (near_le _ e y (conj P (Rmin_l _ _)) Hy) Hx). lra.
    + assert (f x - 2 * e <= m); [|lra]. apply U. exists e. split; auto. intros y Hy. pose proof (f_close e x y He Hx Hy). lra.
Qed.
End Coordinate.
Lemma coord1 x y : (vx x - vx y) * (vx x - vx y) <= norm2 (vsub x y) /\ (vy x - vy y) * (vy x - vy y) <= norm2 (vsub x y) /\ (vz x - vz y) * (vz x - vz y) <= norm2 (vsub x y).
Proof. destruct x as [a b c], y as [u v w]. pose proof (Rle_0_sqr (a - u)). pose proof (Rle_0_sqr (b - v)). pose proof (Rle_0_sqr (c - w)). unfold Rsqr in *. unfold norm2, vdot. cbn. lra. Qed.
Lemma limit_point : exists m, forall e x, 0 < e -> near e x ->
  - (2 * e) <= vx x - vx m <= 2 * e /\ - (2 * e) <= vy x - vy m <= 2 * e /\ - (2 * e) <= vz x - vz m <= 2 * e.
Proof.
  destruct (limit vx) as [a Ha]; [apply coord1|]. destruct (limit vy) as [b Hb]; [apply coord1|].
  destruct (limit vz) as [c Hc]; [apply coord1|]. exists (V3 a b c). intros e x He Hx. cbn. auto.
Qed.
Lemma prod_near a b c e : 0 <= e -> - e <= a - b <= e -> b * c <= a * c + e * Rabs c.
Proof. intros He H. unfold Rabs. destruct (Rcase_abs c); nra. Qed.
Lemma nearest : exists m, norm2 m <= D /\ forall z, C z -> D <= vdot m z.
Proof.
  destruct limit_point as [m Hm]. exists m. split.
  - apply (small_slack _ _ (1 + 4 * (3 * (D + 2)) + 12)). intros s Hs. destruct (near_ex s) as [x Hx]; [lra|]. destruct (Hm s x ltac:(lra) Hx) as (H1 & H2 & H3). destruct Hx as [_ Hx].
    destruct m as [a b c], x as [u v w]. unfold norm2, vdot in *. cbn in *.
    assert (B : forall p o, - (2 * s) <= p - o <= 2 * s -> p * p <= D + 1 -> o * o <= p * p + s * (4 * (D + 2)) + 4 * s * s).
    { intros p o Hp Hq. assert (o * o = p * p - 2 * p * (p - o) + (p - o) * (p - o)) as -> by ring. assert (- (D + 2) <= p <= D + 2) by nra.
      assert ((p - o) * (p - o) <= 4 * s * s) by nra. assert (- 2 * p * (p - o) <= s * (4 * (D + 2))); [|lra]. destruct (Rle_dec 0 p); nra. }
    assert (s * s <= 1) by nra. pose proof (B u a H1 ltac:(nra)). pose proof (B v b H2 ltac:(nra)). pose proof (B w c H3 ltac:(nra)).
    assert (s * s <= s) by nra. lra.
  - intros z Hz. set (B := 2 * norm2 z + 2 * (D + 1)). set (Z := Rabs (vx z) + Rabs (vy z) + Rabs (vz z)). apply (small_slack _ _ (/ 2 + B / 2 + 2 * Z)). intros s Hs.
    destruct (near_ex s) as [x Hx]; [lra|]. destruct (Hm s x ltac:(lra) Hx) as (H1 & H2 & H3). destruct Hx as [Cx0 Hx]. pose proof (Dlow x Cx0) as Dx.
    pose proof (Dlow _ (Cx x z s ltac:(lra) Cx0 Hz)) as M.
    assert (E : norm2 (vadd x (vscale s (vsub z x))) = norm2 x + 2 * s * (vdot x z - norm2 x) + s * s * norm2 (vsub z x)) by (destruct x, z; unfold norm2, vdot; cbn; ring). rewrite E in M.
    assert (Q : norm2 (vsub z x) <= B). { unfold B. assert (norm2 (vsub z x) <= 2 * norm2 z + 2 * norm2 x); [|nra]. destruct x as [p q r], z as [u v w]. unfold norm2, vdot. cbn. pose proof (Rle_0_sqr (u + p)). pose proof (Rle_0_sqr (v + q)). pose proof (Rle_0_sqr (w + r)). unfold Rsqr in *. lra. }
    assert (V : vdot x z <= vdot m z + s * (2 * Z)).
    { pose proof (prod_near (vx m) (vx x) (vx z) (2 * s) ltac:(lra) ltac:(lra)). pose proof (prod_near (vy m) (vy x) (vy z) (2 * s) ltac:(lra) ltac:(lra)). pose proof (prod_near (vz m) (vz x) (vz z) (2 * s) ltac:(lra) ltac:(lra)).
      unfold vdot, Z. lra. }
    assert (W : D - s * (/ 2 + B / 2) <= vdot x z).
    { assert (s * s * norm2 (vsub z x) <= s * s * B) by (apply Rmult_le_compat_l; [nra|auto]). assert (0 <= s * (2 * vdot x z - 2 * norm2 x + s + s * B)) by nra.
      assert (0 <= 2 * vdot x z - 2 * norm2 x + s + s * B) by (apply (Rmult_le_reg_l s); [lra|]; rewrite Rmult_0_r; auto). lra. }
    lra.
Qed.
End Convex.

Lemma separation (C : vec3 -> Prop) e : (forall x y t, 0 <= t <= 1 -> C x -> C y -> C (vadd x (vscale t (vsub y x)))) -> (exists x, C x) -> 0 < e -> (forall x, C x -> e * e <= norm2 x) ->
  exists n, norm2 n <= 1 /\ forall x, C x -> e <= vdot n x.
Proof.
  intros Cx [x0 C0] He H. destruct (inf_exists C x0 C0) as (D & D0 & Dl & Di). destruct (nearest C Cx D D0 Dl Di) as (m & M1 & M2).
  assert (P : e * e <= D). { apply (small_slack _ _ 1). intros s Hs. destruct (Di s) as (x & Hx & Hn); [lra|]. specialize (H x Hx). lra. }
  assert (P0 : 0 < D) by nra. pose proof (sqrt_lt_R0 D P0) as S0. pose proof (sqrt_sqrt D D0) as SS. exists (vscale (/ sqrt D) m). split.
  - replace (norm2 (vscale (/ sqrt D) m)) with (norm2 m / D). + apply (Rmult_le_reg_r D); auto. unfold Rdiv. rewrite Rmult_assoc, Rinv_l by lra. lra.
    + rewrite <- SS at 1. destruct m. unfold norm2, vdot. cbn. field. lra.
  - intros x Hx. specialize (M2 x Hx). replace (vdot (vscale (/ sqrt D) m) x) with (vdot m x / sqrt D) by (destruct m, x; unfold vdot; cbn; field; lra).
    apply (Rmult_le_reg_r (sqrt D)); auto. unfold Rdiv. rewrite Rmult_assoc, Rinv_l by lra. assert (e <= sqrt D) by (rewrite <- (sqrt_square e) by lra; apply sqrt_le_1_alt; auto). nra.
Qed.
