From Coq Require Import Reals ZArith NArith Lra Lia.
From Coquelicot Require Import Coquelicot.
From Verif Require Import Base Act_Model Act_Spec.
Local Open Scope R_scope.

(** ** Generic facts *)

Lemma glue (f gL gR d : R -> R) :
  (forall x, x < 0 -> f x = gL x) -> (forall x, 0 < x -> f x = gR x) ->
  (forall x, x < 0 -> is_derive gL x (d x)) -> (forall x, 0 < x -> is_derive gR x (d x)) ->
  forall x, x <> 0 -> is_derive f x (d x).
Proof.
  intros HL HR DL DR x Hx. destruct (Rlt_dec x 0) as [H|H].
  - apply (is_derive_ext_loc gL); [|apply DL; exact H].
    assert (Hp : 0 < - x) by lra. exists (mkposreal _ Hp). intros y Hy.
    rewrite HL; [reflexivity|]. unfold ball in Hy. simpl in Hy. unfold AbsRing_ball, abs, minus, plus, opp in Hy.
    simpl in Hy. apply Rabs_def2 in Hy. lra.
  - assert (Hp : 0 < x) by lra. apply (is_derive_ext_loc gR); [|apply DR; exact Hp].
    exists (mkposreal _ Hp). intros y Hy.
    rewrite HR; [reflexivity|]. unfold ball in Hy. simpl in Hy. unfold AbsRing_ball, abs, minus, plus, opp in Hy.
    simpl in Hy. apply Rabs_def2 in Hy. lra.
Qed.

Lemma side_of_derive (b : bool) (f g : R -> R) x l :
  is_derive g x l -> f x = g x ->
  (forall y, (if b then x < y else y < x) -> f y = g y) -> side_derivative b f x l.
Proof.
  intros D E0 E eps He. apply is_derive_Reals in D. destruct (D eps He) as [d Hd].
  exists d. split; [apply cond_pos|]. intros h Hh.
  rewrite E0. rewrite E by (destruct b; lra). apply Hd.
  - destruct b; lra.
  - apply Rabs_def1; destruct b; lra.
Qed.

Lemma side_unique b f x l l' : is_derive f x l' -> side_derivative b f x l -> is_derive f x l.
Proof.
  intros D S. replace l with l'; [exact D|].
  apply Rminus_diag_uniq. destruct (Req_dec (l' - l) 0) as [H|H]; [exact H|exfalso].
  assert (He : 0 < Rabs (l' - l) / 2) by (pose proof (Rabs_pos_lt _ H); lra).
  apply is_derive_Reals in D. destruct (D _ He) as [d Hd]. destruct (S _ He) as (d' & Hd' & HS).
  pose proof (cond_pos d) as Hdp.
  set (m := Rmin d d' / 2).
  assert (Hm : 0 < m) by (unfold m; pose proof (Rmin_pos _ _ Hdp Hd'); lra).
  assert (Hm1 : m < d) by (unfold m; pose proof (Rmin_l d d'); lra).
  assert (Hm2 : m < d') by (unfold m; pose proof (Rmin_r d d'); lra).
  assert (Habs : forall u v w e, Rabs (u - v) < e -> Rabs (u - w) < e -> Rabs (v - w) < 2 * e).
  { intros u v w e H1 H2. replace (v - w) with ((u - w) + - (u - v)) by ring.
    pose proof (Rabs_triang (u - w) (- (u - v))) as Ht. rewrite Rabs_Ropp in Ht. lra. }
  destruct b.
  - specialize (Hd m ltac:(lra)). rewrite (Rabs_pos_eq m) in Hd by lra. specialize (Hd Hm1).
    specialize (HS m ltac:(lra)). pose proof (Habs _ _ _ _ Hd HS). lra.
  - specialize (Hd (- m) ltac:(lra)). rewrite Rabs_Ropp, (Rabs_pos_eq m) in Hd by lra. specialize (Hd Hm1).
    specialize (HS (- m) ltac:(lra)). pose proof (Habs _ _ _ _ Hd HS). lra.
Qed.

(** both sides have slope l *)
Lemma sides_derive f x l : side_derivative true f x l -> side_derivative false f x l -> is_derive f x l.
Proof.
  intros H1 H2. apply is_derive_Reals. intros eps He.
  destruct (H1 eps He) as (d1 & Hd1 & Hr). destruct (H2 eps He) as (d2 & Hd2 & Hl).
  assert (Hm : 0 < Rmin d1 d2) by (apply Rmin_pos; assumption).
  exists (mkposreal _ Hm). intros h Hh0 Hh. simpl in Hh.
  pose proof (Rmin_l d1 d2). pose proof (Rmin_r d1 d2). apply Rabs_def2 in Hh.
  destruct (Rlt_dec h 0); [apply Hl; lra|apply Hr; lra].
Qed.

(** ** Elementary derivatives *)

Lemma ln_gt_0 b : 1 < b -> 0 < ln b.
Proof. intros H. rewrite <- ln_1. apply ln_increasing; lra. Qed.

Lemma d_eq (f : R -> R) x (l l' : R) : is_derive f x l -> l = l' -> is_derive f x l'.
Proof. intros H <-. exact H. Qed.

Lemma d_const (c x : R) : is_derive (fun _ => c) x 0.
Proof. apply (is_derive_const (K := R_AbsRing) (V := R_NormedModule)). Qed.

Lemma d_id x : is_derive (fun v : R => v) x 1.
Proof. apply (is_derive_id (K := R_AbsRing)). Qed.

Lemma d_lin k x : is_derive (fun v => v * k) x k.
Proof. auto_derive; [exact I|ring]. Qed.

Lemma d_expm1 k x : is_derive (fun v => expm1 v * k) x (exp x * k).
Proof. unfold expm1. auto_derive; [exact I|ring]. Qed.

Lemma d_log1p k x : -1 < x -> is_derive (fun v => log1p v * k) x (k / (1 + x)).
Proof. intros H. unfold log1p. auto_derive; [repeat split; lra|]. field; lra. Qed.

Lemma d_log1m k x : x < 1 -> is_derive (fun v => log1p (- v) * - k) x (k / (1 - x)).
Proof. intros H. unfold log1p. auto_derive; [repeat split; lra|]. field; lra. Qed.

Lemma exp_ln_form b x : 1 < b -> -1 < x ->
  exp (log1p x * (1 / ln b) * - ln b + - ln (ln b)) = 1 / ln b / (1 + x).
Proof.
  intros Hb Hx. pose proof (ln_gt_0 b Hb) as Hl. unfold log1p.
  replace (ln (1 + x) * (1 / ln b) * - ln b + - ln (ln b)) with (- ln ((1 + x) * ln b)).
  - rewrite exp_Ropp, exp_ln by (apply Rmult_lt_0_compat; lra). field. lra.
  - rewrite ln_mult by lra. field. lra.
Qed.

Lemma exp_nln x : -1 < x -> exp (- log1p x) = 1 / (1 + x).
Proof. intros H. unfold log1p. rewrite exp_Ropp, exp_ln by lra. field. lra. Qed.

Lemma log1p_pos x : 0 < x -> 0 < log1p x.
Proof. intros. unfold log1p. apply ln_gt_0. lra. Qed.
Lemma log1p_0 : log1p 0 = 0.
Proof. unfold log1p. rewrite Rplus_0_r. apply ln_1. Qed.
Lemma expm1_neg x : x < 0 -> expm1 x < 0.
Proof. intros. unfold expm1. pose proof (exp_increasing x 0 ltac:(lra)). rewrite exp_0 in *. lra. Qed.
Lemma expm1_0 : expm1 0 = 0.
Proof. unfold expm1. rewrite exp_0. ring. Qed.

(** ** Parameters *)
Lemma NR_pos n : (0 < n)%N -> 0 < NR n.
Proof. intros H. unfold NR. apply IZR_lt. lia. Qed.
Lemma milli_pos n : (0 < n)%N -> 0 < milli n.
Proof. intros H. unfold milli. pose proof (NR_pos n H). lra. Qed.
Lemma micro_pos n : (0 < n)%N -> 0 < micro n.
Proof. intros H. unfold micro. pose proof (NR_pos n H). lra. Qed.
Lemma milli_gt1 n : (1000 < n)%N -> 1 < milli n.
Proof. intros H. unfold milli, NR. assert (1000 < IZR (Z.of_N n)) by (apply IZR_lt; lia). lra. Qed.
Lemma leakK_pos n : (0 < n)%N -> 0 < leakK n.
Proof. intros H. unfold leakK. pose proof (NR_pos n H). apply Rdiv_lt_0_compat; lra. Qed.
Lemma softsign_C_pos n : 0 < softsign_C n.
Proof.
  unfold softsign_C. destruct (N.eqb_spec n 0) as [E|E]; [lra|]. apply micro_pos. lia.
Qed.
Lemma snn_alpha_pos a : (0 <= a)%Z -> 0 < snn_alpha a.
Proof.
  intros H. unfold snn_alpha. destruct (Z.eqb_spec a 0) as [E|E]; [lra|].
  assert (0 < IZR a) by (apply IZR_lt; lia). lra.
Qed.
Lemma snn_lambda_pos a : (0 <= a)%Z -> 0 < snn_lambda a.
Proof.
  intros H. unfold snn_lambda. destruct (Z.eqb_spec a 0) as [E|E]; [lra|].
  assert (0 < IZR a) by (apply IZR_lt; lia). lra.
Qed.

(** ** A uniform description: [f] is gL left of 0 and gR right of 0, both smooth *)
Record pieces (f df gL gR : R -> R) (sL sR : R) : Prop := {
  p_L : forall x, x < 0 -> f x = gL x;
  p_R : forall x, 0 < x -> f x = gR x;
  p_0L : f 0 = gL 0;
  p_0R : f 0 = gR 0;
  p_dL : forall x, x < 0 -> is_derive gL x (df (f x));
  p_dR : forall x, 0 < x -> is_derive gR x (df (f x));
  p_sL : is_derive gL 0 sL;
  p_sR : is_derive gR 0 sR;
  p_d0 : df (f 0) = sL \/ df (f 0) = sR }.

Lemma pieces_derive f df gL gR sL sR : pieces f df gL gR sL sR ->
  forall x, x <> 0 -> is_derive f x (df (f x)).
Proof. intros H. apply (glue f gL gR (fun x => df (f x))); apply H. Qed.

Lemma pieces_sides f df gL gR sL sR : pieces f df gL gR sL sR ->
  side_derivative false f 0 sL /\ side_derivative true f 0 sR.
Proof.
  intros H. split.
  - exact (side_of_derive false f gL _ _ (p_sL _ _ _ _ _ _ H) (p_0L _ _ _ _ _ _ H) (p_L _ _ _ _ _ _ H)).
  - exact (side_of_derive true f gR _ _ (p_sR _ _ _ _ _ _ H) (p_0R _ _ _ _ _ _ H) (p_R _ _ _ _ _ _ H)).
Qed.

Lemma pieces_smooth f df gL gR s : pieces f df gL gR s s -> forall x, is_derive f x (df (f x)).
Proof.
  intros H x. destruct (Req_dec x 0) as [->|Hx]; [|eapply pieces_derive; eauto].
  destruct (pieces_sides _ _ _ _ _ _ H) as [H1 H2].
  destruct (p_d0 _ _ _ _ _ _ H) as [-> | ->]; apply sides_derive; assumption.
Qed.

Ltac nodec e := lazymatch e with
  | context [Rlt_dec _ _] => fail
  | context [Rle_dec _ _] => fail
  | _ => idtac
  end.

Ltac cases := cbv beta; repeat match goal with
  | |- context [Rlt_dec ?a ?b] => nodec a; nodec b; destruct (Rlt_dec a b); [try lra|try lra]
  | |- context [Rle_dec ?a ?b] => nodec a; nodec b; destruct (Rle_dec a b); [try lra|try lra]
  end.

(** ** Kernels *)

Lemma relu_pieces : pieces k_relu k_drelu (fun _ => 0) (fun v => v) 0 1.
Proof.
  split; intros; unfold k_relu, k_drelu; cases;
    auto using d_const, d_id.
Qed.

Lemma leaky_pieces l : 0 < l -> pieces (k_leakyrelu l) (k_dleakyrelu l) (fun v => v * l) (fun v => v) l 1.
Proof.
  intros Hl. split; intros; unfold k_leakyrelu, k_dleakyrelu; cases; try (exfalso; nra);
    auto using d_lin, d_id.
Qed.

Lemma elu_gen_pieces a (gR : R -> R) (sR : R) :
  0 < a -> gR 0 = 0 -> (forall x, 0 < x -> 0 < gR x) ->
  forall dR : R -> R, (forall x, 0 < x -> is_derive gR x (dR (gR x))) -> is_derive gR 0 sR -> sR = dR 0 ->
  pieces (fun v => if Rlt_dec v 0 then expm1 v * a else gR v)
    (fun v => if Rlt_dec v 0 then v + a else dR v) (fun v => expm1 v * a) gR a sR.
Proof.
  intros Ha H0 Hp dR HdR Hs Hs0. split; intros; cbv beta.
  - cases; reflexivity.
  - cases; reflexivity.
  - cases; rewrite H0, expm1_0; ring.
  - cases; reflexivity.
  - destruct (Rlt_dec x 0); [|lra]. pose proof (expm1_neg x H).
    destruct (Rlt_dec (expm1 x * a) 0); [|exfalso; nra].
    replace (expm1 x * a + a) with (exp x * a) by (unfold expm1; ring). apply d_expm1.
  - destruct (Rlt_dec x 0); [lra|]. pose proof (Hp x H). destruct (Rlt_dec (gR x) 0); [lra|]. auto.
  - eapply d_eq; [apply d_expm1|rewrite exp_0; ring].
  - exact Hs.
  - right. destruct (Rlt_dec 0 0); [lra|]. rewrite H0. destruct (Rlt_dec 0 0); [lra|]. auto.
Qed.

Lemma pieces_ext f f' df df' gL gR sL sR :
  (forall x, f' x = f x) -> (forall x, df' x = df x) ->
  pieces f df gL gR sL sR -> pieces f' df' gL gR sL sR.
Proof.
  intros Ef Ed [H1 H2 H3 H4 H5 H6 H7 H8 H9].
  split; intros; rewrite ?Ed, ?Ef; auto.
Qed.

Lemma elu_pieces a : 0 < a -> pieces (k_elu a) (k_delu a) (fun v => expm1 v * a) (fun v => v) a 1.
Proof.
  intros Ha. apply (elu_gen_pieces a (fun v => v) 1 Ha) with (dR := fun _ => 1); auto using d_id.
Qed.

Lemma elu_ua_pieces : pieces k_elu_unitalpha k_delu_unitalpha (fun v => expm1 v * 1) (fun v => v) 1 1.
Proof.
  apply (pieces_ext (k_elu 1) _ (k_delu 1)).
  - intros x. unfold k_elu_unitalpha, k_elu. cases; ring.
  - intros x. reflexivity.
  - apply elu_pieces. lra.
Qed.

Lemma elogu_pieces a b : 0 < a -> 1 < b ->
  pieces (k_elogu a b) (k_delogu a b) (fun v => expm1 v * a) (fun v => log1p v * (1 / ln b)) a (1 / ln b).
Proof.
  intros Ha Hb. pose proof (ln_gt_0 b Hb) as Hl.
  assert (Hi : 0 < 1 / ln b) by (apply Rdiv_lt_0_compat; lra).
  apply (elu_gen_pieces a (fun v => log1p v * (1 / ln b)) (1 / ln b) Ha)
    with (dR := fun v => exp (v * - ln b + - ln (ln b))).
  - rewrite log1p_0. ring.
  - intros x Hx. pose proof (log1p_pos x Hx). nra.
  - intros x Hx. rewrite exp_ln_form by lra. apply d_log1p. lra.
  - eapply d_eq; [apply d_log1p; lra|field; lra].
  - rewrite Rmult_0_l, Rplus_0_l, exp_Ropp, exp_ln by lra. field. lra.
Qed.

Lemma elogu_ua_pieces b : 1 < b ->
  pieces (k_elogu_ua b) (k_delogu_ua b) (fun v => expm1 v * 1) (fun v => log1p v * (1 / ln b)) 1 (1 / ln b).
Proof.
  intros Hb. apply (pieces_ext (k_elogu 1 b) _ (k_delogu 1 b)).
  - intros x. unfold k_elogu_ua, k_elogu. cases; ring.
  - intros x. reflexivity.
  - apply elogu_pieces; lra.
Qed.

Lemma elogu_nb_pieces a : 0 < a ->
  pieces (k_elogu_nb a) (k_delogu_nb a) (fun v => expm1 v * a) (fun v => log1p v) a 1.
Proof.
  intros Ha.
  apply (elu_gen_pieces a (fun v => log1p v) 1 Ha) with (dR := fun v => exp (- v)).
  - apply log1p_0.
  - apply log1p_pos.
  - intros x Hx. rewrite exp_nln by lra. unfold log1p. auto_derive; [lra|field; lra].
  - unfold log1p. auto_derive; [lra|field].
  - rewrite Ropp_0, exp_0. reflexivity.
Qed.

Lemma elogu_ua_nb_pieces :
  pieces k_elogu_ua_nb k_delogu_ua_nb (fun v => expm1 v * 1) (fun v => log1p v) 1 1.
Proof.
  apply (pieces_ext (k_elogu_nb 1) _ (k_delogu_nb 1)).
  - intros x. unfold k_elogu_ua_nb, k_elogu_nb. cases; ring.
  - intros x. reflexivity.
  - apply elogu_nb_pieces; lra.
Qed.

Lemma loglogu_pieces bn bp : 1 < bn -> 1 < bp ->
  pieces (k_loglogu bn bp) (k_dloglogu bn bp)
    (fun v => log1p (- v) * - (1 / ln bn)) (fun v => log1p v * (1 / ln bp)) (1 / ln bn) (1 / ln bp).
Proof.
  intros Hn Hp. pose proof (ln_gt_0 bn Hn) as Ln. pose proof (ln_gt_0 bp Hp) as Lp.
  assert (In : 0 < 1 / ln bn) by (apply Rdiv_lt_0_compat; lra).
  assert (Ip : 0 < 1 / ln bp) by (apply Rdiv_lt_0_compat; lra).
  assert (EL : forall x, x < 0 -> k_loglogu bn bp x = log1p (- x) * - (1 / ln bn)).
  { intros x Hx. unfold k_loglogu. cases; rewrite Rabs_left by lra; field. lra. }
  assert (ER : forall x, 0 <= x -> k_loglogu bn bp x = log1p x * (1 / ln bp)).
  { intros x Hx. unfold k_loglogu. cases; rewrite Rabs_pos_eq by lra; field. lra. }
  split; intros.
  - apply EL. exact H.
  - apply ER. lra.
  - rewrite ER by lra. rewrite Ropp_0, log1p_0. ring.
  - apply ER. lra.
  - rewrite EL by exact H. unfold k_dloglogu.
    pose proof (log1p_pos (- x) ltac:(lra)).
    destruct (Rlt_dec (log1p (- x) * - (1 / ln bn)) 0); [|exfalso; nra].
    replace (log1p (- x) * - (1 / ln bn) * ln bn + - ln (ln bn))
      with (log1p (- x) * (1 / ln bn) * - ln bn + - ln (ln bn)) by ring.
    rewrite exp_ln_form by lra. replace (1 + - x) with (1 - x) by ring. apply d_log1m. lra.
  - rewrite ER by lra. unfold k_dloglogu. pose proof (log1p_pos x H).
    destruct (Rlt_dec (log1p x * (1 / ln bp)) 0); [exfalso; nra|].
    rewrite exp_ln_form by lra. apply d_log1p. lra.
  - eapply d_eq; [apply d_log1m; lra|field; lra].
  - eapply d_eq; [apply d_log1p; lra|field; lra].
  - right. rewrite ER by lra. rewrite log1p_0. unfold k_dloglogu.
    rewrite Rmult_0_l. destruct (Rlt_dec 0 0); [lra|].
    rewrite Rmult_0_l, Rplus_0_l, exp_Ropp, exp_ln by lra. field. lra.
Qed.

Lemma ln_e : ln (exp 1) = 1.
Proof. apply ln_exp. Qed.
Lemma e_gt1 : 1 < exp 1.
Proof. pose proof (exp_increasing 0 1 ltac:(lra)). rewrite exp_0 in *. lra. Qed.

Lemma loglogu_nbn_pieces bp : 1 < bp ->
  pieces (k_loglogu_nbn bp) (k_dloglogu_nbn bp)
    (fun v => log1p (- v) * - (1 / ln (exp 1))) (fun v => log1p v * (1 / ln bp)) (1 / ln (exp 1)) (1 / ln bp).
Proof.
  intros Hp. pose proof (ln_gt_0 bp Hp) as Lp.
  apply (pieces_ext (k_loglogu (exp 1) bp) _ (k_dloglogu (exp 1) bp)).
  - intros x. unfold k_loglogu_nbn, k_loglogu. rewrite ln_e. cases.
    + rewrite Rabs_left by lra. field.
    + rewrite Rabs_pos_eq by lra. reflexivity.
  - intros x. unfold k_dloglogu_nbn, k_dloglogu. rewrite ln_e. cases; f_equal. rewrite ln_1. ring.
  - apply loglogu_pieces; [apply e_gt1|exact Hp].
Qed.

Lemma loglogu_nbp_pieces bn : 1 < bn ->
  pieces (k_loglogu_nbp bn) (k_dloglogu_nbp bn)
    (fun v => log1p (- v) * - (1 / ln bn)) (fun v => log1p v * (1 / ln (exp 1))) (1 / ln bn) (1 / ln (exp 1)).
Proof.
  intros Hn. pose proof (ln_gt_0 bn Hn) as Ln.
  apply (pieces_ext (k_loglogu bn (exp 1)) _ (k_dloglogu bn (exp 1))).
  - intros x. unfold k_loglogu_nbp, k_loglogu. rewrite ln_e. cases.
    + rewrite Rabs_left by lra. reflexivity.
    + rewrite Rabs_pos_eq by lra. field.
  - intros x. unfold k_dloglogu_nbp, k_dloglogu. rewrite ln_e. cases; f_equal. rewrite ln_1. ring.
  - apply loglogu_pieces; [exact Hn|apply e_gt1].
Qed.

Lemma loglogu_nbn_nbp_pieces :
  pieces k_loglogu_nbn_nbp k_dloglogu_nbn_nbp
    (fun v => log1p (- v) * - (1 / ln (exp 1))) (fun v => log1p v * (1 / ln (exp 1)))
    (1 / ln (exp 1)) (1 / ln (exp 1)).
Proof.
  apply (pieces_ext (k_loglogu (exp 1) (exp 1)) _ (k_dloglogu (exp 1) (exp 1))).
  - intros x. unfold k_loglogu_nbn_nbp, k_loglogu. rewrite ln_e. cases.
    + rewrite Rabs_left by lra. field.
    + rewrite Rabs_pos_eq by lra. field.
  - intros x. unfold k_dloglogu_nbn_nbp, k_dloglogu. rewrite ln_e. cases; f_equal; rewrite ln_1; ring.
  - apply loglogu_pieces; apply e_gt1.
Qed.

Lemma logu_pieces b : 1 < b ->
  pieces (k_logu b) (k_dlogu b) (fun _ => 0) (fun v => log1p v * (1 / ln b)) 0 (1 / ln b).
Proof.
  intros Hb. pose proof (ln_gt_0 b Hb) as Hl.
  assert (Hi : 0 < 1 / ln b) by (apply Rdiv_lt_0_compat; lra).
  split; intros; unfold k_logu, k_dlogu.
  - cases; reflexivity.
  - cases; ring.
  - cases; reflexivity.
  - cases; rewrite log1p_0; ring.
  - cases; apply d_const.
  - destruct (Rle_dec x 0); [lra|]. pose proof (log1p_pos x H).
    destruct (Rle_dec (1 / ln b * log1p x) 0); [exfalso; nra|].
    rewrite (Rmult_comm (1 / ln b)), exp_ln_form by lra. apply d_log1p. lra.
  - apply d_const.
  - eapply d_eq; [apply d_log1p; lra|field; lra].
  - left. cases; reflexivity.
Qed.

Lemma logu_nb_pieces :
  pieces k_logu_nb k_dlogu_nb (fun _ => 0) (fun v => log1p v * (1 / ln (exp 1))) 0 (1 / ln (exp 1)).
Proof.
  apply (pieces_ext (k_logu (exp 1)) _ (k_dlogu (exp 1))).
  - intros x. unfold k_logu_nb, k_logu. rewrite ln_e. cases; field.
  - intros x. unfold k_dlogu_nb, k_dlogu. rewrite ln_e. cases; f_equal; rewrite ln_1; ring.
  - apply logu_pieces. apply e_gt1.
Qed.

Lemma softsign_pieces a c : 0 < a -> 0 < c ->
  pieces (k_softsign a c) (k_dsoftsign a c) (fun v => (c * v) / (a - v)) (fun v => (c * v) / (a + v)) (c / a) (c / a).
Proof.
  intros Ha Hc.
  assert (EL : forall x, x <= 0 -> k_softsign a c x = (c * x) / (a - x)).
  { intros x Hx. unfold k_softsign. rewrite Rabs_left1 by exact Hx. f_equal. }
  assert (ER : forall x, 0 <= x -> k_softsign a c x = (c * x) / (a + x)).
  { intros x Hx. unfold k_softsign. rewrite Rabs_pos_eq by exact Hx. reflexivity. }
  split; intros.
  - apply EL; lra.
  - apply ER; lra.
  - apply EL; lra.
  - apply ER; lra.
  - rewrite EL by lra. unfold k_dsoftsign.
    assert (Hn : c * x / (a - x) <= 0).
    { apply Rmult_le_reg_r with (a - x); [lra|]. unfold Rdiv. rewrite Rmult_assoc, Rinv_l by lra. nra. }
    rewrite Rabs_left1 by exact Hn. auto_derive; [repeat split; lra|]. field; lra.
  - rewrite ER by lra. unfold k_dsoftsign.
    assert (Hn : 0 <= c * x / (a + x)).
    { apply Rmult_le_reg_r with (a + x); [lra|]. unfold Rdiv. rewrite Rmult_assoc, Rinv_l by lra. nra. }
    rewrite Rabs_pos_eq by exact Hn. auto_derive; [repeat split; lra|]. field; lra.
  - auto_derive; [repeat split; lra|]. field; lra.
  - auto_derive; [repeat split; lra|]. field; lra.
  - left. rewrite ER by lra. unfold k_dsoftsign. replace (c * 0 / (a + 0)) with 0 by (field; lra). rewrite Rabs_R0.
    field; lra.
Qed.

Lemma softsign_uc_pieces a : 0 < a ->
  pieces (k_softsign_uc a) (k_dsoftsign a 1) (fun v => (1 * v) / (a - v)) (fun v => (1 * v) / (a + v)) (1 / a) (1 / a).
Proof.
  intros Ha. apply (pieces_ext (k_softsign a 1) _ (k_dsoftsign a 1)).
  - intros x. unfold k_softsign_uc, k_softsign. rewrite Rmult_1_l. reflexivity.
  - reflexivity.
  - apply softsign_pieces; lra.
Qed.

Lemma softsigm_pieces a : 0 < a ->
  pieces (k_softsigm a) (k_dsoftsigm a) (fun v => / 2 + / 2 * v / (a - v)) (fun v => / 2 + / 2 * v / (a + v))
    (1 / (2 * a)) (1 / (2 * a)).
Proof.
  intros Ha.
  assert (EL : forall x, x <= 0 -> k_softsigm a x = / 2 + / 2 * x / (a - x)).
  { intros x Hx. unfold k_softsigm. rewrite Rabs_left1 by exact Hx. f_equal. }
  assert (ER : forall x, 0 <= x -> k_softsigm a x = / 2 + / 2 * x / (a + x)).
  { intros x Hx. unfold k_softsigm. rewrite Rabs_pos_eq by exact Hx. reflexivity. }
  split; intros.
  - apply EL; lra.
  - apply ER; lra.
  - apply EL; lra.
  - apply ER; lra.
  - rewrite EL by lra. unfold k_dsoftsigm.
    assert (Hn : / 2 + / 2 * x / (a - x) - / 2 <= 0).
    { apply Rmult_le_reg_r with (a - x); [lra|]. replace ((/ 2 + / 2 * x / (a - x) - / 2) * (a - x)) with (/ 2 * x) by (field; lra). lra. }
    rewrite Rabs_left1 by exact Hn. auto_derive; [repeat split; lra|]. field; lra.
  - rewrite ER by lra. unfold k_dsoftsigm.
    assert (Hn : 0 <= / 2 + / 2 * x / (a + x) - / 2).
    { apply Rmult_le_reg_r with (a + x); [lra|]. replace ((/ 2 + / 2 * x / (a + x) - / 2) * (a + x)) with (/ 2 * x) by (field; lra). lra. }
    rewrite Rabs_pos_eq by exact Hn. auto_derive; [repeat split; lra|]. field; lra.
  - auto_derive; [repeat split; lra|]. field; lra.
  - auto_derive; [repeat split; lra|]. field; lra.
  - left. rewrite ER by lra. unfold k_dsoftsigm.
    replace (/ 2 + / 2 * 0 / (a + 0) - / 2) with 0 by (field; lra). rewrite Rabs_R0. field. lra.
Qed.

Lemma selu_pieces al l : 0 < al -> 0 < l ->
  pieces (k_selu al l) (k_dselu al l) (fun v => expm1 v * al) (fun v => v * l) al l.
Proof.
  intros Ha Hl. apply (elu_gen_pieces al (fun v => v * l) l Ha) with (dR := fun _ => l); auto using d_lin.
  - ring.
  - intros x Hx. nra.
Qed.

Lemma sigm_derive x : is_derive k_sigm x (k_dsigm (k_sigm x)).
Proof.
  unfold k_sigm, k_dsigm. pose proof (exp_pos (- x)). auto_derive; [repeat split; lra|]. field; lra.
Qed.

Lemma sigm_range x : 0 < k_sigm x < 1.
Proof.
  unfold k_sigm. pose proof (exp_pos (- x)). split.
  - apply Rdiv_lt_0_compat; lra.
  - apply Rmult_lt_reg_r with (1 + exp (- x)); [lra|]. unfold Rdiv. rewrite Rmult_assoc, Rinv_l by lra. lra.
Qed.

Lemma softsigm_range a x : 0 < a -> 0 < k_softsigm a x < 1.
Proof.
  intros Ha. unfold k_softsigm. pose proof (Rabs_pos x).
  assert (H1 : 0 < a + Rabs x) by lra.
  assert (Hx : - (a + Rabs x) < x < a + Rabs x).
  { pose proof (Rle_abs x). pose proof (Rle_abs (- x)). rewrite Rabs_Ropp in *. lra. }
  split.
  - apply Rmult_lt_reg_r with (a + Rabs x); [lra|].
    replace ((/ 2 + / 2 * x / (a + Rabs x)) * (a + Rabs x)) with (/ 2 * (a + Rabs x) + / 2 * x) by (field; lra). lra.
  - apply Rmult_lt_reg_r with (a + Rabs x); [lra|].
    replace ((/ 2 + / 2 * x / (a + Rabs x)) * (a + Rabs x)) with (/ 2 * (a + Rabs x) + / 2 * x) by (field; lra). lra.
Qed.

(** every activation with at most a kink at 0 *)
Lemma act_pieces t : admissible t -> t <> Step -> t <> Sigm -> t <> Identity ->
  exists gL gR sL sR, pieces (act_f t) (act_df t) gL gR sL sR.
Proof.
  intros Had Ht1 Ht2 Ht3. destruct t; try congruence; simpl in Had |- *.
  - do 4 eexists. apply relu_pieces.
  - do 4 eexists. apply leaky_pieces. apply leakK_pos. exact Had.
  - destruct (N.eqb_spec alpha1e3 1000); do 4 eexists; [apply elu_ua_pieces|apply elu_pieces, milli_pos, Had].
  - destruct Had as [Ha Hb]. destruct (N.eqb_spec alpha1e3 1000); destruct (N.eqb_spec logBase1e3 2718); do 4 eexists.
    + apply elogu_ua_nb_pieces.
    + apply elogu_ua_pieces, milli_gt1, Hb.
    + apply elogu_nb_pieces, milli_pos, Ha.
    + apply elogu_pieces; [apply milli_pos, Ha|apply milli_gt1, Hb].
  - destruct Had as [Hn Hp]. destruct (N.eqb_spec logBaseNeg1e3 2718); destruct (N.eqb_spec logBasePos1e3 2718); do 4 eexists.
    + apply loglogu_nbn_nbp_pieces.
    + apply loglogu_nbn_pieces, milli_gt1, Hp.
    + apply loglogu_nbp_pieces, milli_gt1, Hn.
    + apply loglogu_pieces; apply milli_gt1; assumption.
  - destruct (N.eqb_spec logBasePos1e3 2718); do 4 eexists; [apply logu_nb_pieces|apply logu_pieces, milli_gt1, Had].
  - destruct (N.eqb_spec c1e6 1000000) as [Ec|Ec].
    + pose proof (softsign_uc_pieces (micro a1e6) (micro_pos _ Had)) as H. do 4 eexists.
      eapply pieces_ext; [reflexivity| |exact H]. intros x. subst c1e6.
      destruct (N.eqb_spec a1e6 1000000) as [Ea|Ea]; cbn [andb].
      * subst a1e6. unfold k_dsoftsign_ua_uc, k_dsoftsign, micro, NR.
        change (IZR (Z.of_N 1000000)) with 1000000. field.
      * unfold k_dsoftsign, softsign_C. change (N.eqb 1000000 0) with false. cbv iota.
        replace (micro 1000000) with 1; [reflexivity|]. unfold micro, NR. change (IZR (Z.of_N 1000000)) with 1000000. field.
    + rewrite andb_false_r. do 4 eexists. apply softsign_pieces; [apply micro_pos, Had|apply softsign_C_pos].
  - do 4 eexists. apply softsigm_pieces, milli_pos, Had.
  - destruct Had as [Ha Hl]. do 4 eexists. apply selu_pieces; [apply Rmult_lt_0_compat|];
      auto using snn_alpha_pos, snn_lambda_pos.
Qed.

Lemma act_derive t x : admissible t -> x <> 0 -> is_derive (act_f t) x (act_df t (act_f t x)).
Proof.
  intros Had Hx.
  assert (HD : t = Step \/ t = Sigm \/ t = Identity \/ (t <> Step /\ t <> Sigm /\ t <> Identity)).
  { destruct t; auto; right; right; right; repeat split; discriminate. }
  destruct HD as [->|[->|[->|(H1 & H2 & H3)]]].
  - simpl. apply (glue k_step (fun _ => 0) (fun _ => 1) (fun _ => 0)); auto using d_const.
    + intros y Hy. unfold k_step. cases; reflexivity.
    + intros y Hy. unfold k_step. cases; reflexivity.
  - apply sigm_derive.
  - simpl. apply d_id.
  - destruct (act_pieces t Had H1 H2 H3) as (gL & gR & sL & sR & HP).
    apply (pieces_derive _ _ _ _ _ _ HP x Hx).
Qed.

(** at 0 the routine yields a one-sided derivative *)
Lemma act_one_sided t : admissible t -> t <> Step ->
  exists b, side_derivative b (act_f t) 0 (act_df t (act_f t 0)).
Proof.
  intros Had Ht.
  assert (HD : t = Sigm \/ t = Identity \/ (t <> Sigm /\ t <> Identity)).
  { destruct t; auto; right; right; repeat split; discriminate. }
  destruct HD as [->|[->|(H2 & H3)]].
  - exists true. apply (side_of_derive true _ k_sigm); [apply sigm_derive|reflexivity|reflexivity].
  - exists true. apply (side_of_derive true _ (fun v => v)); [apply d_id|reflexivity|reflexivity].
  - destruct (act_pieces t Had Ht H2 H3) as (gL & gR & sL & sR & HP).
    destruct (pieces_sides _ _ _ _ _ _ HP) as [HL HR].
    destruct (p_d0 _ _ _ _ _ _ HP) as [-> | ->]; eauto.
Qed.

Lemma step_not_derivable : ~ ex_derive (act_f Step) 0.
Proof.
  intros [l Hl]. apply is_derive_Reals in Hl. destruct (Hl 1 ltac:(lra)) as [d Hd].
  pose proof (cond_pos d) as Hp.
  set (h := - Rmin (d / 2) (/ (Rabs l + 2))).
  assert (Hl0 : 0 < Rabs l + 2) by (pose proof (Rabs_pos l); lra).
  assert (Hi : 0 < / (Rabs l + 2)) by (apply Rinv_0_lt_compat; exact Hl0).
  assert (Hm : 0 < Rmin (d / 2) (/ (Rabs l + 2))) by (apply Rmin_pos; lra).
  assert (H1 : h < 0) by (unfold h; lra).
  assert (H2 : Rabs h < d).
  { unfold h. rewrite Rabs_Ropp, Rabs_pos_eq by lra. pose proof (Rmin_l (d / 2) (/ (Rabs l + 2))). lra. }
  specialize (Hd h ltac:(lra) H2). simpl in Hd. unfold k_step in Hd.
  rewrite Rplus_0_l in Hd. destruct (Rlt_dec h 0); [|lra]. destruct (Rlt_dec 0 0); [lra|].
  assert (H3 : (0 - 1) / h >= Rabs l + 2).
  { replace ((0 - 1) / h) with (/ - h) by (field; lra).
    assert (- h <= / (Rabs l + 2)) by (unfold h; rewrite Ropp_involutive; apply Rmin_r).
    apply Rle_ge. rewrite <- (Rinv_inv (Rabs l + 2)). apply Rinv_le_contravar; lra. }
  apply Rabs_def2 in Hd. pose proof (Rle_abs l). lra.
Qed.

(** wherever the activation is differentiable *)
Lemma act_derive_ex t x : admissible t -> ex_derive (act_f t) x ->
  is_derive (act_f t) x (act_df t (act_f t x)).
Proof.
  intros Had Hx. destruct (Req_dec x 0) as [->|H0]; [|apply act_derive; assumption].
  assert (Ht : t <> Step) by (intros ->; apply step_not_derivable; exact Hx).
  destruct (act_one_sided t Had Ht) as [b Hb]. destruct Hx as [l Hl].
  exact (side_unique b _ _ _ l Hl Hb).
Qed.

Lemma leaky100 v : k_leakyrelu (leakK 100) v = v.
Proof. unfold k_leakyrelu, leakK, NR. simpl Z.of_N. destruct (Rlt_dec v 0); [field|reflexivity]. Qed.

Lemma smooth_derive t x : admissible t -> smooth t -> is_derive (act_f t) x (act_df t (act_f t x)).
Proof.
  intros Had Hs. apply act_derive_ex; [exact Had|].
  destruct t; simpl in Hs; try contradiction; simpl in *.
  - eexists. apply sigm_derive.
  - eexists. apply d_id.
  - subst leakKInv100. exists 1. apply is_derive_ext with (f := fun v => v); [|apply d_id].
    intros v. symmetry. apply leaky100.
  - subst alpha1e3. eexists. apply (pieces_smooth _ _ _ _ _ elu_ua_pieces).
  - destruct Hs as [-> ->]. eexists. apply (pieces_smooth _ _ _ _ _ elogu_ua_nb_pieces).
  - subst logBasePos1e3. destruct Had as [Hn _]. destruct (N.eqb_spec logBaseNeg1e3 2718).
    + eexists. apply (pieces_smooth _ _ _ _ _ loglogu_nbn_nbp_pieces).
    + eexists. apply (pieces_smooth _ _ _ _ _ (loglogu_pieces _ _ (milli_gt1 _ Hn) (milli_gt1 _ Hn))).
  - destruct (N.eqb_spec c1e6 1000000).
    + eexists. apply (pieces_smooth _ _ _ _ _ (softsign_uc_pieces _ (micro_pos _ Had))).
    + eexists. apply (pieces_smooth _ _ _ _ _ (softsign_pieces _ _ (micro_pos _ Had) (softsign_C_pos _))).
  - eexists. apply (pieces_smooth _ _ _ _ _ (softsigm_pieces _ (milli_pos _ Had))).
  - subst alpha1e9. destruct Had as [_ Hl]. pose proof (snn_lambda_pos _ Hl) as Hp.
    replace (snn_alpha 1000000000 * snn_lambda lambda1e9) with (snn_lambda lambda1e9).
    + eexists. apply (pieces_smooth _ _ _ _ _ (selu_pieces _ _ Hp Hp)).
    + unfold snn_alpha. simpl Z.eqb. cbv iota. field.
Qed.

Lemma zero_stable_iff t : admissible t -> (zero_stable t = true <-> act_f t 0 = 0).
Proof.
  intros Had.
  assert (HD : (t = Sigm \/ t = Step \/ exists a, t = Softsigm a) \/ (t <> Sigm /\ t <> Step /\ forall a, t <> Softsigm a)).
  { destruct t; auto; try (left; right; right; eauto; fail); right; repeat split; try discriminate. }
  destruct HD as [[->|[->|[a ->]]]|(H1 & H2 & H3)].
  - simpl. unfold k_sigm. rewrite Ropp_0, exp_0. split; [discriminate|lra].
  - simpl. unfold k_step. destruct (Rlt_dec 0 0); [lra|]. split; [discriminate|lra].
  - simpl in *. unfold k_softsigm. unfold Rdiv. rewrite Rmult_0_r, Rmult_0_l. split; [discriminate|lra].
  - split; intros _; [|destruct t; simpl; congruence].
    destruct t; try congruence; simpl.
    + reflexivity.
    + unfold k_relu. cases; reflexivity.
    + unfold k_leakyrelu. cases; reflexivity.
    + destruct (N.eqb alpha1e3 1000); [unfold k_elu_unitalpha|unfold k_elu]; cases; reflexivity.
    + destruct (N.eqb alpha1e3 1000), (N.eqb logBase1e3 2718);
        [unfold k_elogu_ua_nb|unfold k_elogu_ua|unfold k_elogu_nb|unfold k_elogu]; cases; rewrite log1p_0; ring.
    + destruct (N.eqb logBaseNeg1e3 2718), (N.eqb logBasePos1e3 2718);
        [unfold k_loglogu_nbn_nbp|unfold k_loglogu_nbn|unfold k_loglogu_nbp|unfold k_loglogu]; cases;
        rewrite ?Rabs_R0, log1p_0; ring.
    + destruct (N.eqb logBasePos1e3 2718); [unfold k_logu_nb|unfold k_logu]; cases; reflexivity.
    + destruct (N.eqb c1e6 1000000); [unfold k_softsign_uc|unfold k_softsign];
        unfold Rdiv; rewrite ?Rmult_0_r, Rmult_0_l; reflexivity.
    + unfold k_selu. cases; ring.
Qed.
