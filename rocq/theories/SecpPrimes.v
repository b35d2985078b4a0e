(** The constants of secp256k1 (secp256k1zkp/constants.go:48-98): the field size and the group order
    are prime, and the curve y^2 = x^3 + 7 has no point with y = 0. *)
From Coq Require Import ZArith Znumtheory List Lia Bool.
From Verif Require Import PrimeField Pocklington.
Import ListNotations.
Open Scope Z_scope.

Lemma nonneg2 : 0 <= 2. Proof. discriminate. Qed.
Ltac by_trial := apply trial_prime; [reflexivity|vm_compute; reflexivity].
Ltac distinct := repeat (apply NoDup_cons; [cbn; intuition discriminate|]); apply NoDup_nil.

Lemma prime_53 : prime 53. Proof. by_trial. Qed.
Lemma prime_29 : prime 29. Proof. by_trial. Qed.
Lemma prime_7 : prime 7. Proof. by_trial. Qed.
Lemma prime_107590001_w0 : check 107590001 (fun x => x mod 107590001) 2 53 2030000 = true. Proof. vm_compute. reflexivity. Qed.
Lemma prime_107590001_w1 : check 107590001 (fun x => x mod 107590001) 2 29 3710000 = true. Proof. vm_compute. reflexivity. Qed.
Lemma prime_107590001_w2 : check 107590001 (fun x => x mod 107590001) 2 7 15370000 = true. Proof. vm_compute. reflexivity. Qed.
Lemma prime_107590001 : prime 107590001.
Proof.
  apply (pocklington 107590001 [53; 29; 7]); [reflexivity|distinct|apply Forall_cons; [exact prime_53|]; apply Forall_cons; [exact prime_29|]; apply Forall_cons; [exact prime_7|]; apply Forall_nil| |reflexivity].
  intros q [<-|[<-|[<-|[]]]]; do 2 eexists.
  - exact (check_sound 107590001 (fun x => x mod 107590001) (fun x => red_mod 107590001 x eq_refl) 2 53 _ nonneg2 prime_107590001_w0).
  - exact (check_sound 107590001 (fun x => x mod 107590001) (fun x => red_mod 107590001 x eq_refl) 2 29 _ nonneg2 prime_107590001_w1).
  - exact (check_sound 107590001 (fun x => x mod 107590001) (fun x => red_mod 107590001 x eq_refl) 2 7 _ nonneg2 prime_107590001_w2).
Qed.
Lemma prime_20113 : prime 20113. Proof. by_trial. Qed.
Lemma prime_1206781_w0 : check 1206781 (fun x => x mod 1206781) 2 20113 60 = true. Proof. vm_compute. reflexivity. Qed.
Lemma prime_1206781 : prime 1206781.
Proof.
  apply (pocklington 1206781 [20113]); [reflexivity|distinct|apply Forall_cons; [exact prime_20113|]; apply Forall_nil| |reflexivity].
  intros q [<-|[]]; do 2 eexists.
  - exact (check_sound 1206781 (fun x => x mod 1206781) (fun x => red_mod 1206781 x eq_refl) 2 20113 _ nonneg2 prime_1206781_w0).
Qed.
Lemma prime_7240687_w0 : check 7240687 (fun x => x mod 7240687) 2 1206781 6 = true. Proof. vm_compute. reflexivity. Qed.
Lemma prime_7240687 : prime 7240687.
Proof.
  apply (pocklington 7240687 [1206781]); [reflexivity|distinct|apply Forall_cons; [exact prime_1206781|]; apply Forall_nil| |reflexivity].
  intros q [<-|[]]; do 2 eexists.
  - exact (check_sound 7240687 (fun x => x mod 7240687) (fun x => red_mod 7240687 x eq_refl) 2 1206781 _ nonneg2 prime_7240687_w0).
Qed.
Lemma prime_96557 : prime 96557. Proof. by_trial. Qed.
Lemma prime_b128_w0 : check 255515944373312847190720520512484175977 (fun x => x mod 255515944373312847190720520512484175977) 2 107590001 2374904191824599455024826335976 = true. Proof. vm_compute. reflexivity. Qed.
Lemma prime_b128_w1 : check 255515944373312847190720520512484175977 (fun x => x mod 255515944373312847190720520512484175977) 2 7240687 35288908963101546467996824129048 = true. Proof. vm_compute. reflexivity. Qed.
Lemma prime_b128_w2 : check 255515944373312847190720520512484175977 (fun x => x mod 255515944373312847190720520512484175977) 2 96557 2646270538369179315748423423599368 = true. Proof. vm_compute. reflexivity. Qed.
Lemma prime_b128 : prime 255515944373312847190720520512484175977.
Proof.
  apply (pocklington 255515944373312847190720520512484175977 [107590001; 7240687; 96557]); [reflexivity|distinct|apply Forall_cons; [exact prime_107590001|]; apply Forall_cons; [exact prime_7240687|]; apply Forall_cons; [exact prime_96557|]; apply Forall_nil| |reflexivity].
  intros q [<-|[<-|[<-|[]]]]; do 2 eexists.
  - exact (check_sound 255515944373312847190720520512484175977 (fun x => x mod 255515944373312847190720520512484175977) (fun x => red_mod 255515944373312847190720520512484175977 x eq_refl) 2 107590001 _ nonneg2 prime_b128_w0).
  - exact (check_sound 255515944373312847190720520512484175977 (fun x => x mod 255515944373312847190720520512484175977) (fun x => red_mod 255515944373312847190720520512484175977 x eq_refl) 2 7240687 _ nonneg2 prime_b128_w1).
  - exact (check_sound 255515944373312847190720520512484175977 (fun x => x mod 255515944373312847190720520512484175977) (fun x => red_mod 255515944373312847190720520512484175977 x eq_refl) 2 96557 _ nonneg2 prime_b128_w2).
Qed.
Lemma prime_b237_w0 : check 205115282021455665897114700593932402728804164701536103180137503955397371 (fun x => x mod 205115282021455665897114700593932402728804164701536103180137503955397371) 2 255515944373312847190720520512484175977 802749442992798076634733441528810 = true. Proof. vm_compute. reflexivity. Qed.
Lemma prime_b237 : prime 205115282021455665897114700593932402728804164701536103180137503955397371.
Proof.
  apply (pocklington 205115282021455665897114700593932402728804164701536103180137503955397371 [255515944373312847190720520512484175977]); [reflexivity|distinct|apply Forall_cons; [exact prime_b128|]; apply Forall_nil| |reflexivity].
  intros q [<-|[]]; do 2 eexists.
  - exact (check_sound 205115282021455665897114700593932402728804164701536103180137503955397371 (fun x => x mod 205115282021455665897114700593932402728804164701536103180137503955397371) (fun x => red_mod 205115282021455665897114700593932402728804164701536103180137503955397371 x eq_refl) 2 255515944373312847190720520512484175977 _ nonneg2 prime_b237_w0).
Qed.
Definition secp_pz : Z := 115792089237316195423570985008687907853269984665640564039457584007908834671663.
(** Two foldings bring a product near the modulus again. *)
Definition red_p (x : Z) : Z := fold 256 4294968273 (fold 256 4294968273 x).
Lemma red_p_spec x : 0 <= x -> red_p x mod secp_pz = x mod secp_pz /\ 0 <= red_p x.
Proof.
  intro H. destruct (fold_spec 256 4294968273 secp_pz x) as (E1 & H1); [discriminate|discriminate|reflexivity|reflexivity|exact H|].
  destruct (fold_spec 256 4294968273 secp_pz _ ltac:(discriminate) ltac:(discriminate) eq_refl eq_refl H1) as (E2 & H2). split; [|exact H2]. unfold red_p. now rewrite E2.
Qed.
Lemma prime_p_w0 : check secp_pz red_p 2 205115282021455665897114700593932402728804164701536103180137503955397371 564522 = true. Proof. vm_compute. reflexivity. Qed.
Lemma prime_p : prime secp_pz.
Proof.
  apply (pocklington secp_pz [205115282021455665897114700593932402728804164701536103180137503955397371]); [reflexivity|distinct|apply Forall_cons; [exact prime_b237|]; apply Forall_nil| |reflexivity].
  intros q [<-|[]]; do 2 eexists.
  - exact (check_sound secp_pz red_p red_p_spec 2 205115282021455665897114700593932402728804164701536103180137503955397371 _ nonneg2 prime_p_w0).
Qed.
Lemma prime_1871 : prime 1871. Proof. by_trial. Qed.
Lemma prime_1627771_w0 : check 1627771 (fun x => x mod 1627771) 2 1871 870 = true. Proof. vm_compute. reflexivity. Qed.
Lemma prime_1627771 : prime 1627771.
Proof.
  apply (pocklington 1627771 [1871]); [reflexivity|distinct|apply Forall_cons; [exact prime_1871|]; apply Forall_nil| |reflexivity].
  intros q [<-|[]]; do 2 eexists.
  - exact (check_sound 1627771 (fun x => x mod 1627771) (fun x => red_mod 1627771 x eq_refl) 2 1871 _ nonneg2 prime_1627771_w0).
Qed.
Lemma prime_297159362677_w0 : check 297159362677 (fun x => x mod 297159362677) 2 1627771 182556 = true. Proof. vm_compute. reflexivity. Qed.
Lemma prime_297159362677 : prime 297159362677.
Proof.
  apply (pocklington 297159362677 [1627771]); [reflexivity|distinct|apply Forall_cons; [exact prime_1627771|]; apply Forall_nil| |reflexivity].
  intros q [<-|[]]; do 2 eexists.
  - exact (check_sound 297159362677 (fun x => x mod 297159362677) (fun x => red_mod 297159362677 x eq_refl) 2 1627771 _ nonneg2 prime_297159362677_w0).
Qed.
Lemma prime_28181 : prime 28181. Proof. by_trial. Qed.
Lemma prime_545358713_w0 : check 545358713 (fun x => x mod 545358713) 2 28181 19352 = true. Proof. vm_compute. reflexivity. Qed.
Lemma prime_545358713 : prime 545358713.
Proof.
  apply (pocklington 545358713 [28181]); [reflexivity|distinct|apply Forall_cons; [exact prime_28181|]; apply Forall_nil| |reflexivity].
  intros q [<-|[]]; do 2 eexists.
  - exact (check_sound 545358713 (fun x => x mod 545358713) (fun x => red_mod 545358713 x eq_refl) 2 28181 _ nonneg2 prime_545358713_w0).
Qed.
Lemma prime_b95_w0 : check 29047611873442575647497758179 (fun x => x mod 29047611873442575647497758179) 2 297159362677 97750956294169114 = true. Proof. vm_compute. reflexivity. Qed.
Lemma prime_b95_w1 : check 29047611873442575647497758179 (fun x => x mod 29047611873442575647497758179) 2 545358713 53263313083699784306 = true. Proof. vm_compute. reflexivity. Qed.
Lemma prime_b95 : prime 29047611873442575647497758179.
Proof.
  apply (pocklington 29047611873442575647497758179 [297159362677; 545358713]); [reflexivity|distinct|apply Forall_cons; [exact prime_297159362677|]; apply Forall_cons; [exact prime_545358713|]; apply Forall_nil| |reflexivity].
  intros q [<-|[<-|[]]]; do 2 eexists.
  - exact (check_sound 29047611873442575647497758179 (fun x => x mod 29047611873442575647497758179) (fun x => red_mod 29047611873442575647497758179 x eq_refl) 2 297159362677 _ nonneg2 prime_b95_w0).
  - exact (check_sound 29047611873442575647497758179 (fun x => x mod 29047611873442575647497758179) (fun x => red_mod 29047611873442575647497758179 x eq_refl) 2 545358713 _ nonneg2 prime_b95_w1).
Qed.
Lemma prime_b109_w0 : check 341948486974166000522343609283189 (fun x => x mod 341948486974166000522343609283189) 2 29047611873442575647497758179 11772 = true. Proof. vm_compute. reflexivity. Qed.
Lemma prime_b109 : prime 341948486974166000522343609283189.
Proof.
  apply (pocklington 341948486974166000522343609283189 [29047611873442575647497758179]); [reflexivity|distinct|apply Forall_cons; [exact prime_b95|]; apply Forall_nil| |reflexivity].
  intros q [<-|[]]; do 2 eexists.
  - exact (check_sound 341948486974166000522343609283189 (fun x => x mod 341948486974166000522343609283189) (fun x => red_mod 341948486974166000522343609283189 x eq_refl) 2 29047611873442575647497758179 _ nonneg2 prime_b109_w0).
Qed.
Lemma prime_9349 : prime 9349. Proof. by_trial. Qed.
Lemma prime_44706919_w0 : check 44706919 (fun x => x mod 44706919) 2 9349 4782 = true. Proof. vm_compute. reflexivity. Qed.
Lemma prime_44706919 : prime 44706919.
Proof.
  apply (pocklington 44706919 [9349]); [reflexivity|distinct|apply Forall_cons; [exact prime_9349|]; apply Forall_nil| |reflexivity].
  intros q [<-|[]]; do 2 eexists.
  - exact (check_sound 44706919 (fun x => x mod 44706919) (fun x => red_mod 44706919 x eq_refl) 2 9349 _ nonneg2 prime_44706919_w0).
Qed.
Lemma prime_120233 : prime 120233. Proof. by_trial. Qed.
Lemma prime_b68_w0 : check 174723607534414371449 (fun x => x mod 174723607534414371449) 2 44706919 3908200597192 = true. Proof. vm_compute. reflexivity. Qed.
Lemma prime_b68_w1 : check 174723607534414371449 (fun x => x mod 174723607534414371449) 2 120233 1453208416444856 = true. Proof. vm_compute. reflexivity. Qed.
Lemma prime_b68 : prime 174723607534414371449.
Proof.
  apply (pocklington 174723607534414371449 [44706919; 120233]); [reflexivity|distinct|apply Forall_cons; [exact prime_44706919|]; apply Forall_cons; [exact prime_120233|]; apply Forall_nil| |reflexivity].
  intros q [<-|[<-|[]]]; do 2 eexists.
  - exact (check_sound 174723607534414371449 (fun x => x mod 174723607534414371449) (fun x => red_mod 174723607534414371449 x eq_refl) 2 44706919 _ nonneg2 prime_b68_w0).
  - exact (check_sound 174723607534414371449 (fun x => x mod 174723607534414371449) (fun x => red_mod 174723607534414371449 x eq_refl) 2 120233 _ nonneg2 prime_b68_w1).
Qed.
Definition secp_nz : Z := 115792089237316195423570985008687907852837564279074904382605163141518161494337.
Definition red_n (x : Z) : Z := fold 256 432420386565659656852420866394968145599 (fold 256 432420386565659656852420866394968145599 (fold 256 432420386565659656852420866394968145599 x)).
Lemma red_n_spec x : 0 <= x -> red_n x mod secp_nz = x mod secp_nz /\ 0 <= red_n x.
Proof.
  intro H. destruct (fold_spec 256 432420386565659656852420866394968145599 secp_nz x) as (E1 & H1); [discriminate|discriminate|reflexivity|reflexivity|exact H|].
  destruct (fold_spec 256 432420386565659656852420866394968145599 secp_nz _ ltac:(discriminate) ltac:(discriminate) eq_refl eq_refl H1) as (E2 & H2).
  destruct (fold_spec 256 432420386565659656852420866394968145599 secp_nz _ ltac:(discriminate) ltac:(discriminate) eq_refl eq_refl H2) as (E3 & H3). split; [|exact H3]. unfold red_n. now rewrite E3, E2.
Qed.
Lemma prime_n_w0 : check secp_nz red_n 2 341948486974166000522343609283189 338624364920977752681389262317185522840540224 = true. Proof. vm_compute. reflexivity. Qed.
Lemma prime_n_w1 : check secp_nz red_n 2 174723607534414371449 662715765037699607481235088557493206623080876315205958464 = true. Proof. vm_compute. reflexivity. Qed.
Lemma prime_n : prime secp_nz.
Proof.
  apply (pocklington secp_nz [341948486974166000522343609283189; 174723607534414371449]); [reflexivity|distinct|apply Forall_cons; [exact prime_b109|]; apply Forall_cons; [exact prime_b68|]; apply Forall_nil| |reflexivity].
  intros q [<-|[<-|[]]]; do 2 eexists.
  - exact (check_sound secp_nz red_n red_n_spec 2 341948486974166000522343609283189 _ nonneg2 prime_n_w0).
  - exact (check_sound secp_nz red_n red_n_spec 2 174723607534414371449 _ nonneg2 prime_n_w1).
Qed.
(** 49 = (-7)^2 is not a sixth power. *)
Definition sixth : positive := 19298681539552699237261830834781317975544997444273427339909597334651472445277.
Lemma sixth_pow : (mpow red_p 49 sixth mod secp_pz =? 1) = false. Proof. vm_compute. reflexivity. Qed.
Lemma sixth_exp : 6 * Zpos sixth = secp_pz - 1. Proof. reflexivity. Qed.
Lemma no_sixth : exists e, 0 < e /\ 6 * e = secp_pz - 1 /\ 49 ^ e mod secp_pz <> 1.
Proof.
  exists (Zpos sixth). split; [reflexivity|]. split; [exact sixth_exp|]. pose proof sixth_pow as C. apply Z.eqb_neq in C.
  pose proof (proj1 (mpow_spec secp_pz red_p red_p_spec 49 sixth ltac:(discriminate))) as M. intro E. apply C. exact (eq_trans M E).
Qed.
