(* Concrete cases for P_Mapping. *)
From Verif Require Import Base M_Mapping S_Mapping.
Local Open Scope N_scope.

Definition ex_files (n : bytes) : option node :=
  if bytes_eqb n (bs "old.GZ") then Some (Regular [31; 139]) else if bytes_eqb n (bs "more.xz") then Some (Regular [253; 55]) else
  if bytes_eqb n (bs "inbox") then Some (Regular (bs "From me")) else if bytes_eqb n (bs "bad.bz2") then Some (Regular [1]) else None.
Definition ex_reads (k : compression) (n : bytes) : option (list (option bytes)) :=
  match k with COMPRESSION_GZIP => Some [Some (bs "From you")] | COMPRESSION_XZ => Some [Some (bs "From her")] | COMPRESSION_BZIP => Some [None] | _ => None end.
Definition ex_place (m : space) : N := 4096 + fold_right N.max 0 (map fst m).
Lemma ex_fresh m : ~ In (ex_place m) (map fst m).
Proof.
  unfold ex_place. assert (H : forall l x, In x l -> x <= fold_right N.max 0 l).
  { induction l as [|y l IH]; intros x []; cbn [fold_right]; [lia|]. specialize (IH _ H). lia. }
  intros I0. apply H in I0. lia.
Qed.
Definition ex_names : list bytes := [bs "old.GZ"; bs "old.GZ"; bs "inbox"; bs "more.xz"; bs "old.GZ"; bs "inbox"].
Definition ex_texts : list bytes := [bs "From you"; bs "From you"; bs "From me"; bs "From her"; bs "From you"; bs "From me"].
Notation ex_says := (says (get_compression_type true true true) ex_files ex_reads).

Lemma ex_says_old : ex_says (bs "old.GZ") (bs "From you").
Proof. split; [split; [discriminate|reflexivity]|]. exists [31; 139]. split; [reflexivity|]. split; [split; [discriminate|reflexivity]|]. eexists. split; [reflexivity|]. constructor. discriminate. Qed.
Lemma ex_says_more : ex_says (bs "more.xz") (bs "From her").
Proof. split; [split; [discriminate|reflexivity]|]. exists [253; 55]. split; [reflexivity|]. split; [split; [discriminate|reflexivity]|]. eexists. split; [reflexivity|]. constructor. discriminate. Qed.
Lemma ex_says_inbox : ex_says (bs "inbox") (bs "From me").
Proof. split; [split; [discriminate|reflexivity]|]. eexists. split; [reflexivity|]. split; [split; [discriminate|reflexivity]|]. reflexivity. Qed.
Lemma ex_says_all : Forall2 ex_says ex_names ex_texts.
Proof. repeat constructor; first [exact ex_says_old|exact ex_says_more|exact ex_says_inbox|discriminate|idtac]. all: try exact (proj2 ex_says_old); try exact (proj2 ex_says_more); try exact (proj2 ex_says_inbox). Qed.
(* Decides whether a list of names has a return. *)
Fixpoint returns_from (compressed : bytes -> bool) (z : bytes) (some : bool) (l : list bytes) : bool :=
  match l with
  | [] => false
  | x :: l' => if compressed x then some && bytes_eqb x z else returns_from compressed z true l'
  end.
Fixpoint has_return (compressed : bytes -> bool) (l : list bytes) : bool :=
  match l with [] => false | x :: l' => (compressed x && returns_from compressed x false l') || has_return compressed l' end.
Lemma returns_from_iff compressed z between after b : compressed z = true -> Forall (fun n => compressed n = false) between ->
  (b = true \/ between <> []) -> returns_from compressed z b (between ++ z :: after) = true.
Proof.
  intros C F. revert b. induction F as [|x l H _ IH]; intros b Hb; cbn [app returns_from].
  - rewrite C. destruct Hb as [->|H]; [|congruence]. cbn [andb]. clear. induction z; cbn [bytes_eqb]; [reflexivity|]. rewrite N.eqb_refl. exact IHz.
  - rewrite H. apply IH. left. reflexivity.
Qed.
Lemma has_return_iff compressed l : returns compressed l -> has_return compressed l = true.
Proof.
  intros (b & z & m & a & -> & C & NE & F). induction b as [|x b IH]; cbn [app has_return].
  - rewrite C, (returns_from_iff _ _ _ _ false C F) by (right; exact NE). reflexivity.
  - rewrite IH. apply orb_true_r.
Qed.
Lemma ex_no_return : ~ returns (is_compressed true true true) ex_names.
Proof. intros H. apply has_return_iff in H. vm_compute in H. discriminate. Qed.
