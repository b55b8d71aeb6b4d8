From Verif Require Import Base Users_Model Shadow_Proof Execp_Model Execp_Spec.
Open Scope Z_scope.

Section P.
Variable exec : list Z -> Z.
Definition dec (res : Z) (cs : list (list Z)) : outcome :=
  match find (fun c => negb (goes_on (exec c))) cs with
  | Some c => if exec c =? 0 then Started c else Failed (exec c)
  | None => Failed (if existsb (fun c => exec c =? EACCES) cs then EACCES else res)
  end.
Lemma cut_none d : forall s, ~ In d s -> cut d s = None.
Proof. induction s as [|c r IH]; intro N; [reflexivity|]. cbn [cut]. destruct (Z.eqb_spec c d) as [->|]; [elim N; left; reflexivity|]. rewrite IH; [reflexivity|]. intro I. apply N. right. exact I. Qed.
Definition raw (file d : list Z) : list Z := d ++ [47] ++ file.
Lemma one_try file rest' dir n res ds : (forall res, tries exec n file rest' res = Ok (tried exec (map (raw file) ds), dec res (map (raw file) ds))) ->
  (let path := raw file dir in let e := exec path in
   if e =? 0 then Ok ([path], Started path)
   else if (e =? ENOENT) || (e =? ENOTDIR) then '(l, o) <- tries exec n file rest' res ;; Ok (path :: l, o)
   else if e =? EACCES then '(l, o) <- tries exec n file rest' EACCES ;; Ok (path :: l, o)
   else Ok ([path], Failed e)) = Ok (tried exec (map (raw file) (dir :: ds)), dec res (map (raw file) (dir :: ds))).
Proof.
  intro IH. cbv zeta. cbn [map tried]. unfold dec. cbn [find existsb]. unfold goes_on. set (p := raw file dir).
  destruct (Z.eqb_spec (exec p) 0) as [E|E].
  { rewrite E. cbn. rewrite E. reflexivity. }
  destruct ((exec p =? ENOENT) || (exec p =? ENOTDIR)) eqn:E1; cbn [orb negb].
  - rewrite IH. cbn [bind]. unfold dec. fold goes_on. replace (exec p =? EACCES) with false; [reflexivity|]. symmetry. apply Z.eqb_neq. intro C. rewrite C in E1. discriminate.
  - destruct (Z.eqb_spec (exec p) EACCES) as [E2|E2]; cbn [negb].
    + rewrite IH. cbn [bind orb]. unfold dec. do 3 f_equal. destruct (find _ _); [reflexivity|]. destruct (existsb _ _); reflexivity.
    + destruct (Z.eqb_spec (exec p) 0); [congruence|reflexivity].
Qed.
Lemma tries_ok : forall ds t, elements ds t -> last ds [] <> [] -> forall n file res, (length t < n)%nat ->
  tries exec n file t res = Ok (tried exec (map (raw file) ds), dec res (map (raw file) ds)).
Proof.
  induction 1 as [d N|d ds t N E IH]; intros L n file res K.
  - cbn [last] in L. destruct n as [|n]; [lia|]. cbn [tries]. destruct d as [|c d]; [congruence|]. rewrite cut_none by exact N. change ((c :: d) ++ [47] ++ file) with (raw file (c :: d)).
    apply one_try. intro r. destruct n as [|n]; [cbn in K; lia|]. reflexivity.
  - destruct n as [|n]; [lia|]. cbn [tries]. destruct (d ++ [58] ++ t) as [|x l] eqn:X; [destruct d; discriminate|]. rewrite <- X in *. clear x l X.
    rewrite (proj2 (cut_some 58 (d ++ [58] ++ t) d t) (conj eq_refl N)). change (d ++ [47] ++ file) with (raw file d). apply one_try. intro r. apply IH.
    + destruct ds; [inversion E|exact L].
    + rewrite !app_length in K. cbn in K. lia.
Qed.
Lemma tries_trail : forall ds t, elements ds t -> forall n file res, (length t < n)%nat -> last ds [] = [] ->
  tries exec n file t res = Ok (tried exec (map (raw file) (removelast ds)), dec res (map (raw file) (removelast ds))).
Proof.
  induction 1 as [d N|d ds t N E IH]; intros n file res K L.
  - cbn [last] in L. subst d. destruct n; [lia|]. reflexivity.
  - destruct n as [|n]; [lia|]. cbn [tries]. destruct (d ++ [58] ++ t) as [|x l] eqn:X; [destruct d; discriminate|]. rewrite <- X in *. clear x l X.
    rewrite (proj2 (cut_some 58 (d ++ [58] ++ t) d t) (conj eq_refl N)). change (d ++ [47] ++ file) with (raw file d).
    assert (RL : removelast (d :: ds) = d :: removelast ds) by (destruct ds; [inversion E|reflexivity]). rewrite RL. apply one_try. intro r. apply IH.
    + rewrite !app_length in K. cbn in K. lia.
    + destruct ds; [inversion E|exact L].
Qed.
End P.

Definition nz (l : list Z) : Prop := Forall (fun a => a <> 0) l.
Lemma execl_loop_ok : forall l junk av, nz l -> (length av + length l < 15)%nat -> execl_loop (l ++ [0] ++ junk) av = Ok (av ++ l ++ [0; 0]).
Proof.
  induction l as [|a l IH]; intros junk av N K; cbn [length] in K.
  - cbn [app execl_loop]. destruct (Nat.ltb_spec (length av) 15); [|lia]. rewrite Z.eqb_refl. reflexivity.
  - cbn [app execl_loop]. destruct (Nat.ltb_spec (length av) 15); [|lia]. inversion N; subst. destruct (Z.eqb_spec a 0); [congruence|].
    replace (l ++ 0 :: junk) with (l ++ [0] ++ junk) by reflexivity. rewrite IH; [|assumption|rewrite app_length; cbn; lia]. rewrite <- app_assoc. reflexivity.
Qed.
Lemma execl_loop_abort : forall l junk av, nz l -> (15 <= length av + length l)%nat -> execl_loop (l ++ junk) av = Abort.
Proof.
  induction l as [|a l IH]; intros junk av N K; cbn [length] in K.
  - destruct junk; cbn [app execl_loop]; (destruct (Nat.ltb_spec (length av) 15); [lia|reflexivity]).
  - cbn [app execl_loop]. destruct (Nat.ltb_spec (length av) 15); [|reflexivity]. inversion N; subst. destruct (Z.eqb_spec a 0); [congruence|].
    apply IH; [assumption|rewrite app_length; cbn; lia].
Qed.
Lemma argc_of_ok : forall l junk, nz l -> argc_of (l ++ [0] ++ junk) = Ok (S (length l)).
Proof. induction l as [|a l IH]; intros junk N; [reflexivity|]. inversion N; subst. cbn [app argc_of]. destruct (Z.eqb_spec a 0); [congruence|]. change (l ++ 0 :: junk) with (l ++ [0] ++ junk). rewrite IH by assumption. reflexivity. Qed.
Lemma copy_args_ok : forall l r, copy_args (length l) (l ++ r) = Ok (l, r).
Proof. induction l as [|a l IH]; intro r; [reflexivity|]. cbn [length app copy_args]. rewrite IH. reflexivity. Qed.
Lemma vector_ok : forall l r, nz l -> vector (l ++ [0] ++ r) = Some l.
Proof. induction l as [|a l IH]; intros r N; [reflexivity|]. inversion N; subst. cbn [app vector]. destruct (Z.eqb_spec a 0); [congruence|]. change (l ++ 0 :: r) with (l ++ [0] ++ r). rewrite IH by assumption. reflexivity. Qed.
