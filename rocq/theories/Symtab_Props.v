(** C58: symbol lookup in an object finds a symbol exactly if there is one. *)
From Verif Require Import Base Symtab_Model Symtab_Spec Symtab_Proof.
Open Scope Z_scope.

(** For every object with a well-formed SysV hash table, the lookup of any name and version ends without
    error. It gives a defined, visible symbol of that name and version if the table has one, and otherwise
    reports that there is none. *)
Theorem C58_sysv : forall signed fuel o n nb chain name want,
  wf_symbols o n -> wf_want want -> wf_sysv o n nb chain -> plain signed name -> (Z.to_nat n <= fuel)%nat -> 0 < n ->
  exists r, lookup_sysv signed fuel o name want = Ok r /\ right o n name want r.
Proof. exact sysv_ok. Qed.

(** The same for a GNU hash table. *)
Theorem C58_gnu : forall signed fuel o n nb offset bloom first count name want,
  wf_symbols o n -> wf_want want -> wf_gnu o n nb offset bloom first count -> plain signed name ->
  (Z.to_nat n <= fuel)%nat -> 0 < n ->
  exists r, lookup_gnu signed fuel o name want = Ok r /\ right o n name want r.
Proof. exact gnu_ok. Qed.

Definition a_sym (name : list Z) : sym := {| is_defined := true; binding := 1; st_name := Some name |}.
Definition unversioned (ws : list Z) (ss : list sym) : object :=
  {| word := fun k => if k <? 0 then None else nth_error ws (Z.to_nat k);
     symtab := fun k => if k <? 0 then None else nth_error ss (Z.to_nat k);
     versym := None; known := fun _ => None; defines_versions := false; addr_words := 2 |}.
Definition null_sym : sym := {| is_defined := false; binding := 0; st_name := None |}.

Ltac index := match goal with H : ?a < ?i < ?b |- _ => assert (i = 1 \/ i = 2 \/ i = 3 \/ i = 4) as [->|[->|[->| ->]]] by lia; try lia
                            | H : ?a <= ?i < ?b |- _ => assert (i = 1 \/ i = 2 \/ i = 3 \/ i = 4) as [->|[->|[->| ->]]] by lia; try lia end.
Ltac named := match goal with H : name_of _ _ _ |- _ => let s := fresh in let E := fresh in let N := fresh in
    destruct H as (s & E & N); cbn in E; injection E as <-; cbn in N; first [discriminate N|injection N as <-] end.

(** With signed characters, as on x86, the statement is false for names outside of ASCII: the table is as the
    static linker makes it and has the symbol, but the lookup misses it. *)
Definition accented_gnu : object :=
  unversioned [1; 1; 1; 0; 0; 0; 1; 2 * (gnu_hash [195] / 2) + 1] [null_sym; a_sym [195]].
Definition accented_sysv : object := unversioned [5; 2; 1; 0; 0; 0; 0; 0; 0] [null_sym; a_sym [195]].
Theorem C58_non_ascii_refuted :
  (exists o n nb offset bloom first count, wf_symbols o n /\ wf_gnu o n nb offset bloom first count /\
     answers o [195] None 1 /\ 1 < n /\ forall fuel, (Z.to_nat n <= fuel)%nat -> lookup_gnu true fuel o [195] None = Ok None) /\
  (exists o n nb chain, wf_symbols o n /\ wf_sysv o n nb chain /\
     answers o [195] None 1 /\ 1 < n /\ forall fuel, (Z.to_nat n <= fuel)%nat -> lookup_sysv true fuel o [195] None = Ok None).
Proof.
  split.
  - exists accented_gnu, 2, 1, 1, 1, (fun _ => 1), (fun _ => 1). split; [|split; [|split; [|split]]].
    + intros i I. index. do 3 eexists. split; [reflexivity|]. split; [reflexivity|]. split; intros; [reflexivity|discriminate].
    + do 3 (split; [reflexivity|]). split; [lia|]. split; [lia|]. split; [lia|]. split; [|split; [|split]].
      * intros b Hb. assert (b = 0) as -> by lia. split; [lia|]. split; [reflexivity|]. intros _. lia.
      * intros i nm I H. index. named. split; [lia|]. vm_compute. reflexivity.
      * intros b i Hb I. assert (i = 1) as -> by lia. assert (b = 0) as -> by lia. exists [195]. split; [|reflexivity]. eexists. split; reflexivity.
      * intros i s v I. lia.
    + do 2 eexists. split; [reflexivity|]. split; [reflexivity|]. split; [left; reflexivity|]. split; [reflexivity|]. left. reflexivity.
    + lia.
    + intros fuel F. destruct fuel as [|fuel]; [cbn in F; lia|]. vm_compute. reflexivity.
  - exists accented_sysv, 2, 5, (fun b => if b =? 0 then [1] else []). split; [|split; [|split; [|split]]].
    + intros i I. index. do 3 eexists. split; [reflexivity|]. split; [reflexivity|]. split; intros; [reflexivity|discriminate].
    + split; [reflexivity|]. split; [lia|]. split.
      * intros b Hb. assert (b = 0 \/ b = 1 \/ b = 2 \/ b = 3 \/ b = 4) as H by lia.
        destruct H as [->|[->|[->|[->| ->]]]]; cbn [Z.eqb]; (split; [repeat constructor; intros []|]); (split; [intros i []; try contradiction; subst; lia|]);
          eexists; (split; [reflexivity|]); cbn [is_chain]; try reflexivity. split; [reflexivity|]. eexists. split; reflexivity.
      * intros i nm I H. index. named. left. reflexivity.
    + do 2 eexists. split; [reflexivity|]. split; [reflexivity|]. split; [left; reflexivity|]. split; [reflexivity|]. left. reflexivity.
    + lia.
    + intros fuel F. destruct fuel as [|fuel]; [cbn in F; lia|]. vm_compute. reflexivity.
Qed.

(** The hypotheses are met: tables with the symbols "a", "b" and "ab". *)
Definition three_sysv : object :=
  unversioned [2; 4; 2; 1; 0; 0; 3; 0] [null_sym; a_sym [97]; a_sym [98]; a_sym [97; 98]].
Example C58_sysv_met : wf_symbols three_sysv 4 /\ wf_sysv three_sysv 4 2 (fun b => if b =? 0 then [2; 3] else [1]) /\
  plain true [97; 98] /\ lookup_sysv true 4 three_sysv [97; 98] None = Ok (Some 3) /\ lookup_sysv true 4 three_sysv [97; 97] None = Ok None.
Proof.
  split; [|split; [|split; [|split; reflexivity]]].
  - intros i I. index; do 3 eexists; (split; [reflexivity|]); (split; [reflexivity|]); split; intros; [reflexivity|discriminate|reflexivity|discriminate|reflexivity|discriminate].
  - split; [reflexivity|]. split; [lia|]. split.
    + intros b Hb. assert (b = 0 \/ b = 1) as [->| ->] by lia; cbn [Z.eqb].
      * split; [repeat constructor; cbn; intuition discriminate|]. split; [intros i [<-|[<-|[]]]; lia|]. eexists. split; [reflexivity|].
        cbn [is_chain]. split; [reflexivity|]. eexists. split; [reflexivity|]. split; [reflexivity|]. eexists. split; reflexivity.
      * split; [repeat constructor; intros []|]. split; [intros i [<-|[]]; lia|]. eexists. split; [reflexivity|].
        cbn [is_chain]. split; [reflexivity|]. eexists. split; reflexivity.
    + intros i nm I H. index; named; cbn; auto.
  - repeat constructor; lia.
Qed.
Definition three_gnu : object :=
  unversioned [2; 2; 1; 0; 0; 0; 2; 4; 177670; 5863209; 177671]
    [null_sym; {| is_defined := false; binding := 1; st_name := Some [117] |}; a_sym [97]; a_sym [97; 98]; a_sym [98]].
Example C58_gnu_met : wf_symbols three_gnu 5 /\
  wf_gnu three_gnu 5 2 2 1 (fun b => if b =? 0 then 2 else 4) (fun b => if b =? 0 then 2 else 1) /\
  lookup_gnu true 5 three_gnu [97; 98] None = Ok (Some 3) /\ lookup_gnu true 5 three_gnu [98] None = Ok (Some 4) /\
  lookup_gnu true 5 three_gnu [117] None = Ok None.
Proof.
  split; [|split; [|repeat split; reflexivity]].
  - intros i I. index; do 3 eexists; (split; [reflexivity|]); (split; [reflexivity|]); split; intros; first [reflexivity|discriminate].
  - do 3 (split; [reflexivity|]). split; [lia|]. split; [lia|]. split; [lia|]. split; [|split; [|split]].
    + intros b Hb. assert (b = 0 \/ b = 1) as [->| ->] by lia; (split; [cbn; lia|]); (split; [reflexivity|]); cbn; lia.
    + intros i nm I H. index; named; (split; [vm_compute; intuition congruence|reflexivity]).
    + intros b i Hb I. assert (b = 0 \/ b = 1) as [->| ->] by lia; cbn [Z.eqb] in I.
      * assert (i = 2 \/ i = 3) as [->| ->] by lia; eexists; (split; [eexists; split; reflexivity|reflexivity]).
      * assert (i = 4) as -> by lia. eexists. split; [eexists; split; reflexivity|reflexivity].
    + intros i s v I E. assert (i = 1) as -> by lia. cbn in E. injection E as <- <-. reflexivity.
Qed.
(** "a" exists in the hidden version "V1" (index 2) and in the default version "V2" (index 3). *)
Definition named_version (n : list Z) : version :=
  {| is_local := false; is_global := false; is_default := false; vname := n; vhash := elf_hash n |}.
Definition two_versions : object :=
  {| word := fun k => nth_error [1; 3; 1; 0; 2; 0] (Z.to_nat k); symtab := fun k => nth_error [null_sym; a_sym [97]; a_sym [97]] (Z.to_nat k);
     versym := Some (fun k => nth_error [0; 2 + 32768; 3] (Z.to_nat k));
     known := fun k => if k =? 2 then Some (named_version [86; 49]) else if k =? 3 then Some (named_version [86; 50]) else None;
     defines_versions := true; addr_words := 2 |}.
Example C58_versions :
  wf_symbols two_versions 3 /\ wf_sysv two_versions 3 1 (fun _ => [1; 2]) /\
  lookup_sysv true 3 two_versions [97] None = Ok (Some 2) /\
  lookup_sysv true 3 two_versions [97] (Some (named_version [86; 49])) = Ok (Some 1) /\
  lookup_sysv true 3 two_versions [97] (Some (named_version [86; 51])) = Ok None.
Proof.
  split; [|split; [|repeat split; reflexivity]].
  - intros i I. index; do 3 eexists; (split; [reflexivity|]); (split; [reflexivity|]); split; intros; reflexivity.
  - split; [reflexivity|]. split; [lia|]. split.
    + intros b Hb. assert (b = 0) as -> by lia. split; [repeat constructor; cbn; intuition discriminate|]. split; [intros i [<-|[<-|[]]]; lia|].
      eexists. split; [reflexivity|]. cbn [is_chain]. split; [reflexivity|]. eexists. split; [reflexivity|]. split; [reflexivity|]. eexists. split; reflexivity.
    + intros i nm I H. cbn [In]. lia.
Qed.
Print Assumptions C58_sysv.
Print Assumptions C58_gnu.
Print Assumptions C58_non_ascii_refuted.
