(** A client that feeds a byte sequence to mbrtowc in chunks, as C16 describes: it passes the rest of the current
    chunk and the same mbstate_t each time, collects the code points, and moves to the next chunk on -2.
    A return value of 0 (null character) means that one byte was consumed. *)
From Verif Require Import Base Utf8_Model Utf8_Spec.
Open Scope Z_scope.

Fixpoint feed_chunk (k fuel : nat) (m w : mem) (wp it : Z) (n : nat) (st : mbstate)
  : res (list Z * ending * mbstate) :=
  match n with
  | O => Ok ([], Complete, st)
  | S _ =>
    match k with
    | O => Fuel
    | S k' =>
      '(w', r, st', _) <- mbrtowc fuel m w (Some wp) it n st ;;
      if r =? -1 then Ok ([], Error, st')
      else if r =? -2 then Ok ([], Unfinished, st')
      else
        c <- load w' wp ;;
        let used := if r =? 0 then 1%nat else Z.to_nat r in
        '(cs, e, st'') <- feed_chunk k' fuel m w' wp (it + Z.of_nat used) (n - used) st' ;;
        Ok (c :: cs, e, st'')
    end
  end.

(** chunks are given by address and length *)
Fixpoint feed (fuel : nat) (m w : mem) (wp : Z) (chunks : list (Z * nat)) (st : mbstate) : res (list Z * ending) :=
  match chunks with
  | [] => Ok ([], Complete)
  | (p, n) :: rest =>
    '(cs, e, st') <- feed_chunk n fuel m w wp p n st ;;
    match e, rest with
    | Error, _ | _, [] => Ok (cs, e)
    | _, _ => '(cs2, e2) <- feed fuel m w wp rest st' ;; Ok (cs ++ cs2, e2)
    end
  end.

(** the chunk [ch] is non-empty and holds the bytes [l] *)
Definition chunk_at (m : mem) (ch : Z * nat) (l : list Z) : Prop :=
  bytes_at m (fst ch) l /\ snd ch = length l /\ l <> [].
