(** * Text: sequences of Unicode characters in UTF-8 (RFC 3629) *)

From Verif.Model Require Import Base Message.

(** A character is a code point other than a surrogate. *)
Definition character (c : Z) : Prop := 0 <= c <= 1114111 ∧ ¬ (55296 <= c <= 57343).
Fixpoint octets (l : list Z) : bytes := match l with [] => EmptyString | z :: l => String (byte_of z) (octets l) end.
Definition encoded (c : Z) : bytes :=
  octets (if c <? 128 then [c]
          else if c <? 2048 then [192 + c / 64; 128 + c mod 64]
          else if c <? 65536 then [224 + c / 4096; 128 + c / 64 mod 64; 128 + c mod 64]
          else [240 + c / 262144; 128 + c / 4096 mod 64; 128 + c / 64 mod 64; 128 + c mod 64]).
Fixpoint encoding (cs : list Z) : bytes := match cs with [] => EmptyString | c :: cs => String.append (encoded c) (encoding cs) end.
(** What [bytes.decode] accepts. *)
Definition text (s : bytes) : Prop := ∃ cs, Forall character cs ∧ s = encoding cs.
