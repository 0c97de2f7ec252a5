(** Small executable ConfigBase environments, used only in examples and counterexamples. *)
From Verif Require Import BaseSpec Toy ToyCrypt.

Definition toy_base (E : env) : benv := mkBenv E toy_aead (b "Test") None (fun x => x) (fun x => Some x) false (fun _ _ c => c) (fun _ _ => None).
Definition tb : benv := toy_base toy.                 (* an unsigned config *)
Definition tb_admin : benv := toy_base toy_admin.     (* can sign *)
Definition tb_reader : benv := toy_base toy_reader.   (* can only verify *)
Lemma toy_sign_length x : length (toy_sign x) = 64.
Proof. unfold toy_sign. rewrite app_length, toy_hash_length. reflexivity. Qed.
Lemma tb_ok : benv_ok tb.
Proof. split; cbn; [apply toy_hash32|lia|intros v g x h; discriminate|discriminate]. Qed.
Lemma tb_admin_ok : benv_ok tb_admin.
Proof. split; cbn; [apply toy_hash32|lia|exact toy_signer_ok|]. intros g x h. injection h as <-. apply toy_sign_length. Qed.
Lemma tb_reader_ok : benv_ok tb_reader.
Proof. split; cbn; [apply toy_hash32|lia|intros v g x _ h; discriminate|discriminate]. Qed.
(** what a server holds: this message encrypted with the toy key (not padded) *)
Definition sealed (s : bytes) : bytes := get_ok [] (encrypt toy_aead s toy_key (b "Test")).
Definition start (B : benv) : bstate := fresh B [toy_key].
Definition set_name (s : String.string) : op := OpAssign [] (b "n") (VScal (SStr (b s))).
Definition after (B : benv) (o : op) (st : bstate) : bstate := snd (run B o st).
(** signed messages as an administrator publishes them *)
Definition signed_msg : bytes := Eval vm_compute in get_ok [] (edit_of toy_admin (empty_msg toy_admin) [(b "n", VScal (SStr (b "x")))]).
(** the same kind of message written without the optional "<" and "=" entries *)
Definition terse_body (n : Z) : bytes := "d"%char :: enc_entries [(b "#", BInt n); (b "&", BDict [])].
Definition terse_msg (n : Z) : bytes := with_sig (terse_body n) (toy_sign (terse_body n)).
