(** Authorizers and signatures of every kind of key. *)
From Verif Require Import Base Effects EffectsFacts Keys Scope Url HtmlForm SignedUrl Calls SpecToken SpecTrace SpecSign KeysFacts CallFacts.

Lemma authorizer_ok d k tr email : returns (authorizer d k) tr (Ok email) -> authorized k tr email.
Proof.
  destruct k as [bt|a s|e key]; intros H.
  - apply auth_ok in H. destruct H as [token H]. apply get_ok in H. econstructor; exact H.
  - apply returns_ret_inv in H. destruct H as [-> E]. injection E as ->. constructor.
  - apply returns_ret_inv in H. destruct H as [-> E]. injection E as ->. constructor.
Qed.

Lemma sign_ok d k usb m tr sig : returns (sign d k usb m) tr (Ok sig) -> signed d k usb m tr sig.
Proof.
  destruct k as [bt|a s|e key]; cbn [sign]; intros H.
  - destruct usb.
    2:{ apply returns_ret_inv in H. destruct H as [_ H]. discriminate H. }
    apply returns_bind_ok_inv in H. destruct H as [(x & t1 & t2 & H1 & H & ->)|(e & _ & E)]; [|discriminate E].
    apply returns_ret_inv in H. destruct H as [-> E]. injection E as ->. rewrite app_nil_r.
    apply bound_token_sign_steps in H1. inversion H1 as [? ? ? ? ? ? NR| | | | |tr em tk o bd sig' L A Bb]; subst; [destruct (NR _ eq_refl)|].
    eapply sg_remote; [exact L|apply sign_blob_request_spec|exact A|exact Bb].
  - destruct (returns_panic_inv _ _ _ H).
  - destruct usb; [destruct (returns_panic_inv _ _ _ H)|]. destruct (d_rsa_sign d key m) as [x|x] eqn:E; apply returns_ret_inv in H;
      destruct H as [-> H]; [injection H as ->|discriminate H]. constructor. exact E.
Qed.
