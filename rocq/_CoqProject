-Q theories Verif
theories/Base.v
theories/Trie_model.v
theories/Trie_spec.v
theories/Trie_proofs.v
theories/P_Trie.v
theories/Utf_model.v
theories/Utf_spec.v
theories/Utf_proofs.v
theories/Ustr_model.v
theories/Ustr_spec.v
theories/Ustr_proofs.v
theories/P_Unicode.v
theories/Bert_model.v
theories/Bert_spec.v
theories/Bert_proofs.v
theories/P_Bert.v
theories/Assoc.v
theories/Vocab_model.v
theories/Vocab_spec.v
theories/Vocab_proofs.v
theories/P_Vocab.v
theories/Api_model.v
theories/P_Api.v
theories/Bpe_model.v
theories/Bpe_spec.v
theories/Bpe_proofs.v
theories/Bpe_load_proofs.v
theories/P_Bpe.v
theories/Roberta_model.v
theories/Roberta_spec.v
theories/Roberta_proofs.v
theories/P_Roberta.v
theories/Ggml_model.v
theories/Encoder_model.v
theories/Encoder_spec.v
theories/Encoder_proofs.v
theories/Eval_model.v
theories/Eval_spec.v
theories/Eval_proofs.v
theories/P_Eval.v
theories/Log_model.v
theories/Log_spec.v
theories/P_Log.v
theories/Handle_model.v
theories/P_Handle.v
theories/Loader_model.v
theories/Loader_spec.v
theories/Loader_proofs.v
theories/P_Loader.v
theories/Quantize_model.v
theories/Quantize_spec.v
theories/Quantize_proofs.v
theories/P_Quantize.v
theories/Tool_model.v
theories/Tool_spec.v
theories/Tool_proofs.v
theories/P_Tool.v
theories/Fill_model.v
theories/Fill_spec.v
theories/Fill_proofs.v
theories/P_Fill.v
theories/P_FillFile.v
theories/Gguf_model.v
theories/Gguf_spec.v
theories/Gguf_proofs.v
theories/P_Gguf.v
theories/Convert_model.v
theories/Convert_spec.v
theories/Convert_proofs.v
theories/Convert_arrays.v
theories/Convert_load.v
theories/Convert_vocab.v
theories/P_Convert.v
theories/Session_model.v
theories/Session_spec.v
theories/Session_proofs.v
theories/P_Session.v
theories/Rtext_spec.v
theories/Rtext_proofs.v
theories/P_Rtext.v
theories/P_Rfill.v
theories/Cpp_model.v
theories/Cpp_proofs.v
theories/P_Cpp.v
theories/Qck_spec.v
theories/Qck_proofs.v
theories/P_Qck.v
theories/Wp_spec.v
theories/Wp_proofs.v
theories/P_Wp.v
theories/Pattern_model.v
theories/Pattern_spec.v
theories/Pattern_proofs.v
theories/P_Pattern.v
theories/Repo_tests.v
theories/Real_spec.v
theories/Real_proofs.v
theories/P_Real.v
theories/P_Local.v
theories/Icu_model.v
theories/Icu_spec.v
theories/Icu_proofs.v
theories/P_Icu.v
theories/P_Whole.v
theories/P_Bytes.v
theories/Symmetry_spec.v
theories/Symmetry_proofs.v
theories/P_Symmetry.v
theories/Says_model.v
theories/Says_eval_model.v
theories/Says_spec.v
theories/Says_proofs.v
theories/P_Says.v
theories/Says_eval_proofs.v
theories/P_Says_eval.v
theories/P_Says_vocab.v
theories/P_Says_story.v
theories/Says_load_model.v
theories/Says_load_spec.v
theories/Says_load_proofs.v
theories/Says_load_lines.v
theories/P_Says_load.v
theories/Says_roberta_model.v
theories/P_Says_roberta.v
theories/Says_quantize_model.v
theories/Says_quantize_spec.v
theories/Says_quantize_proofs.v
theories/P_Says_quantize.v
theories/P_Says_info.v
theories/Qbuf_model.v
theories/P_Qbuf.v
theories/Tool_text_model.v
theories/P_Tool_text.v
theories/Fill_text_model.v
theories/P_Fill_text.v
theories/Fill_log_model.v
theories/P_Fill_log.v
theories/Says_debug_model.v
theories/Says_debug_proofs.v
theories/P_Says_debug.v
theories/P_Session_log.v
theories/Says_rdebug_model.v
theories/P_Says_rdebug.v
theories/P_Says_merges.v
theories/P_Says_percent.v
theories/P_Shapes.v
theories/P_Order.v
theories/P_Twice.v
