-Q theories Verif
theories/Base_model.v
theories/Class_model.v
theories/Float_model.v
theories/Uni_model.v
theories/Token_model.v
theories/Rule_model.v
theories/Search_model.v
theories/Grammar_model.v
theories/Search_spec.v
theories/Search_proofs.v
theories/Enum_proofs.v
theories/SearchTop_proofs.v
theories/Float_proofs.v
theories/SearchBest_proofs.v
theories/Pattern_proofs.v
theories/Grammar_spec.v
theories/GrammarLine_proofs.v
theories/GrammarLoad_proofs.v
theories/GrammarLink_proofs.v
theories/GrammarTop_proofs.v
theories/GrammarPrint_proofs.v
theories/Sample_model.v
theories/Loaded_spec.v
theories/Loaded_proofs.v
theories/Search_props.v
theories/GrammarMore_proofs.v
theories/Grammar_props.v
theories/Class_spec.v
theories/Class_proofs.v
theories/Class_props.v
theories/Utf8_model.v
theories/Utf8_spec.v
theories/Utf8_proofs.v
theories/Utf8_props.v
theories/Trie_model.v
theories/TextOrder_spec.v
theories/TextOrder_proofs.v
theories/TextOrder_props.v
theories/Trie_spec.v
theories/Trie_proofs.v
theories/Regex_model.v
theories/TrieRegex_proofs.v
theories/TrieWords_proofs.v
theories/Trie_props.v
theories/Md5_model.v
theories/Md5_spec.v
theories/Md5_proofs.v
theories/Md5Rfc_proofs.v
theories/Md5_props.v
theories/Md5Mem_model.v
theories/Md5Mem_spec.v
theories/Md5Mem_proofs.v
theories/Md5Mem_props.v
theories/Lexicon_model.v
theories/Lexicon_spec.v
theories/LexMap_proofs.v
theories/Match_proofs.v
theories/Classify_proofs.v
theories/LexText_spec.v
theories/LexLoad_proofs.v
theories/LexExample_proofs.v
theories/LexFile_spec.v
theories/LexFile_proofs.v
theories/LexFileExample_proofs.v
theories/LexFile_props.v
theories/Lexicon_props.v
theories/Tokenizer_model.v
theories/TokParse_proofs.v
theories/TrieLang_proofs.v
theories/TokMatch_proofs.v
theories/Tokenizer_spec.v
theories/TokScan_proofs.v
theories/TokRead_proofs.v
theories/TokPieces_proofs.v
theories/TokSplit_proofs.v
theories/TokKeep_proofs.v
theories/TokAlt_proofs.v
theories/TokExample_proofs.v
theories/Tokenizer_props.v
theories/Utils_model.v
theories/Utils_spec.v
theories/Utils_proofs.v
theories/Utils_props.v
theories/LexSame_proofs.v
theories/Archive_model.v
theories/Archive_spec.v
theories/Archive_proofs.v
theories/Archive_props.v
theories/Wrapper_model.v
theories/Wrapper_spec.v
theories/Wrapper_proofs.v
theories/WrapperTop_proofs.v
theories/WrapperEx_proofs.v
theories/Bad_proofs.v
theories/Wrapper_props.v
theories/Cache_model.v
theories/Cache_spec.v
theories/CacheMem_proofs.v
theories/Cache_proofs.v
theories/CacheTop_proofs.v
theories/Cache_props.v
theories/Split_spec.v
theories/Tab_proofs.v
theories/Split_proofs.v
theories/SplitEx_proofs.v
theories/Split_props.v
theories/Parts_spec.v
theories/Parts_proofs.v
theories/Parts_props.v
theories/FloatAcc_spec.v
theories/FloatRound_proofs.v
theories/FloatAcc_proofs.v
theories/FloatAvg_proofs.v
theories/FloatTop_proofs.v
theories/FloatAcc_props.v
theories/Heap_model.v
theories/Heap_spec.v
theories/Heap_proofs.v
theories/HeapStd_proofs.v
theories/HeapSrf_proofs.v
theories/HeapTop_proofs.v
theories/Heap_props.v
theories/Read_spec.v
theories/Read_proofs.v
theories/Address_spec.v
theories/Address_proofs.v
theories/AddressEx_proofs.v
theories/Address_props.v
theories/Order_spec.v
theories/Order_proofs.v
theories/OrderTop_proofs.v
theories/Answer_spec.v
theories/Answer_proofs.v
theories/AnswerEx_proofs.v
theories/Answer_props.v
theories/UnitTest_proofs.v
theories/Shipped_model.v
theories/Shipped_spec.v
theories/Excess_spec.v
theories/Excess_proofs.v
theories/Shipped_proofs.v
theories/ShippedEx_proofs.v
theories/Shipped_props.v
theories/Documented_proofs.v
theories/Diagnosis_spec.v
theories/Diagnosis_proofs.v
theories/Diagnosis_props.v
theories/LexDiag_spec.v
theories/LexDiag_proofs.v
theories/LexDiagExample_proofs.v
theories/LexDiag_props.v
theories/End_spec.v
theories/End_proofs.v
theories/EndEx_proofs.v
theories/End_props.v
theories/Entry_spec.v
theories/Entry_proofs.v
theories/Entry_props.v
theories/Growth_spec.v
theories/Growth_proofs.v
theories/Growth_props.v
theories/Edges_spec.v
theories/Edges_proofs.v
theories/Edges_props.v
theories/Local_spec.v
theories/Local_proofs.v
theories/LocalEx_proofs.v
theories/Local_props.v
theories/ByteTrie_model.v
theories/ByteTrie_spec.v
theories/ByteTrie_proofs.v
theories/ByteTrie_props.v
theories/Blank_spec.v
theories/Blank_proofs.v
theories/Blank_props.v
theories/Gap_spec.v
theories/Gap_proofs.v
theories/Gap_props.v
theories/Pointer_model.v
theories/Pointer_spec.v
theories/Pointer_proofs.v
theories/Pointer_props.v
theories/Alike_spec.v
theories/Alike_proofs.v
theories/AlikeEx_proofs.v
theories/Alike_props.v
theories/CString_model.v
theories/CString_spec.v
theories/CString_proofs.v
theories/CStringAll_proofs.v
theories/CStringEx_proofs.v
theories/CString_props.v
theories/LineRegex_model.v
theories/LineRegex_proofs.v
theories/LineRegexEx_proofs.v
theories/LineRegex_props.v
theories/TrieBytes_model.v
theories/TrieBytes_spec.v
theories/TrieBytes_proofs.v
theories/TrieBytesList_proofs.v
theories/TrieBytes_props.v
theories/Digest_model.v
theories/Digest_spec.v
theories/Digest_proofs.v
theories/DigestEx_proofs.v
theories/Digest_props.v
theories/Sql_model.v
theories/Sql_spec.v
theories/Sql_proofs.v
theories/Sql_props.v
theories/Cut_proofs.v
theories/Broken_spec.v
theories/Broken_proofs.v
theories/BrokenEx_proofs.v
theories/Broken_props.v
theories/Insert_spec.v
theories/Insert_proofs.v
theories/InsertEx_proofs.v
theories/Insert_props.v
theories/TrieHeap_model.v
theories/TrieHeap_spec.v
theories/TrieHeap_proofs.v
theories/TrieHeap_props.v
theories/Score_model.v
theories/Score_spec.v
theories/Score_proofs.v
theories/ScoreTop_proofs.v
theories/Score_props.v
theories/Codes_spec.v
theories/Codes_proofs.v
theories/Codes_props.v
theories/Exact_spec.v
theories/Exact_proofs.v
theories/Exact_props.v
theories/Reload_spec.v
theories/Reload_proofs.v
theories/Reload_props.v
theories/Lost_proofs.v
theories/Lost_props.v
theories/Filter_spec.v
theories/Filter_proofs.v
theories/Filter_props.v
theories/File_model.v
theories/File_spec.v
theories/File_proofs.v
theories/File_props.v
theories/ShippedLex_model.v
theories/ShippedLex_spec.v
theories/ShippedLex_proofs.v
theories/ShippedLexTop_proofs.v
theories/ShippedLex_props.v
theories/Format_spec.v
theories/Format_proofs.v
theories/Format_props.v
theories/Docs_spec.v
theories/Docs_proofs.v
theories/DocsLex_spec.v
theories/DocsLex_proofs.v
theories/DocsEx_proofs.v
theories/Docs_props.v
theories/FloatMono_proofs.v
theories/Tune_spec.v
theories/Tune_proofs.v
theories/TuneEx_proofs.v
theories/Tune_props.v
theories/Count_spec.v
theories/Count_proofs.v
theories/Count_props.v
theories/EnumWrap_proofs.v
theories/EnumWrap_props.v
theories/Settled_spec.v
theories/Settled_proofs.v
theories/Settled_props.v
theories/Caret_spec.v
theories/Caret_proofs.v
theories/Caret_props.v
theories/Tools_model.v
theories/Tools_spec.v
theories/Tools_proofs.v
theories/Tools_props.v
theories/Richer_spec.v
theories/Richer_proofs.v
theories/Richer_props.v
theories/Pagc_model.v
theories/Pagc_spec.v
theories/Pagc_proofs.v
theories/Pagc_props.v
theories/Gaz_model.v
theories/Gaz_spec.v
theories/Gaz_proofs.v
theories/Gaz_props.v
theories/Lic_model.v
theories/Lic_spec.v
theories/Lic_proofs.v
theories/Lic_props.v
theories/Join_spec.v
theories/Join_proofs.v
theories/Join_props.v
theories/Unread_spec.v
theories/Unread_proofs.v
theories/Unread_props.v
theories/Behind_spec.v
theories/Behind_proofs.v
theories/Behind_props.v
theories/Tells_spec.v
theories/Tells_proofs.v
theories/Tells_props.v
theories/Words_spec.v
theories/Words_proofs.v
theories/Words_props.v
theories/Explain_spec.v
theories/Explain_proofs.v
theories/Explain_props.v
theories/Stop_spec.v
theories/Stop_proofs.v
theories/Stop_props.v
theories/PMatch_spec.v
theories/PMatch_proofs.v
theories/PMatch_props.v
theories/Derived_spec.v
theories/Derived_proofs.v
theories/Derived_props.v
theories/Idle_spec.v
theories/Idle_proofs.v
theories/IdleLine_proofs.v
theories/Idle_props.v
theories/LexAdd_proofs.v
theories/LexRich_proofs.v
theories/LexTwice_proofs.v
theories/LexAdd_props.v
