(** The directory data/tests/models/nlu_engine_beverage of the repository: the contents of
    its files, copied.  Of the two long word lists (gazetteers/top_10000_words_stemmed.txt and
    stemming/stems.txt) only some lines are kept: those with a word of the tests, and every
    hundredth one.  The models of the crate crfsuite are given as the weights that the two
    files *.crfsuite hold, in millionths. *)
From Coq Require Import String List ZArith.
Import ListNotations.
Local Open Scope string_scope.

(** builtin_entity_parser/metadata.json *)
Definition file_0 : string := "{
  ""language"": ""en"",
  ""gazetteer_parser"": null
}".

(** custom_entity_parser/metadata.json *)
Definition file_1 : string := "{
  ""language"": ""en"",
  ""parser_directory"": ""parser"",
  ""parser_usage"": 2
}".

(** deterministic_intent_parser/intent_parser.json *)
Definition file_2 : string := "{
  ""config"": {
    ""ignore_stop_words"": true,
    ""max_pattern_length"": 1000,
    ""max_queries"": 100,
    ""unit_name"": ""deterministic_intent_parser""
  },
  ""group_names_to_slot_names"": {
    ""group0"": ""beverage_temperature"",
    ""group1"": ""number_of_cups""
  },
  ""language_code"": ""en"",
  ""patterns"": {
    ""MakeCoffee"": [
      ""^\\s*make\\s*(?P<group1>%SNIPSNUMBER%)\\s*cup\\s*of\\s*coffee\\s*$"",
      ""^\\s*brew\\s*(?P<group1>%SNIPSNUMBER%)\\s*cups\\s*of\\s*coffee\\s*$"",
      ""^\\s*prepare\\s*(?P<group1>%SNIPSNUMBER%)\\s*cup\\s*of\\s*coffee\\s*$""
    ],
    ""MakeTea"": [
      ""^\\s*make\\s*(?P<group0>%TEMPERATURE%)\\s*cup\\s*of\\s*tea\\s*$"",
      ""^\\s*make\\s*(?P<group1>%SNIPSNUMBER%)\\s*tea\\s*cups\\s*$"",
      ""^\\s*i\\s*want\\s*(?P<group1>%SNIPSNUMBER%)\\s*cups\\s*of\\s*(?P<group0>%TEMPERATURE%)\\s*tea\\s*$"",
      ""^\\s*prepare\\s*(?P<group1>%SNIPSNUMBER%)\\s*cup\\s*of\\s*(?P<group0>%TEMPERATURE%)\\s*tea\\s*$""
    ]
  },
  ""slot_names_to_entities"": {
    ""MakeCoffee"": {
      ""number_of_cups"": ""snips/number""
    },
    ""MakeTea"": {
      ""beverage_temperature"": ""Temperature"",
      ""number_of_cups"": ""snips/number""
    }
  },
  ""stop_words_whitelist"": {}
}".

(** deterministic_intent_parser/metadata.json *)
Definition file_3 : string := "{
  ""unit_name"": ""deterministic_intent_parser""
}".

(** lookup_intent_parser/intent_parser.json *)
Definition file_4 : string := "{
  ""config"": {
    ""ignore_stop_words"": true,
    ""unit_name"": ""lookup_intent_parser""
  },
  ""entity_scopes"": [
    {
      ""entity_scope"": {
        ""builtin"": [
          ""snips/number""
        ],
        ""custom"": []
      },
      ""intent_group"": [
        ""MakeCoffee""
      ]
    },
    {
      ""entity_scope"": {
        ""builtin"": [
          ""snips/number""
        ],
        ""custom"": [
          ""Temperature""
        ]
      },
      ""intent_group"": [
        ""MakeTea""
      ]
    }
  ],
  ""intents_names"": [
    ""MakeCoffee"",
    ""MakeTea""
  ],
  ""language_code"": ""en"",
  ""map"": {
    ""-1658454006"": [
      1,
      [
        0
      ]
    ],
    ""-1533083481"": [
      0,
      [
        0
      ]
    ],
    ""-1416877420"": [
      0,
      [
        0
      ]
    ],
    ""-1362288387"": [
      1,
      [
        0,
        1
      ]
    ],
    ""-687749971"": [
      0,
      [
        0
      ]
    ],
    ""1085718744"": [
      1,
      [
        1
      ]
    ],
    ""1413162768"": [
      1,
      [
        0,
        1
      ]
    ]
  },
  ""slots_names"": [
    ""number_of_cups"",
    ""beverage_temperature""
  ],
  ""stop_words_whitelist"": {}
}".

(** lookup_intent_parser/metadata.json *)
Definition file_5 : string := "{
  ""unit_name"": ""lookup_intent_parser""
}".

(** nlu_engine.json *)
Definition file_6 : string := "{
  ""builtin_entity_parser"": ""builtin_entity_parser"",
  ""config"": {
    ""intent_parsers_configs"": [
      {
        ""ignore_stop_words"": true,
        ""unit_name"": ""lookup_intent_parser""
      },
      {
        ""ignore_stop_words"": true,
        ""max_pattern_length"": 1000,
        ""max_queries"": 100,
        ""unit_name"": ""deterministic_intent_parser""
      },
      {
        ""intent_classifier_config"": {
          ""data_augmentation_config"": {
            ""add_builtin_entities_examples"": false,
            ""max_unknown_words"": 0,
            ""min_utterances"": 20,
            ""noise_factor"": 5,
            ""unknown_word_prob"": 0,
            ""unknown_words_replacement_string"": null
          },
          ""featurizer_config"": {
            ""added_cooccurrence_feature_ratio"": 0.25,
            ""cooccurrence_vectorizer_config"": {
              ""filter_stop_words"": true,
              ""keep_order"": true,
              ""unit_name"": ""cooccurrence_vectorizer"",
              ""unknown_words_replacement_string"": null,
              ""window_size"": 5
            },
            ""pvalue_threshold"": 0.4,
            ""tfidf_vectorizer_config"": {
              ""unit_name"": ""tfidf_vectorizer"",
              ""use_stemming"": false,
              ""word_clusters_name"": null
            },
            ""unit_name"": ""featurizer""
          },
          ""noise_reweight_factor"": 1.0,
          ""unit_name"": ""log_reg_intent_classifier""
        },
        ""slot_filler_config"": {
          ""crf_args"": {
            ""algorithm"": ""lbfgs"",
            ""c1"": 0.1,
            ""c2"": 0.1
          },
          ""data_augmentation_config"": {
            ""add_builtin_entities_examples"": true,
            ""capitalization_ratio"": 0.2,
            ""min_utterances"": 200
          },
          ""feature_factory_configs"": [
            {
              ""args"": {
                ""common_words_gazetteer_name"": ""top_10000_words_stemmed"",
                ""n"": 1,
                ""use_stemming"": true
              },
              ""factory_name"": ""ngram"",
              ""offsets"": [
                -2,
                -1,
                0,
                1,
                2
              ]
            },
            {
              ""args"": {
                ""common_words_gazetteer_name"": ""top_10000_words_stemmed"",
                ""n"": 2,
                ""use_stemming"": true
              },
              ""factory_name"": ""ngram"",
              ""offsets"": [
                -2,
                1
              ]
            },
            {
              ""args"": {},
              ""factory_name"": ""is_digit"",
              ""offsets"": [
                -1,
                0,
                1
              ]
            },
            {
              ""args"": {},
              ""factory_name"": ""is_first"",
              ""offsets"": [
                -2,
                -1,
                0
              ]
            },
            {
              ""args"": {},
              ""factory_name"": ""is_last"",
              ""offsets"": [
                0,
                1,
                2
              ]
            },
            {
              ""args"": {
                ""n"": 1
              },
              ""factory_name"": ""shape_ngram"",
              ""offsets"": [
                0
              ]
            },
            {
              ""args"": {
                ""n"": 2
              },
              ""factory_name"": ""shape_ngram"",
              ""offsets"": [
                -1,
                0
              ]
            },
            {
              ""args"": {
                ""n"": 3
              },
              ""factory_name"": ""shape_ngram"",
              ""offsets"": [
                -1
              ]
            },
            {
              ""args"": {
                ""tagging_scheme_code"": 2,
                ""use_stemming"": true
              },
              ""drop_out"": 0.5,
              ""factory_name"": ""entity_match"",
              ""offsets"": [
                -2,
                -1,
                0
              ]
            },
            {
              ""args"": {
                ""tagging_scheme_code"": 1
              },
              ""factory_name"": ""builtin_entity_match"",
              ""offsets"": [
                -2,
                -1,
                0
              ]
            }
          ],
          ""tagging_scheme"": 1,
          ""unit_name"": ""crf_slot_filler""
        },
        ""unit_name"": ""probabilistic_intent_parser""
      }
    ],
    ""unit_name"": ""nlu_engine""
  },
  ""custom_entity_parser"": ""custom_entity_parser"",
  ""dataset_metadata"": {
    ""entities"": {
      ""Temperature"": {
        ""automatically_extensible"": true
      }
    },
    ""language_code"": ""en"",
    ""slot_name_mappings"": {
      ""MakeCoffee"": {
        ""number_of_cups"": ""snips/number""
      },
      ""MakeTea"": {
        ""beverage_temperature"": ""Temperature"",
        ""number_of_cups"": ""snips/number""
      }
    }
  },
  ""intent_parsers"": [
    ""lookup_intent_parser"",
    ""deterministic_intent_parser"",
    ""probabilistic_intent_parser""
  ],
  ""model_version"": ""0.20.0"",
  ""training_package_version"": ""0.20.0"",
  ""unit_name"": ""nlu_engine""
}".

(** probabilistic_intent_parser/intent_classifier/featurizer/cooccurrence_vectorizer/metadata.json *)
Definition file_7 : string := "{
  ""unit_name"": ""cooccurrence_vectorizer""
}".

(** probabilistic_intent_parser/intent_classifier/featurizer/cooccurrence_vectorizer/vectorizer.json *)
Definition file_8 : string := "{
  ""builtin_entity_scope"": [
    ""snips/number""
  ],
  ""config"": {
    ""filter_stop_words"": true,
    ""keep_order"": true,
    ""unit_name"": ""cooccurrence_vectorizer"",
    ""unknown_words_replacement_string"": null,
    ""window_size"": 5
  },
  ""language_code"": ""en"",
  ""word_pairs"": {
    ""0"": [
      ""SNIPSNUMBER"",
      ""coffee""
    ],
    ""1"": [
      ""SNIPSNUMBER"",
      ""tea""
    ],
    ""2"": [
      ""TEMPERATURE"",
      ""tea""
    ],
    ""3"": [
      ""of"",
      ""coffee""
    ],
    ""4"": [
      ""of"",
      ""tea""
    ]
  }
}".

(** probabilistic_intent_parser/intent_classifier/featurizer/featurizer.json *)
Definition file_9 : string := "{
  ""config"": {
    ""added_cooccurrence_feature_ratio"": 0.25,
    ""cooccurrence_vectorizer_config"": {
      ""filter_stop_words"": true,
      ""keep_order"": true,
      ""unit_name"": ""cooccurrence_vectorizer"",
      ""unknown_words_replacement_string"": null,
      ""window_size"": 5
    },
    ""pvalue_threshold"": 0.4,
    ""tfidf_vectorizer_config"": {
      ""unit_name"": ""tfidf_vectorizer"",
      ""use_stemming"": false,
      ""word_clusters_name"": null
    },
    ""unit_name"": ""featurizer""
  },
  ""cooccurrence_vectorizer"": ""cooccurrence_vectorizer"",
  ""language_code"": ""en"",
  ""tfidf_vectorizer"": ""tfidf_vectorizer""
}".

(** probabilistic_intent_parser/intent_classifier/featurizer/metadata.json *)
Definition file_10 : string := "{
  ""unit_name"": ""featurizer""
}".

(** probabilistic_intent_parser/intent_classifier/featurizer/tfidf_vectorizer/metadata.json *)
Definition file_11 : string := "{
  ""unit_name"": ""tfidf_vectorizer""
}".

(** probabilistic_intent_parser/intent_classifier/featurizer/tfidf_vectorizer/vectorizer.json *)
Definition file_12 : string := "{
  ""builtin_entity_scope"": [
    ""snips/number""
  ],
  ""config"": {
    ""unit_name"": ""tfidf_vectorizer"",
    ""use_stemming"": false,
    ""word_clusters_name"": null
  },
  ""language_code"": ""en"",
  ""vectorizer"": {
    ""idf_diag"": [
      4.157000421150114,
      3.176171168138387,
      4.002849741322855,
      3.8693183486983322,
      2.2110902720948,
      3.463853240590168,
      2.904237452654745,
      4.339321977944068,
      2.7707060600302227,
      3.0583881324820035,
      3.176171168138387,
      3.463853240590168,
      3.3097025607629096,
      3.0583881324820035,
      3.0043209112117277,
      1.9057086225436182,
      3.8693183486983322,
      4.157000421150114,
      3.463853240590168,
      2.904237452654745,
      2.5814640603916943,
      4.157000421150114,
      3.2407096892759584
    ],
    ""vocab"": {
      ""?"": 0,
      ""a"": 1,
      ""boiling"": 2,
      ""brew"": 3,
      ""builtinentityfeaturesnipsnumber"": 4,
      ""can"": 5,
      ""coffee"": 6,
      ""cold"": 7,
      ""cup"": 8,
      ""cups"": 9,
      ""entityfeaturetemperature"": 10,
      ""hot"": 11,
      ""i"": 12,
      ""make"": 13,
      ""me"": 14,
      ""of"": 15,
      ""please"": 16,
      ""pls"": 17,
      ""prepare"": 18,
      ""tea"": 19,
      ""the"": 20,
      ""want"": 21,
      ""you"": 22
    }
  }
}".

(** probabilistic_intent_parser/intent_classifier/intent_classifier.json *)
Definition file_13 : string := "{
  ""coeffs"": [
    [
      -0.06628334386039435,
      -0.8643735409565843,
      -0.10162233194496288,
      0.3731953851089176,
      -0.4488682974331702,
      0.17636658950526615,
      0.7184102193303363,
      -0.06865280010172024,
      0.29743179731574193,
      0.0346771374230032,
      -0.1761175736061183,
      -0.13726751217877073,
      -0.8071682094773692,
      -0.05137180345130995,
      -0.11880606643573582,
      -1.0869381590717797,
      0.32523561280093755,
      -0.049393800526571136,
      0.17636658950526615,
      -0.37371467568972533,
      -1.552232223994024,
      -0.049393800526571136,
      -0.07258216842039956,
      1.773882907274256,
      -0.7513363572925229,
      -0.5328718550242008,
      1.773882907274256,
      -0.5328718550242008
    ],
    [
      0.09460701831794095,
      -0.6521590578791224,
      0.2457151029413227,
      -0.1564569232219889,
      -0.501396327528731,
      -0.006657999049205669,
      -0.3254543267957415,
      0.19982413835098595,
      0.09848862892018242,
      0.4824274378008,
      0.4213894656886821,
      0.30004773187161327,
      -0.7342364277722051,
      0.6427012659535128,
      0.5425430291591661,
      -1.2591009549072656,
      -0.18164901959554086,
      0.10599990651714576,
      -0.006657999049205669,
      0.8868013621218258,
      -1.5676891353952978,
      0.10599990651714576,
      -0.2459922083905006,
      -0.8070607856886259,
      1.5929339342221138,
      1.2525103361872103,
      -0.8070607856886259,
      1.2525103361872103
    ],
    [
      -0.07342804814279959,
      0.5198593428656567,
      -0.1581096606820083,
      -0.26280946680431544,
      0.00904118342688167,
      -0.2318387692350015,
      -0.4684730287438426,
      -0.1304212706183918,
      -0.44631551521307367,
      -0.5533957320987131,
      -0.29099767056562215,
      -0.21324635553933227,
      0.5486473938992574,
      -0.5604628287636957,
      -0.4863443376102945,
      0.7764987437479216,
      -0.17070720658830346,
      -0.09943826061076572,
      -0.2318387692350015,
      -0.5248553684542913,
      1.3219543672776477,
      -0.09943826061076572,
      -0.025792600962746038,
      -1.1511881362239413,
      -0.9891682959063401,
      -0.8725891493847063,
      -1.1511881362239413,
      -0.8725891493847063
    ]
  ],
  ""config"": {
    ""data_augmentation_config"": {
      ""add_builtin_entities_examples"": false,
      ""max_unknown_words"": 0,
      ""min_utterances"": 20,
      ""noise_factor"": 5,
      ""unknown_word_prob"": 0,
      ""unknown_words_replacement_string"": null
    },
    ""featurizer_config"": {
      ""added_cooccurrence_feature_ratio"": 0.25,
      ""cooccurrence_vectorizer_config"": {
        ""filter_stop_words"": true,
        ""keep_order"": true,
        ""unit_name"": ""cooccurrence_vectorizer"",
        ""unknown_words_replacement_string"": null,
        ""window_size"": 5
      },
      ""pvalue_threshold"": 0.4,
      ""tfidf_vectorizer_config"": {
        ""unit_name"": ""tfidf_vectorizer"",
        ""use_stemming"": false,
        ""word_clusters_name"": null
      },
      ""unit_name"": ""featurizer""
    },
    ""noise_reweight_factor"": 1.0,
    ""unit_name"": ""log_reg_intent_classifier""
  },
  ""featurizer"": ""featurizer"",
  ""intent_list"": [
    ""MakeCoffee"",
    ""MakeTea"",
    null
  ],
  ""intercept"": [
    -0.797273067375694,
    -0.7793999633924479,
    0.36488637926624495
  ],
  ""t_"": 3221.0
}".

(** probabilistic_intent_parser/intent_classifier/metadata.json *)
Definition file_14 : string := "{
  ""unit_name"": ""log_reg_intent_classifier""
}".

(** probabilistic_intent_parser/intent_parser.json *)
Definition file_15 : string := "{
  ""config"": {
    ""intent_classifier_config"": {
      ""data_augmentation_config"": {
        ""add_builtin_entities_examples"": false,
        ""max_unknown_words"": 0,
        ""min_utterances"": 20,
        ""noise_factor"": 5,
        ""unknown_word_prob"": 0,
        ""unknown_words_replacement_string"": null
      },
      ""featurizer_config"": {
        ""added_cooccurrence_feature_ratio"": 0.25,
        ""cooccurrence_vectorizer_config"": {
          ""filter_stop_words"": true,
          ""keep_order"": true,
          ""unit_name"": ""cooccurrence_vectorizer"",
          ""unknown_words_replacement_string"": null,
          ""window_size"": 5
        },
        ""pvalue_threshold"": 0.4,
        ""tfidf_vectorizer_config"": {
          ""unit_name"": ""tfidf_vectorizer"",
          ""use_stemming"": false,
          ""word_clusters_name"": null
        },
        ""unit_name"": ""featurizer""
      },
      ""noise_reweight_factor"": 1.0,
      ""unit_name"": ""log_reg_intent_classifier""
    },
    ""slot_filler_config"": {
      ""crf_args"": {
        ""algorithm"": ""lbfgs"",
        ""c1"": 0.1,
        ""c2"": 0.1
      },
      ""data_augmentation_config"": {
        ""add_builtin_entities_examples"": true,
        ""capitalization_ratio"": 0.2,
        ""min_utterances"": 200
      },
      ""feature_factory_configs"": [
        {
          ""args"": {
            ""common_words_gazetteer_name"": ""top_10000_words_stemmed"",
            ""n"": 1,
            ""use_stemming"": true
          },
          ""factory_name"": ""ngram"",
          ""offsets"": [
            -2,
            -1,
            0,
            1,
            2
          ]
        },
        {
          ""args"": {
            ""common_words_gazetteer_name"": ""top_10000_words_stemmed"",
            ""n"": 2,
            ""use_stemming"": true
          },
          ""factory_name"": ""ngram"",
          ""offsets"": [
            -2,
            1
          ]
        },
        {
          ""args"": {},
          ""factory_name"": ""is_digit"",
          ""offsets"": [
            -1,
            0,
            1
          ]
        },
        {
          ""args"": {},
          ""factory_name"": ""is_first"",
          ""offsets"": [
            -2,
            -1,
            0
          ]
        },
        {
          ""args"": {},
          ""factory_name"": ""is_last"",
          ""offsets"": [
            0,
            1,
            2
          ]
        },
        {
          ""args"": {
            ""n"": 1
          },
          ""factory_name"": ""shape_ngram"",
          ""offsets"": [
            0
          ]
        },
        {
          ""args"": {
            ""n"": 2
          },
          ""factory_name"": ""shape_ngram"",
          ""offsets"": [
            -1,
            0
          ]
        },
        {
          ""args"": {
            ""n"": 3
          },
          ""factory_name"": ""shape_ngram"",
          ""offsets"": [
            -1
          ]
        },
        {
          ""args"": {
            ""tagging_scheme_code"": 2,
            ""use_stemming"": true
          },
          ""drop_out"": 0.5,
          ""factory_name"": ""entity_match"",
          ""offsets"": [
            -2,
            -1,
            0
          ]
        },
        {
          ""args"": {
            ""tagging_scheme_code"": 1
          },
          ""factory_name"": ""builtin_entity_match"",
          ""offsets"": [
            -2,
            -1,
            0
          ]
        }
      ],
      ""tagging_scheme"": 1,
      ""unit_name"": ""crf_slot_filler""
    },
    ""unit_name"": ""probabilistic_intent_parser""
  },
  ""slot_fillers"": [
    {
      ""intent"": ""MakeCoffee"",
      ""slot_filler_name"": ""slot_filler_0""
    },
    {
      ""intent"": ""MakeTea"",
      ""slot_filler_name"": ""slot_filler_1""
    }
  ]
}".

(** probabilistic_intent_parser/metadata.json *)
Definition file_16 : string := "{
  ""unit_name"": ""probabilistic_intent_parser""
}".

(** probabilistic_intent_parser/slot_filler_0/metadata.json *)
Definition file_17 : string := "{
  ""unit_name"": ""crf_slot_filler""
}".

(** probabilistic_intent_parser/slot_filler_0/slot_filler.json *)
Definition file_18 : string := "{
  ""config"": {
    ""crf_args"": {
      ""algorithm"": ""lbfgs"",
      ""c1"": 0.1,
      ""c2"": 0.1
    },
    ""data_augmentation_config"": {
      ""add_builtin_entities_examples"": true,
      ""capitalization_ratio"": 0.2,
      ""min_utterances"": 200
    },
    ""feature_factory_configs"": [
      {
        ""args"": {
          ""common_words_gazetteer_name"": ""top_10000_words_stemmed"",
          ""language_code"": ""en"",
          ""n"": 1,
          ""use_stemming"": true
        },
        ""factory_name"": ""ngram"",
        ""offsets"": [
          -2,
          -1,
          0,
          1,
          2
        ]
      },
      {
        ""args"": {
          ""common_words_gazetteer_name"": ""top_10000_words_stemmed"",
          ""language_code"": ""en"",
          ""n"": 2,
          ""use_stemming"": true
        },
        ""factory_name"": ""ngram"",
        ""offsets"": [
          -2,
          1
        ]
      },
      {
        ""args"": {},
        ""factory_name"": ""is_digit"",
        ""offsets"": [
          -1,
          0,
          1
        ]
      },
      {
        ""args"": {},
        ""factory_name"": ""is_first"",
        ""offsets"": [
          -2,
          -1,
          0
        ]
      },
      {
        ""args"": {},
        ""factory_name"": ""is_last"",
        ""offsets"": [
          0,
          1,
          2
        ]
      },
      {
        ""args"": {
          ""language_code"": ""en"",
          ""n"": 1
        },
        ""factory_name"": ""shape_ngram"",
        ""offsets"": [
          0
        ]
      },
      {
        ""args"": {
          ""language_code"": ""en"",
          ""n"": 2
        },
        ""factory_name"": ""shape_ngram"",
        ""offsets"": [
          -1,
          0
        ]
      },
      {
        ""args"": {
          ""language_code"": ""en"",
          ""n"": 3
        },
        ""factory_name"": ""shape_ngram"",
        ""offsets"": [
          -1
        ]
      },
      {
        ""args"": {
          ""entities"": [],
          ""tagging_scheme_code"": 2,
          ""use_stemming"": true
        },
        ""drop_out"": 0.5,
        ""factory_name"": ""entity_match"",
        ""offsets"": [
          -2,
          -1,
          0
        ]
      },
      {
        ""args"": {
          ""entity_labels"": [
            ""snips/amountOfMoney"",
            ""snips/date"",
            ""snips/datePeriod"",
            ""snips/datetime"",
            ""snips/duration"",
            ""snips/number"",
            ""snips/ordinal"",
            ""snips/percentage"",
            ""snips/temperature"",
            ""snips/time"",
            ""snips/timePeriod""
          ],
          ""language_code"": ""en"",
          ""tagging_scheme_code"": 1
        },
        ""factory_name"": ""builtin_entity_match"",
        ""offsets"": [
          -2,
          -1,
          0
        ]
      }
    ],
    ""tagging_scheme"": 1,
    ""unit_name"": ""crf_slot_filler""
  },
  ""crf_model_file"": ""model55imurmx.crfsuite"",
  ""intent"": ""MakeCoffee"",
  ""language_code"": ""en"",
  ""slot_name_mapping"": {
    ""number_of_cups"": ""snips/number""
  }
}".

(** probabilistic_intent_parser/slot_filler_1/metadata.json *)
Definition file_19 : string := "{
  ""unit_name"": ""crf_slot_filler""
}".

(** probabilistic_intent_parser/slot_filler_1/slot_filler.json *)
Definition file_20 : string := "{
  ""config"": {
    ""crf_args"": {
      ""algorithm"": ""lbfgs"",
      ""c1"": 0.1,
      ""c2"": 0.1
    },
    ""data_augmentation_config"": {
      ""add_builtin_entities_examples"": true,
      ""capitalization_ratio"": 0.2,
      ""min_utterances"": 200
    },
    ""feature_factory_configs"": [
      {
        ""args"": {
          ""common_words_gazetteer_name"": ""top_10000_words_stemmed"",
          ""language_code"": ""en"",
          ""n"": 1,
          ""use_stemming"": true
        },
        ""factory_name"": ""ngram"",
        ""offsets"": [
          -2,
          -1,
          0,
          1,
          2
        ]
      },
      {
        ""args"": {
          ""common_words_gazetteer_name"": ""top_10000_words_stemmed"",
          ""language_code"": ""en"",
          ""n"": 2,
          ""use_stemming"": true
        },
        ""factory_name"": ""ngram"",
        ""offsets"": [
          -2,
          1
        ]
      },
      {
        ""args"": {},
        ""factory_name"": ""is_digit"",
        ""offsets"": [
          -1,
          0,
          1
        ]
      },
      {
        ""args"": {},
        ""factory_name"": ""is_first"",
        ""offsets"": [
          -2,
          -1,
          0
        ]
      },
      {
        ""args"": {},
        ""factory_name"": ""is_last"",
        ""offsets"": [
          0,
          1,
          2
        ]
      },
      {
        ""args"": {
          ""language_code"": ""en"",
          ""n"": 1
        },
        ""factory_name"": ""shape_ngram"",
        ""offsets"": [
          0
        ]
      },
      {
        ""args"": {
          ""language_code"": ""en"",
          ""n"": 2
        },
        ""factory_name"": ""shape_ngram"",
        ""offsets"": [
          -1,
          0
        ]
      },
      {
        ""args"": {
          ""language_code"": ""en"",
          ""n"": 3
        },
        ""factory_name"": ""shape_ngram"",
        ""offsets"": [
          -1
        ]
      },
      {
        ""args"": {
          ""entities"": [
            ""Temperature""
          ],
          ""tagging_scheme_code"": 2,
          ""use_stemming"": true
        },
        ""drop_out"": 0.5,
        ""factory_name"": ""entity_match"",
        ""offsets"": [
          -2,
          -1,
          0
        ]
      },
      {
        ""args"": {
          ""entity_labels"": [
            ""snips/amountOfMoney"",
            ""snips/date"",
            ""snips/datePeriod"",
            ""snips/datetime"",
            ""snips/duration"",
            ""snips/number"",
            ""snips/ordinal"",
            ""snips/percentage"",
            ""snips/temperature"",
            ""snips/time"",
            ""snips/timePeriod""
          ],
          ""language_code"": ""en"",
          ""tagging_scheme_code"": 1
        },
        ""factory_name"": ""builtin_entity_match"",
        ""offsets"": [
          -2,
          -1,
          0
        ]
      }
    ],
    ""tagging_scheme"": 1,
    ""unit_name"": ""crf_slot_filler""
  },
  ""crf_model_file"": ""model8a9dqxnp.crfsuite"",
  ""intent"": ""MakeTea"",
  ""language_code"": ""en"",
  ""slot_name_mapping"": {
    ""beverage_temperature"": ""Temperature"",
    ""number_of_cups"": ""snips/number""
  }
}".

(** resources/en/gazetteers/top_10000_words_stemmed.txt *)
Definition file_21 : string := "a
advoc
alumni
applic
attempt
barn
bhutan
bore
builder
cardiac
channel
citysearch
commerc
context
criterion
cup
dealtim
destroy
distributor
duplic
embassi
etc
factor
finish
foul
garden
gorgeous
half
heritag
hot
ht
increas
into
jerri
kenya
laundri
limit
luke
make
martin
me
metadata
model
muslim
newslett
nw
of
organis
parliamentari
pest
pledg
pre
protocol
ralph
rehab
rfc
rule
scotia
shanghai
ski
southwest
std
suitabl
tamil
tea
their
toilet
tribun
two
union
vehicl
vt
which
wu".

(** resources/en/metadata.json *)
Definition file_22 : string := "{
  ""author"": ""Rosa Stern"",
  ""description"": ""Language resources for English"",
  ""email"": ""rosa.stern@snips.ai"",
  ""gazetteers"": [
    ""top_10000_words_stemmed""
  ],
  ""language"": ""en"",
  ""license"": ""Apache License, Version 2.0"",
  ""name"": ""snips_nlu_en"",
  ""noise"": ""noise"",
  ""snips_nlu_version"": "">=0.1.0,<1.0.0"",
  ""stems"": ""stems"",
  ""stop_words"": ""stop_words"",
  ""url"": ""https://snips-nlu.readthedocs.io"",
  ""version"": ""0.2.2"",
  ""word_clusters"": []
}".

(** resources/en/stemming/stems.txt *)
Definition file_23 : string := "ab,abs
albani,albany
arm,armed,arming,arms
battl,battle
bow,bowed,bowing,bows
catalog,catalogs
clear,cleared,clearing,clearly,clears
coffe,coffee
condo,condos
crap,craps
cup,cups
departur,departure
divers,diverse,diversity
elvi,elvis
exampl,example,examples
filter,filtering,filters
futur,future,futures
hand,handed,handing,hands
hwi,hwy
insur,insurance,insured
kentucki,kentucky
lightn,lightning
make,made,makes,making
massiv,massive
monitor,monitored,monitoring,monitors
notic,notice,noticed,notices,noticing
page,pages
pictur,picture,pictured,pictures,picturing
pleas,please,pleased,pleases,pleasing
presenc,presence
qualifi,qualified,qualifies,qualify,qualifying
relax,relaxation,relaxed,relaxes,relaxing
robot,robots
select,selected,selecting,selection,selections,selective,selects
slow,slowed,slowing,slows
stimul,stimulate,stimulated,stimulates,stimulating
swinger,swingers
thorough,thoroughly
tropic,tropical
vertic,vertical
win,winning,wins,won".

(** resources/en/stop_words.txt *)
Definition file_24 : string := "!
?
a
about
allright
alright
although
an
and
any
besides
but
can
hello
hey
hi
instead
just
lol
man
me
my
now
ok
only
please
pls
so
some
such
that
the
then
these
this
those
though
to
too
very
while
yo
you
your
yours
yourself
".

Definition beverage_files : list (string * string) :=
  [("builtin_entity_parser/metadata.json", file_0);
   ("custom_entity_parser/metadata.json", file_1);
   ("deterministic_intent_parser/intent_parser.json", file_2);
   ("deterministic_intent_parser/metadata.json", file_3);
   ("lookup_intent_parser/intent_parser.json", file_4);
   ("lookup_intent_parser/metadata.json", file_5);
   ("nlu_engine.json", file_6);
   ("probabilistic_intent_parser/intent_classifier/featurizer/cooccurrence_vectorizer/metadata.json", file_7);
   ("probabilistic_intent_parser/intent_classifier/featurizer/cooccurrence_vectorizer/vectorizer.json", file_8);
   ("probabilistic_intent_parser/intent_classifier/featurizer/featurizer.json", file_9);
   ("probabilistic_intent_parser/intent_classifier/featurizer/metadata.json", file_10);
   ("probabilistic_intent_parser/intent_classifier/featurizer/tfidf_vectorizer/metadata.json", file_11);
   ("probabilistic_intent_parser/intent_classifier/featurizer/tfidf_vectorizer/vectorizer.json", file_12);
   ("probabilistic_intent_parser/intent_classifier/intent_classifier.json", file_13);
   ("probabilistic_intent_parser/intent_classifier/metadata.json", file_14);
   ("probabilistic_intent_parser/intent_parser.json", file_15);
   ("probabilistic_intent_parser/metadata.json", file_16);
   ("probabilistic_intent_parser/slot_filler_0/metadata.json", file_17);
   ("probabilistic_intent_parser/slot_filler_0/slot_filler.json", file_18);
   ("probabilistic_intent_parser/slot_filler_1/metadata.json", file_19);
   ("probabilistic_intent_parser/slot_filler_1/slot_filler.json", file_20);
   ("resources/en/gazetteers/top_10000_words_stemmed.txt", file_21);
   ("resources/en/metadata.json", file_22);
   ("resources/en/stemming/stems.txt", file_23);
   ("resources/en/stop_words.txt", file_24)].

(** slot_filler_0/model55imurmx.crfsuite: the labels, the weights of attributes (attribute, label) and of
    transitions (label, next label) *)
Definition coffee_labels : list string := ["Tw=="; "Qi1udW1iZXJfb2ZfY3Vwcw=="; "SS1udW1iZXJfb2ZfY3Vwcw=="].
Definition coffee_states : list (string * string * Z) :=
  [("ngram_1:rare_word", "Tw==", 184143);
   ("ngram_1[+1]:rare_word", "Tw==", 28925);
   ("ngram_2[+1]:rare_word cup", "Tw==", 28925);
   ("is_digit[+1]:1", "Tw==", 28925);
   ("is_first:1", "Tw==", 1300789);
   ("shape_ngram_1:xxx", "Tw==", 2341546);
   ("shape_ngram_1:xxx", "Qi1udW1iZXJfb2ZfY3Vwcw==", (-1177754));
   ("shape_ngram_1:xxx", "SS1udW1iZXJfb2ZfY3Vwcw==", (-661102));
   ("shape_ngram_2:xxx xX", "Tw==", 28925);
   ("ngram_1[-1]:rare_word", "Tw==", (-204760));
   ("ngram_1[-1]:rare_word", "Qi1udW1iZXJfb2ZfY3Vwcw==", 490004);
   ("ngram_1[+1]:cup", "Qi1udW1iZXJfb2ZfY3Vwcw==", 640981);
   ("ngram_1[+1]:cup", "SS1udW1iZXJfb2ZfY3Vwcw==", 993942);
   ("ngram_1[+2]:of", "Qi1udW1iZXJfb2ZfY3Vwcw==", 640981);
   ("ngram_1[+2]:of", "SS1udW1iZXJfb2ZfY3Vwcw==", 993942);
   ("ngram_2[+1]:cup of", "Qi1udW1iZXJfb2ZfY3Vwcw==", 640981);
   ("ngram_2[+1]:cup of", "SS1udW1iZXJfb2ZfY3Vwcw==", 993942);
   ("builtin_entity_match_snips/datePeriod:B-", "Qi1udW1iZXJfb2ZfY3Vwcw==", 1611605);
   ("builtin_entity_match_snips/datePeriod:B-", "SS1udW1iZXJfb2ZfY3Vwcw==", 208497);
   ("builtin_entity_match_snips/datetime:B-", "Qi1udW1iZXJfb2ZfY3Vwcw==", 1611605);
   ("builtin_entity_match_snips/datetime:B-", "SS1udW1iZXJfb2ZfY3Vwcw==", 208497);
   ("builtin_entity_match_snips/number:B-", "Qi1udW1iZXJfb2ZfY3Vwcw==", 2152495);
   ("builtin_entity_match_snips/temperature:B-", "Qi1udW1iZXJfb2ZfY3Vwcw==", 2152495);
   ("ngram_1:cup", "Tw==", 854050);
   ("ngram_1[+1]:of", "Tw==", 854050);
   ("ngram_1[+2]:coffe", "Tw==", 854050);
   ("ngram_2[+1]:of coffe", "Tw==", 854050);
   ("is_last[+2]:1", "Tw==", 452533);
   ("shape_ngram_2:xxx xxx", "Tw==", 316880);
   ("builtin_entity_match_snips/number[-1]:B-", "Tw==", (-154441));
   ("builtin_entity_match_snips/number[-1]:B-", "SS1udW1iZXJfb2ZfY3Vwcw==", 289502);
   ("builtin_entity_match_snips/temperature[-1]:B-", "Tw==", (-154441));
   ("builtin_entity_match_snips/temperature[-1]:B-", "SS1udW1iZXJfb2ZfY3Vwcw==", 289502);
   ("ngram_1[-1]:cup", "Tw==", 227214);
   ("ngram_1:of", "Tw==", 227214);
   ("ngram_1[+1]:coffe", "Tw==", 227214);
   ("is_last[+1]:1", "Tw==", 143288);
   ("shape_ngram_2[-1]:xxx xxx", "Tw==", 274179);
   ("shape_ngram_2[-1]:xxx xxx", "Qi1udW1iZXJfb2ZfY3Vwcw==", (-426701));
   ("shape_ngram_3[-1]:xxx xxx xxx", "Tw==", (-498643));
   ("shape_ngram_3[-1]:xxx xxx xxx", "SS1udW1iZXJfb2ZfY3Vwcw==", 251861);
   ("ngram_1[-2]:cup", "Tw==", 384264);
   ("ngram_1[-1]:of", "Tw==", 384264);
   ("ngram_1:coffe", "Tw==", 384264);
   ("ngram_2[-2]:cup of", "Tw==", 384264);
   ("is_last:1", "Tw==", 997764);
   ("ngram_1[-1]:make", "Tw==", 210089);
   ("ngram_1:me", "Tw==", 210089);
   ("ngram_1[+1]:twenti", "Tw==", 16635);
   ("ngram_1[+2]:one", "Tw==", 127143);
   ("ngram_2[+1]:twenti one", "Tw==", 16635);
   ("ngram_1[-2]:make", "Qi1udW1iZXJfb2ZfY3Vwcw==", 310332);
   ("ngram_1[-1]:me", "Qi1udW1iZXJfb2ZfY3Vwcw==", 310332);
   ("ngram_2[-2]:make me", "Qi1udW1iZXJfb2ZfY3Vwcw==", 310332);
   ("builtin_entity_match_snips/time:B-", "Qi1udW1iZXJfb2ZfY3Vwcw==", 1408546);
   ("builtin_entity_match_snips/time:B-", "SS1udW1iZXJfb2ZfY3Vwcw==", 256434);
   ("ngram_1[-1]:twenti", "SS1udW1iZXJfb2ZfY3Vwcw==", 232727);
   ("ngram_1:one", "Qi1udW1iZXJfb2ZfY3Vwcw==", 231199);
   ("ngram_1:one", "SS1udW1iZXJfb2ZfY3Vwcw==", 209704);
   ("builtin_entity_match_snips/datePeriod:I-", "SS1udW1iZXJfb2ZfY3Vwcw==", 232727);
   ("builtin_entity_match_snips/datetime:I-", "SS1udW1iZXJfb2ZfY3Vwcw==", 232727);
   ("builtin_entity_match_snips/number:I-", "SS1udW1iZXJfb2ZfY3Vwcw==", 2338117);
   ("builtin_entity_match_snips/temperature:I-", "SS1udW1iZXJfb2ZfY3Vwcw==", 2338117);
   ("builtin_entity_match_snips/time[-1]:B-", "Tw==", (-36347));
   ("builtin_entity_match_snips/time[-1]:B-", "SS1udW1iZXJfb2ZfY3Vwcw==", 139915);
   ("builtin_entity_match_snips/time:I-", "SS1udW1iZXJfb2ZfY3Vwcw==", 232727);
   ("ngram_1[-1]:one", "Tw==", 9612);
   ("builtin_entity_match_snips/number[-1]:I-", "SS1udW1iZXJfb2ZfY3Vwcw==", 290041);
   ("builtin_entity_match_snips/temperature[-1]:I-", "SS1udW1iZXJfb2ZfY3Vwcw==", 290041);
   ("ngram_1[-2]:of", "Tw==", 225697);
   ("ngram_1[-1]:coffe", "Tw==", 225697);
   ("ngram_1:pleas", "Tw==", 225697);
   ("ngram_2[-2]:of coffe", "Tw==", 225697);
   ("ngram_1[-1]:can", "Tw==", 36631);
   ("ngram_1:you", "Tw==", 36631);
   ("ngram_1[+1]:prepar", "Tw==", 36631);
   ("ngram_1[-2]:can", "Tw==", 131297);
   ("ngram_1[-1]:you", "Tw==", 131297);
   ("ngram_1:prepar", "Tw==", 131297);
   ("ngram_1[+1]:three", "Tw==", 38992);
   ("ngram_1[+2]:hundr", "Tw==", 38992);
   ("ngram_2[-2]:can you", "Tw==", 131297);
   ("ngram_2[+1]:three hundr", "Tw==", 38992);
   ("ngram_1[-2]:you", "Qi1udW1iZXJfb2ZfY3Vwcw==", 304333);
   ("ngram_1[-1]:prepar", "Qi1udW1iZXJfb2ZfY3Vwcw==", 304333);
   ("ngram_2[-2]:you prepar", "Qi1udW1iZXJfb2ZfY3Vwcw==", 304333);
   ("ngram_1[-1]:three", "SS1udW1iZXJfb2ZfY3Vwcw==", 128100);
   ("ngram_1:hundr", "SS1udW1iZXJfb2ZfY3Vwcw==", 128100);
   ("ngram_1[+1]:and", "SS1udW1iZXJfb2ZfY3Vwcw==", 128100);
   ("ngram_1[+2]:four", "SS1udW1iZXJfb2ZfY3Vwcw==", 128100);
   ("ngram_2[+1]:and four", "SS1udW1iZXJfb2ZfY3Vwcw==", 128100);
   ("ngram_1[-2]:three", "SS1udW1iZXJfb2ZfY3Vwcw==", 124379);
   ("ngram_1[-1]:hundr", "SS1udW1iZXJfb2ZfY3Vwcw==", 124379);
   ("ngram_1:and", "SS1udW1iZXJfb2ZfY3Vwcw==", 124379);
   ("ngram_1[+1]:four", "SS1udW1iZXJfb2ZfY3Vwcw==", 124379);
   ("ngram_2[-2]:three hundr", "SS1udW1iZXJfb2ZfY3Vwcw==", 124379);
   ("ngram_2[+1]:four cup", "SS1udW1iZXJfb2ZfY3Vwcw==", 124379);
   ("ngram_1[-2]:hundr", "SS1udW1iZXJfb2ZfY3Vwcw==", 354578);
   ("ngram_1[-1]:and", "SS1udW1iZXJfb2ZfY3Vwcw==", 354578);
   ("ngram_1:four", "SS1udW1iZXJfb2ZfY3Vwcw==", 354578);
   ("ngram_2[-2]:hundr and", "SS1udW1iZXJfb2ZfY3Vwcw==", 354578);
   ("ngram_1:five", "Qi1udW1iZXJfb2ZfY3Vwcw==", 236276)]%Z.
Definition coffee_transitions : list (string * string * Z) :=
  [("Tw==", "Tw==", 2056802);
   ("Tw==", "Qi1udW1iZXJfb2ZfY3Vwcw==", 1637422);
   ("Qi1udW1iZXJfb2ZfY3Vwcw==", "Tw==", (-274811));
   ("Qi1udW1iZXJfb2ZfY3Vwcw==", "SS1udW1iZXJfb2ZfY3Vwcw==", 1066362);
   ("SS1udW1iZXJfb2ZfY3Vwcw==", "Tw==", (-404036));
   ("SS1udW1iZXJfb2ZfY3Vwcw==", "SS1udW1iZXJfb2ZfY3Vwcw==", 1331991)]%Z.

(** slot_filler_1/model8a9dqxnp.crfsuite: the labels, the weights of attributes (attribute, label) and of
    transitions (label, next label) *)
Definition tea_labels : list string := ["Tw=="; "Qi1udW1iZXJfb2ZfY3Vwcw=="; "Qi1iZXZlcmFnZV90ZW1wZXJhdHVyZQ=="; "SS1udW1iZXJfb2ZfY3Vwcw=="; "SS1iZXZlcmFnZV90ZW1wZXJhdHVyZQ=="].
Definition tea_states : list (string * string * Z) :=
  [("ngram_1:can", "Tw==", 55140);
   ("ngram_1[+1]:you", "Tw==", 55140);
   ("ngram_1[+2]:prepar", "Tw==", 55140);
   ("ngram_2[+1]:you prepar", "Tw==", 55140);
   ("is_first:1", "Tw==", 1477385);
   ("shape_ngram_1:xxx", "Tw==", 2886875);
   ("shape_ngram_1:xxx", "Qi1udW1iZXJfb2ZfY3Vwcw==", (-490474));
   ("shape_ngram_1:xxx", "Qi1iZXZlcmFnZV90ZW1wZXJhdHVyZQ==", (-739399));
   ("shape_ngram_1:xxx", "SS1iZXZlcmFnZV90ZW1wZXJhdHVyZQ==", (-317560));
   ("shape_ngram_2:xxx xxx", "Tw==", 519908);
   ("shape_ngram_2:xxx xxx", "Qi1udW1iZXJfb2ZfY3Vwcw==", (-224794));
   ("shape_ngram_2:xxx xxx", "Qi1iZXZlcmFnZV90ZW1wZXJhdHVyZQ==", 16568);
   ("shape_ngram_2:xxx xxx", "SS1iZXZlcmFnZV90ZW1wZXJhdHVyZQ==", (-87811));
   ("ngram_1[-1]:can", "Tw==", 49572);
   ("ngram_1:you", "Tw==", 49572);
   ("ngram_1[+1]:prepar", "Tw==", 49572);
   ("ngram_1[+2]:rare_word", "Tw==", (-254789));
   ("ngram_1[+2]:rare_word", "Qi1iZXZlcmFnZV90ZW1wZXJhdHVyZQ==", 277091);
   ("ngram_1[+2]:rare_word", "SS1iZXZlcmFnZV90ZW1wZXJhdHVyZQ==", 488323);
   ("is_first[-1]:1", "Tw==", 1357785);
   ("shape_ngram_2[-1]:xxx xxx", "Tw==", 413911);
   ("shape_ngram_2[-1]:xxx xxx", "Qi1udW1iZXJfb2ZfY3Vwcw==", (-103022));
   ("shape_ngram_2[-1]:xxx xxx", "Qi1iZXZlcmFnZV90ZW1wZXJhdHVyZQ==", (-156905));
   ("shape_ngram_2[-1]:xxx xxx", "SS1udW1iZXJfb2ZfY3Vwcw==", 23875);
   ("shape_ngram_3[-1]:xxx xxx xxx", "Tw==", (-935622));
   ("shape_ngram_3[-1]:xxx xxx xxx", "Qi1iZXZlcmFnZV90ZW1wZXJhdHVyZQ==", 597352);
   ("shape_ngram_3[-1]:xxx xxx xxx", "SS1udW1iZXJfb2ZfY3Vwcw==", 129670);
   ("ngram_1[-2]:can", "Tw==", 297688);
   ("ngram_1[-1]:you", "Tw==", 297688);
   ("ngram_1:prepar", "Tw==", 297688);
   ("ngram_1[+1]:rare_word", "Tw==", 283868);
   ("ngram_1[+2]:cup", "Tw==", 76083);
   ("ngram_1[+2]:cup", "SS1udW1iZXJfb2ZfY3Vwcw==", 136918);
   ("ngram_2[-2]:can you", "Tw==", 297688);
   ("is_first[-2]:1", "Tw==", 102961);
   ("is_first[-2]:1", "Qi1udW1iZXJfb2ZfY3Vwcw==", 502054);
   ("ngram_1[-2]:you", "Qi1udW1iZXJfb2ZfY3Vwcw==", 363917);
   ("ngram_1[-1]:prepar", "Qi1udW1iZXJfb2ZfY3Vwcw==", 363917);
   ("ngram_1:rare_word", "Qi1iZXZlcmFnZV90ZW1wZXJhdHVyZQ==", 151067);
   ("ngram_1[+1]:cup", "Tw==", (-1478844));
   ("ngram_1[+1]:cup", "Qi1udW1iZXJfb2ZfY3Vwcw==", 177407);
   ("ngram_1[+1]:cup", "Qi1iZXZlcmFnZV90ZW1wZXJhdHVyZQ==", 556378);
   ("ngram_1[+2]:of", "Qi1udW1iZXJfb2ZfY3Vwcw==", 238340);
   ("ngram_1[+2]:of", "Qi1iZXZlcmFnZV90ZW1wZXJhdHVyZQ==", 964014);
   ("ngram_1[+2]:of", "SS1udW1iZXJfb2ZfY3Vwcw==", 559941);
   ("ngram_2[-2]:you prepar", "Qi1udW1iZXJfb2ZfY3Vwcw==", 363917);
   ("ngram_2[+1]:cup of", "Qi1udW1iZXJfb2ZfY3Vwcw==", 238340);
   ("ngram_2[+1]:cup of", "Qi1iZXZlcmFnZV90ZW1wZXJhdHVyZQ==", 964014);
   ("ngram_2[+1]:cup of", "SS1udW1iZXJfb2ZfY3Vwcw==", 559941);
   ("is_digit:1", "Qi1udW1iZXJfb2ZfY3Vwcw==", 7236);
   ("shape_ngram_1:xX", "Tw==", 490257);
   ("shape_ngram_2[-1]:xxx xX", "Tw==", 490257);
   ("shape_ngram_2:xX xxx", "Qi1udW1iZXJfb2ZfY3Vwcw==", 7236);
   ("shape_ngram_3[-1]:xxx xX xxx", "Qi1udW1iZXJfb2ZfY3Vwcw==", 7236);
   ("builtin_entity_match_snips/datePeriod:B-", "Qi1udW1iZXJfb2ZfY3Vwcw==", 1557325);
   ("builtin_entity_match_snips/datePeriod:B-", "SS1udW1iZXJfb2ZfY3Vwcw==", 247813);
   ("builtin_entity_match_snips/datetime:B-", "Qi1udW1iZXJfb2ZfY3Vwcw==", 1557325);
   ("builtin_entity_match_snips/datetime:B-", "SS1udW1iZXJfb2ZfY3Vwcw==", 247813);
   ("builtin_entity_match_snips/number:B-", "Qi1udW1iZXJfb2ZfY3Vwcw==", 2056239);
   ("builtin_entity_match_snips/temperature:B-", "Qi1udW1iZXJfb2ZfY3Vwcw==", 2056239);
   ("ngram_1[-1]:rare_word", "SS1iZXZlcmFnZV90ZW1wZXJhdHVyZQ==", 1018099);
   ("ngram_1:cup", "Tw==", 1441527);
   ("ngram_1[+1]:of", "Tw==", 1396787);
   ("ngram_1[+2]:cold", "Tw==", 57);
   ("ngram_2[+1]:of cold", "Tw==", 57);
   ("is_digit[-1]:1", "Tw==", 2391);
   ("shape_ngram_2[-1]:xX xxx", "Tw==", 2391);
   ("shape_ngram_3[-1]:xX xxx xxx", "Tw==", 2391);
   ("builtin_entity_match_snips/datePeriod[-1]:B-", "Tw==", 189875);
   ("builtin_entity_match_snips/datetime[-1]:B-", "Tw==", 189875);
   ("builtin_entity_match_snips/number[-1]:B-", "SS1udW1iZXJfb2ZfY3Vwcw==", 264410);
   ("builtin_entity_match_snips/temperature[-1]:B-", "SS1udW1iZXJfb2ZfY3Vwcw==", 264410);
   ("ngram_1[-1]:cup", "Tw==", 797519);
   ("ngram_1:of", "Tw==", 797519);
   ("ngram_1[+1]:cold", "Tw==", 38668);
   ("ngram_1[+2]:tea", "Qi1iZXZlcmFnZV90ZW1wZXJhdHVyZQ==", 429811);
   ("ngram_2[+1]:cold tea", "Tw==", 38668);
   ("builtin_entity_match_snips/datePeriod[-2]:B-", "Tw==", 114001);
   ("builtin_entity_match_snips/datetime[-2]:B-", "Tw==", 114001);
   ("ngram_1[-2]:cup", "Tw==", (-390136));
   ("ngram_1[-2]:cup", "Qi1iZXZlcmFnZV90ZW1wZXJhdHVyZQ==", 1237439);
   ("ngram_1[-1]:of", "Tw==", (-390136));
   ("ngram_1[-1]:of", "Qi1iZXZlcmFnZV90ZW1wZXJhdHVyZQ==", 1237439);
   ("ngram_1:cold", "Qi1iZXZlcmFnZV90ZW1wZXJhdHVyZQ==", 1294773);
   ("ngram_1[+1]:tea", "Tw==", (-1508421));
   ("ngram_1[+1]:tea", "Qi1iZXZlcmFnZV90ZW1wZXJhdHVyZQ==", 161771);
   ("ngram_1[+1]:tea", "SS1iZXZlcmFnZV90ZW1wZXJhdHVyZQ==", 615649);
   ("ngram_2[-2]:cup of", "Tw==", (-390136));
   ("ngram_2[-2]:cup of", "Qi1iZXZlcmFnZV90ZW1wZXJhdHVyZQ==", 1237439);
   ("ngram_2[+1]:tea rare_word", "Qi1iZXZlcmFnZV90ZW1wZXJhdHVyZQ==", 567566);
   ("ngram_2[+1]:tea rare_word", "SS1iZXZlcmFnZV90ZW1wZXJhdHVyZQ==", 725806);
   ("is_last[+2]:1", "Tw==", (-1194677));
   ("is_last[+2]:1", "Qi1iZXZlcmFnZV90ZW1wZXJhdHVyZQ==", 239096);
   ("is_last[+2]:1", "SS1iZXZlcmFnZV90ZW1wZXJhdHVyZQ==", 215357);
   ("ngram_1[-2]:of", "Tw==", (-89865));
   ("ngram_1[-2]:of", "SS1iZXZlcmFnZV90ZW1wZXJhdHVyZQ==", 978101);
   ("ngram_1:tea", "Tw==", 2668819);
   ("is_last[+1]:1", "Tw==", 1421584);
   ("ngram_1[-2]:cold", "Tw==", 652184);
   ("ngram_1[-1]:tea", "Tw==", 904039);
   ("ngram_2[-2]:cold tea", "Tw==", 652184);
   ("is_last:1", "Tw==", 2601760);
   ("entity_match_Temperature[-2]:U-", "Tw==", 155979);
   ("ngram_1:i", "Tw==", 115905);
   ("ngram_1[+1]:want", "Tw==", 115905);
   ("ngram_1[-1]:i", "Tw==", 63920);
   ("ngram_1:want", "Tw==", 63920);
   ("ngram_1[+2]:one", "Tw==", 145400);
   ("ngram_1[-2]:i", "Qi1udW1iZXJfb2ZfY3Vwcw==", 266453);
   ("ngram_1[-1]:want", "Qi1udW1iZXJfb2ZfY3Vwcw==", 266453);
   ("ngram_1:twenti", "Qi1udW1iZXJfb2ZfY3Vwcw==", 715);
   ("ngram_2[-2]:i want", "Qi1udW1iZXJfb2ZfY3Vwcw==", 266453);
   ("builtin_entity_match_snips/time:B-", "Qi1udW1iZXJfb2ZfY3Vwcw==", 1047066);
   ("builtin_entity_match_snips/time:B-", "SS1udW1iZXJfb2ZfY3Vwcw==", 268650);
   ("ngram_1[-1]:twenti", "SS1udW1iZXJfb2ZfY3Vwcw==", 313488);
   ("ngram_1:one", "Qi1udW1iZXJfb2ZfY3Vwcw==", 23074);
   ("ngram_1:one", "SS1udW1iZXJfb2ZfY3Vwcw==", 294006);
   ("builtin_entity_match_snips/datePeriod:I-", "SS1udW1iZXJfb2ZfY3Vwcw==", 313488);
   ("builtin_entity_match_snips/datetime:I-", "SS1udW1iZXJfb2ZfY3Vwcw==", 313488);
   ("builtin_entity_match_snips/number:I-", "SS1udW1iZXJfb2ZfY3Vwcw==", 2462364);
   ("builtin_entity_match_snips/temperature:I-", "SS1udW1iZXJfb2ZfY3Vwcw==", 2462364);
   ("builtin_entity_match_snips/time[-1]:B-", "SS1udW1iZXJfb2ZfY3Vwcw==", 130737);
   ("builtin_entity_match_snips/time:I-", "SS1udW1iZXJfb2ZfY3Vwcw==", 313488);
   ("ngram_1[-2]:twenti", "Tw==", 15699);
   ("ngram_1[-1]:one", "Tw==", 357403);
   ("ngram_2[-2]:twenti one", "Tw==", 15699);
   ("ngram_2[+1]:of rare_word", "Tw==", 127302);
   ("builtin_entity_match_snips/datePeriod[-1]:I-", "Tw==", 15699);
   ("builtin_entity_match_snips/datetime[-1]:I-", "Tw==", 15699);
   ("builtin_entity_match_snips/number[-1]:I-", "SS1udW1iZXJfb2ZfY3Vwcw==", 247842);
   ("builtin_entity_match_snips/temperature[-1]:I-", "SS1udW1iZXJfb2ZfY3Vwcw==", 247842);
   ("builtin_entity_match_snips/time[-1]:I-", "Tw==", 15699);
   ("ngram_1[+2]:hot", "Tw==", 113009);
   ("builtin_entity_match_snips/number[-2]:I-", "Tw==", 153037);
   ("builtin_entity_match_snips/temperature[-2]:I-", "Tw==", 153037);
   ("ngram_1[+1]:hot", "Qi1iZXZlcmFnZV90ZW1wZXJhdHVyZQ==", 496760);
   ("ngram_2[+1]:hot tea", "Qi1iZXZlcmFnZV90ZW1wZXJhdHVyZQ==", 1051325);
   ("entity_match_Temperature:B-", "Qi1iZXZlcmFnZV90ZW1wZXJhdHVyZQ==", 223172);
   ("ngram_1:hot", "Qi1iZXZlcmFnZV90ZW1wZXJhdHVyZQ==", 821944);
   ("ngram_1:hot", "SS1iZXZlcmFnZV90ZW1wZXJhdHVyZQ==", 1094595);
   ("ngram_2[-2]:of rare_word", "SS1iZXZlcmFnZV90ZW1wZXJhdHVyZQ==", 1133158);
   ("entity_match_Temperature[-1]:B-", "SS1iZXZlcmFnZV90ZW1wZXJhdHVyZQ==", 347673);
   ("entity_match_Temperature:L-", "SS1iZXZlcmFnZV90ZW1wZXJhdHVyZQ==", 252313);
   ("ngram_1[-1]:hot", "Tw==", 325456);
   ("ngram_1[-2]:hot", "Tw==", 160676);
   ("ngram_1:make", "Tw==", 302341);
   ("ngram_1[+1]:me", "Tw==", 302341);
   ("ngram_1[-1]:make", "Tw==", 245530);
   ("ngram_1:me", "Tw==", 245530);
   ("ngram_1[-2]:make", "Qi1udW1iZXJfb2ZfY3Vwcw==", 51729);
   ("ngram_1[-1]:me", "Qi1udW1iZXJfb2ZfY3Vwcw==", 51729);
   ("ngram_1:a", "Tw==", 633235);
   ("ngram_2[-2]:make me", "Qi1udW1iZXJfb2ZfY3Vwcw==", 51729);
   ("ngram_2[+1]:hot cup", "Tw==", 633235);
   ("ngram_1[-2]:me", "Tw==", (-766037));
   ("ngram_1[-2]:me", "Qi1iZXZlcmFnZV90ZW1wZXJhdHVyZQ==", 1138771);
   ("ngram_1[-1]:a", "Qi1iZXZlcmFnZV90ZW1wZXJhdHVyZQ==", 1551236);
   ("ngram_2[-2]:me a", "Qi1iZXZlcmFnZV90ZW1wZXJhdHVyZQ==", 1551236);
   ("ngram_1[-2]:a", "Tw==", 272135);
   ("ngram_2[-2]:a hot", "Tw==", 272135);
   ("ngram_2[+1]:of tea", "Tw==", 272135);
   ("ngram_1[+1]:three", "Tw==", 19004);
   ("ngram_1[+2]:hundr", "Tw==", 19004);
   ("ngram_2[+1]:three hundr", "Tw==", 19004);
   ("ngram_1[-1]:three", "SS1udW1iZXJfb2ZfY3Vwcw==", 152309);
   ("ngram_1:hundr", "SS1udW1iZXJfb2ZfY3Vwcw==", 152309);
   ("ngram_1[+1]:and", "SS1udW1iZXJfb2ZfY3Vwcw==", 152309);
   ("ngram_1[+2]:four", "SS1udW1iZXJfb2ZfY3Vwcw==", 152309);
   ("ngram_2[+1]:and four", "SS1udW1iZXJfb2ZfY3Vwcw==", 152309);
   ("ngram_1[-2]:three", "SS1udW1iZXJfb2ZfY3Vwcw==", 128678);
   ("ngram_1[-1]:hundr", "SS1udW1iZXJfb2ZfY3Vwcw==", 128678);
   ("ngram_1:and", "SS1udW1iZXJfb2ZfY3Vwcw==", 128678);
   ("ngram_1[+1]:four", "SS1udW1iZXJfb2ZfY3Vwcw==", 128678);
   ("ngram_2[-2]:three hundr", "SS1udW1iZXJfb2ZfY3Vwcw==", 128678);
   ("ngram_1[-2]:hundr", "SS1udW1iZXJfb2ZfY3Vwcw==", 361415);
   ("ngram_1[-1]:and", "SS1udW1iZXJfb2ZfY3Vwcw==", 361415);
   ("ngram_1:four", "SS1udW1iZXJfb2ZfY3Vwcw==", 361415);
   ("ngram_2[-2]:hundr and", "SS1udW1iZXJfb2ZfY3Vwcw==", 361415);
   ("ngram_2[+1]:tea cup", "SS1udW1iZXJfb2ZfY3Vwcw==", 2552);
   ("ngram_1[-2]:and", "Tw==", 24197);
   ("ngram_1[-1]:four", "Tw==", 24197);
   ("ngram_2[-2]:and four", "Tw==", 24197);
   ("entity_match_Temperature:U-", "Qi1iZXZlcmFnZV90ZW1wZXJhdHVyZQ==", 868325);
   ("ngram_1:five", "Qi1udW1iZXJfb2ZfY3Vwcw==", 13035)]%Z.
Definition tea_transitions : list (string * string * Z) :=
  [("Tw==", "Tw==", 1982986);
   ("Tw==", "Qi1udW1iZXJfb2ZfY3Vwcw==", 1500036);
   ("Tw==", "Qi1iZXZlcmFnZV90ZW1wZXJhdHVyZQ==", 1525067);
   ("Qi1udW1iZXJfb2ZfY3Vwcw==", "SS1udW1iZXJfb2ZfY3Vwcw==", 1130677);
   ("Qi1iZXZlcmFnZV90ZW1wZXJhdHVyZQ==", "Tw==", 252713);
   ("Qi1iZXZlcmFnZV90ZW1wZXJhdHVyZQ==", "SS1iZXZlcmFnZV90ZW1wZXJhdHVyZQ==", 1815461);
   ("SS1udW1iZXJfb2ZfY3Vwcw==", "Tw==", (-150731));
   ("SS1udW1iZXJfb2ZfY3Vwcw==", "SS1udW1iZXJfb2ZfY3Vwcw==", 1352413)]%Z.
