(** ShippedText.v -- the text of src/tool/syntaxis/syntaxis2.json, generated by tools/mkshipped.py. *)
From Verif Require Export Base.

Definition syntaxis2_text : str :=
concat [
(lit "{" ++ [10%N]);
(lit "  ""rule_index"": 0," ++ [10%N]);
(lit "  ""rule_name"": ""rule_list""," ++ [10%N]);
(lit "  ""children"": [" ++ [10%N]);
(lit "    {" ++ [10%N]);
(lit "      ""rule_index"": 1," ++ [10%N]);
(lit "      ""rule_name"": ""parser_rule""," ++ [10%N]);
(lit "      ""children"": [" ++ [10%N]);
(lit "        {" ++ [10%N]);
(lit "          ""token_type"": 7," ++ [10%N]);
(lit "          ""token_name"": ""RULE_REF""," ++ [10%N]);
(lit "          ""text"": ""rule_list""" ++ [10%N]);
(lit "        }," ++ [10%N]);
(lit "        {" ++ [10%N]);
(lit "          ""token_type"": 8," ++ [10%N]);
(lit "          ""token_name"": ""COLON""," ++ [10%N]);
(lit "          ""text"": "":""" ++ [10%N]);
(lit "        }," ++ [10%N]);
(lit "        {" ++ [10%N]);
(lit "          ""rule_index"": 2," ++ [10%N]);
(lit "          ""rule_name"": ""block""," ++ [10%N]);
(lit "          ""children"": [" ++ [10%N]);
(lit "            {" ++ [10%N]);
(lit "              ""rule_index"": 3," ++ [10%N]);
(lit "              ""rule_name"": ""alternative""," ++ [10%N]);
(lit "              ""children"": [" ++ [10%N]);
(lit "                {" ++ [10%N]);
(lit "                  ""rule_index"": 5," ++ [10%N]);
(lit "                  ""rule_name"": ""element""," ++ [10%N]);
(lit "                  ""children"": [" ++ [10%N]);
(lit "                    {" ++ [10%N]);
(lit "                      ""token_type"": 16," ++ [10%N]);
(lit "                      ""token_name"": ""LPAREN""," ++ [10%N]);
(lit "                      ""text"": ""(""" ++ [10%N]);
(lit "                    }," ++ [10%N]);
(lit "                    {" ++ [10%N]);
(lit "                      ""rule_index"": 2," ++ [10%N]);
(lit "                      ""rule_name"": ""block""," ++ [10%N]);
(lit "                      ""children"": [" ++ [10%N]);
(lit "                        {" ++ [10%N]);
(lit "                          ""rule_index"": 3," ++ [10%N]);
(lit "                          ""rule_name"": ""alternative""," ++ [10%N]);
(lit "                          ""children"": [" ++ [10%N]);
(lit "                            {" ++ [10%N]);
(lit "                              ""rule_index"": 5," ++ [10%N]);
(lit "                              ""rule_name"": ""element""," ++ [10%N]);
(lit "                              ""children"": [" ++ [10%N]);
(lit "                                {" ++ [10%N]);
(lit "                                  ""token_type"": 7," ++ [10%N]);
(lit "                                  ""token_name"": ""RULE_REF""," ++ [10%N]);
(lit "                                  ""text"": ""parser_rule""" ++ [10%N]);
(lit "                                }" ++ [10%N]);
(lit "                              ]" ++ [10%N]);
(lit "                            }" ++ [10%N]);
(lit "                          ]" ++ [10%N]);
(lit "                        }," ++ [10%N]);
(lit "                        {" ++ [10%N]);
(lit "                          ""token_type"": 9," ++ [10%N]);
(lit "                          ""token_name"": ""OR""," ++ [10%N]);
(lit "                          ""text"": ""|""" ++ [10%N]);
(lit "                        }," ++ [10%N]);
(lit "                        {" ++ [10%N]);
(lit "                          ""rule_index"": 3," ++ [10%N]);
(lit "                          ""rule_name"": ""alternative""," ++ [10%N]);
(lit "                          ""children"": [" ++ [10%N]);
(lit "                            {" ++ [10%N]);
(lit "                              ""rule_index"": 5," ++ [10%N]);
(lit "                              ""rule_name"": ""element""," ++ [10%N]);
(lit "                              ""children"": [" ++ [10%N]);
(lit "                                {" ++ [10%N]);
(lit "                                  ""token_type"": 7," ++ [10%N]);
(lit "                                  ""token_name"": ""RULE_REF""," ++ [10%N]);
(lit "                                  ""text"": ""lexer_rule""" ++ [10%N]);
(lit "                                }" ++ [10%N]);
(lit "                              ]" ++ [10%N]);
(lit "                            }" ++ [10%N]);
(lit "                          ]" ++ [10%N]);
(lit "                        }" ++ [10%N]);
(lit "                      ]" ++ [10%N]);
(lit "                    }," ++ [10%N]);
(lit "                    {" ++ [10%N]);
(lit "                      ""token_type"": 17," ++ [10%N]);
(lit "                      ""token_name"": ""RPAREN""," ++ [10%N]);
(lit "                      ""text"": "")""" ++ [10%N]);
(lit "                    }," ++ [10%N]);
(lit "                    {" ++ [10%N]);
(lit "                      ""rule_index"": 6," ++ [10%N]);
(lit "                      ""rule_name"": ""ebnf_suffix""," ++ [10%N]);
(lit "                      ""children"": [" ++ [10%N]);
(lit "                        {" ++ [10%N]);
(lit "                          ""token_type"": 11," ++ [10%N]);
(lit "                          ""token_name"": ""STAR""," ++ [10%N]);
(lit "                          ""text"": ""*""" ++ [10%N]);
(lit "                        }" ++ [10%N]);
(lit "                      ]" ++ [10%N]);
(lit "                    }" ++ [10%N]);
(lit "                  ]" ++ [10%N]);
(lit "                }" ++ [10%N]);
(lit "              ]" ++ [10%N]);
(lit "            }" ++ [10%N]);
(lit "          ]" ++ [10%N]);
(lit "        }," ++ [10%N]);
(lit "        {" ++ [10%N]);
(lit "          ""token_type"": 10," ++ [10%N]);
(lit "          ""token_name"": ""SEMI""," ++ [10%N]);
(lit "          ""text"": "";""" ++ [10%N]);
(lit "        }" ++ [10%N]);
(lit "      ]" ++ [10%N]);
(lit "    }," ++ [10%N]);
(lit "    {" ++ [10%N]);
(lit "      ""rule_index"": 1," ++ [10%N]);
(lit "      ""rule_name"": ""parser_rule""," ++ [10%N]);
(lit "      ""children"": [" ++ [10%N]);
(lit "        {" ++ [10%N]);
(lit "          ""token_type"": 7," ++ [10%N]);
(lit "          ""token_name"": ""RULE_REF""," ++ [10%N]);
(lit "          ""text"": ""parser_rule""" ++ [10%N]);
(lit "        }," ++ [10%N]);
(lit "        {" ++ [10%N]);
(lit "          ""token_type"": 8," ++ [10%N]);
(lit "          ""token_name"": ""COLON""," ++ [10%N]);
(lit "          ""text"": "":""" ++ [10%N]);
(lit "        }," ++ [10%N]);
(lit "        {" ++ [10%N]);
(lit "          ""rule_index"": 2," ++ [10%N]);
(lit "          ""rule_name"": ""block""," ++ [10%N]);
(lit "          ""children"": [" ++ [10%N]);
(lit "            {" ++ [10%N]);
(lit "              ""rule_index"": 3," ++ [10%N]);
(lit "              ""rule_name"": ""alternative""," ++ [10%N]);
(lit "              ""children"": [" ++ [10%N]);
(lit "                {" ++ [10%N]);
(lit "                  ""rule_index"": 5," ++ [10%N]);
(lit "                  ""rule_name"": ""element""," ++ [10%N]);
(lit "                  ""children"": [" ++ [10%N]);
(lit "                    {" ++ [10%N]);
(lit "                      ""token_type"": 6," ++ [10%N]);
(lit "                      ""token_name"": ""TOKEN_REF""," ++ [10%N]);
(lit "                      ""text"": ""RULE_REF""" ++ [10%N]);
(lit "                    }" ++ [10%N]);
(lit "                  ]" ++ [10%N]);
(lit "                }," ++ [10%N]);
(lit "                {" ++ [10%N]);
(lit "                  ""rule_index"": 5," ++ [10%N]);
(lit "                  ""rule_name"": ""element""," ++ [10%N]);
(lit "                  ""children"": [" ++ [10%N]);
(lit "                    {" ++ [10%N]);
(lit "                      ""token_type"": 6," ++ [10%N]);
(lit "                      ""token_name"": ""TOKEN_REF""," ++ [10%N]);
(lit "                      ""text"": ""COLON""" ++ [10%N]);
(lit "                    }" ++ [10%N]);
(lit "                  ]" ++ [10%N]);
(lit "                }," ++ [10%N]);
(lit "                {" ++ [10%N]);
(lit "                  ""rule_index"": 5," ++ [10%N]);
(lit "                  ""rule_name"": ""element""," ++ [10%N]);
(lit "                  ""children"": [" ++ [10%N]);
(lit "                    {" ++ [10%N]);
(lit "                      ""token_type"": 7," ++ [10%N]);
(lit "                      ""token_name"": ""RULE_REF""," ++ [10%N]);
(lit "                      ""text"": ""block""" ++ [10%N]);
(lit "                    }" ++ [10%N]);
(lit "                  ]" ++ [10%N]);
(lit "                }," ++ [10%N]);
(lit "                {" ++ [10%N]);
(lit "                  ""rule_index"": 5," ++ [10%N]);
(lit "                  ""rule_name"": ""element""," ++ [10%N]);
(lit "                  ""children"": [" ++ [10%N]);
(lit "                    {" ++ [10%N]);
(lit "                      ""token_type"": 6," ++ [10%N]);
(lit "                      ""token_name"": ""TOKEN_REF""," ++ [10%N]);
(lit "                      ""text"": ""SEMI""" ++ [10%N]);
(lit "                    }" ++ [10%N]);
(lit "                  ]" ++ [10%N]);
(lit "                }" ++ [10%N]);
(lit "              ]" ++ [10%N]);
(lit "            }" ++ [10%N]);
(lit "          ]" ++ [10%N]);
(lit "        }," ++ [10%N]);
(lit "        {" ++ [10%N]);
(lit "          ""token_type"": 10," ++ [10%N]);
(lit "          ""token_name"": ""SEMI""," ++ [10%N]);
(lit "          ""text"": "";""" ++ [10%N]);
(lit "        }" ++ [10%N]);
(lit "      ]" ++ [10%N]);
(lit "    }," ++ [10%N]);
(lit "    {" ++ [10%N]);
(lit "      ""rule_index"": 1," ++ [10%N]);
(lit "      ""rule_name"": ""parser_rule""," ++ [10%N]);
(lit "      ""children"": [" ++ [10%N]);
(lit "        {" ++ [10%N]);
(lit "          ""token_type"": 7," ++ [10%N]);
(lit "          ""token_name"": ""RULE_REF""," ++ [10%N]);
(lit "          ""text"": ""block""" ++ [10%N]);
(lit "        }," ++ [10%N]);
(lit "        {" ++ [10%N]);
(lit "          ""token_type"": 8," ++ [10%N]);
(lit "          ""token_name"": ""COLON""," ++ [10%N]);
(lit "          ""text"": "":""" ++ [10%N]);
(lit "        }," ++ [10%N]);
(lit "        {" ++ [10%N]);
(lit "          ""rule_index"": 2," ++ [10%N]);
(lit "          ""rule_name"": ""block""," ++ [10%N]);
(lit "          ""children"": [" ++ [10%N]);
(lit "            {" ++ [10%N]);
(lit "              ""rule_index"": 3," ++ [10%N]);
(lit "              ""rule_name"": ""alternative""," ++ [10%N]);
(lit "              ""children"": [" ++ [10%N]);
(lit "                {" ++ [10%N]);
(lit "                  ""rule_index"": 5," ++ [10%N]);
(lit "                  ""rule_name"": ""element""," ++ [10%N]);
(lit "                  ""children"": [" ++ [10%N]);
(lit "                    {" ++ [10%N]);
(lit "                      ""token_type"": 7," ++ [10%N]);
(lit "                      ""token_name"": ""RULE_REF""," ++ [10%N]);
(lit "                      ""text"": ""alternative""" ++ [10%N]);
(lit "                    }" ++ [10%N]);
(lit "                  ]" ++ [10%N]);
(lit "                }," ++ [10%N]);
(lit "                {" ++ [10%N]);
(lit "                  ""rule_index"": 5," ++ [10%N]);
(lit "                  ""rule_name"": ""element""," ++ [10%N]);
(lit "                  ""children"": [" ++ [10%N]);
(lit "                    {" ++ [10%N]);
(lit "                      ""token_type"": 16," ++ [10%N]);
(lit "                      ""token_name"": ""LPAREN""," ++ [10%N]);
(lit "                      ""text"": ""(""" ++ [10%N]);
(lit "                    }," ++ [10%N]);
(lit "                    {" ++ [10%N]);
(lit "                      ""rule_index"": 2," ++ [10%N]);
(lit "                      ""rule_name"": ""block""," ++ [10%N]);
(lit "                      ""children"": [" ++ [10%N]);
(lit "                        {" ++ [10%N]);
(lit "                          ""rule_index"": 3," ++ [10%N]);
(lit "                          ""rule_name"": ""alternative""," ++ [10%N]);
(lit "                          ""children"": [" ++ [10%N]);
(lit "                            {" ++ [10%N]);
(lit "                              ""rule_index"": 5," ++ [10%N]);
(lit "                              ""rule_name"": ""element""," ++ [10%N]);
(lit "                              ""children"": [" ++ [10%N]);
(lit "                                {" ++ [10%N]);
(lit "                                  ""token_type"": 6," ++ [10%N]);
(lit "                                  ""token_name"": ""TOKEN_REF""," ++ [10%N]);
(lit "                                  ""text"": ""OR""" ++ [10%N]);
(lit "                                }" ++ [10%N]);
(lit "                              ]" ++ [10%N]);
(lit "                            }," ++ [10%N]);
(lit "                            {" ++ [10%N]);
(lit "                              ""rule_index"": 5," ++ [10%N]);
(lit "                              ""rule_name"": ""element""," ++ [10%N]);
(lit "                              ""children"": [" ++ [10%N]);
(lit "                                {" ++ [10%N]);
(lit "                                  ""token_type"": 7," ++ [10%N]);
(lit "                                  ""token_name"": ""RULE_REF""," ++ [10%N]);
(lit "                                  ""text"": ""alternative""" ++ [10%N]);
(lit "                                }" ++ [10%N]);
(lit "                              ]" ++ [10%N]);
(lit "                            }" ++ [10%N]);
(lit "                          ]" ++ [10%N]);
(lit "                        }" ++ [10%N]);
(lit "                      ]" ++ [10%N]);
(lit "                    }," ++ [10%N]);
(lit "                    {" ++ [10%N]);
(lit "                      ""token_type"": 17," ++ [10%N]);
(lit "                      ""token_name"": ""RPAREN""," ++ [10%N]);
(lit "                      ""text"": "")""" ++ [10%N]);
(lit "                    }," ++ [10%N]);
(lit "                    {" ++ [10%N]);
(lit "                      ""rule_index"": 6," ++ [10%N]);
(lit "                      ""rule_name"": ""ebnf_suffix""," ++ [10%N]);
(lit "                      ""children"": [" ++ [10%N]);
(lit "                        {" ++ [10%N]);
(lit "                          ""token_type"": 11," ++ [10%N]);
(lit "                          ""token_name"": ""STAR""," ++ [10%N]);
(lit "                          ""text"": ""*""" ++ [10%N]);
(lit "                        }" ++ [10%N]);
(lit "                      ]" ++ [10%N]);
(lit "                    }" ++ [10%N]);
(lit "                  ]" ++ [10%N]);
(lit "                }" ++ [10%N]);
(lit "              ]" ++ [10%N]);
(lit "            }" ++ [10%N]);
(lit "          ]" ++ [10%N]);
(lit "        }," ++ [10%N]);
(lit "        {" ++ [10%N]);
(lit "          ""token_type"": 10," ++ [10%N]);
(lit "          ""token_name"": ""SEMI""," ++ [10%N]);
(lit "          ""text"": "";""" ++ [10%N]);
(lit "        }" ++ [10%N]);
(lit "      ]" ++ [10%N]);
(lit "    }," ++ [10%N]);
(lit "    {" ++ [10%N]);
(lit "      ""rule_index"": 1," ++ [10%N]);
(lit "      ""rule_name"": ""parser_rule""," ++ [10%N]);
(lit "      ""children"": [" ++ [10%N]);
(lit "        {" ++ [10%N]);
(lit "          ""token_type"": 7," ++ [10%N]);
(lit "          ""token_name"": ""RULE_REF""," ++ [10%N]);
(lit "          ""text"": ""alternative""" ++ [10%N]);
(lit "        }," ++ [10%N]);
(lit "        {" ++ [10%N]);
(lit "          ""token_type"": 8," ++ [10%N]);
(lit "          ""token_name"": ""COLON""," ++ [10%N]);
(lit "          ""text"": "":""" ++ [10%N]);
(lit "        }," ++ [10%N]);
(lit "        {" ++ [10%N]);
(lit "          ""rule_index"": 2," ++ [10%N]);
(lit "          ""rule_name"": ""block""," ++ [10%N]);
(lit "          ""children"": [" ++ [10%N]);
(lit "            {" ++ [10%N]);
(lit "              ""rule_index"": 3," ++ [10%N]);
(lit "              ""rule_name"": ""alternative""," ++ [10%N]);
(lit "              ""children"": [" ++ [10%N]);
(lit "                {" ++ [10%N]);
(lit "                  ""rule_index"": 5," ++ [10%N]);
(lit "                  ""rule_name"": ""element""," ++ [10%N]);
(lit "                  ""children"": [" ++ [10%N]);
(lit "                    {" ++ [10%N]);
(lit "                      ""token_type"": 7," ++ [10%N]);
(lit "                      ""token_name"": ""RULE_REF""," ++ [10%N]);
(lit "                      ""text"": ""element""" ++ [10%N]);
(lit "                    }" ++ [10%N]);
(lit "                  ]" ++ [10%N]);
(lit "                }," ++ [10%N]);
(lit "                {" ++ [10%N]);
(lit "                  ""rule_index"": 5," ++ [10%N]);
(lit "                  ""rule_name"": ""element""," ++ [10%N]);
(lit "                  ""children"": [" ++ [10%N]);
(lit "                    {" ++ [10%N]);
(lit "                      ""token_type"": 7," ++ [10%N]);
(lit "                      ""token_name"": ""RULE_REF""," ++ [10%N]);
(lit "                      ""text"": ""element""" ++ [10%N]);
(lit "                    }," ++ [10%N]);
(lit "                    {" ++ [10%N]);
(lit "                      ""rule_index"": 6," ++ [10%N]);
(lit "                      ""rule_name"": ""ebnf_suffix""," ++ [10%N]);
(lit "                      ""children"": [" ++ [10%N]);
(lit "                        {" ++ [10%N]);
(lit "                          ""token_type"": 11," ++ [10%N]);
(lit "                          ""token_name"": ""STAR""," ++ [10%N]);
(lit "                          ""text"": ""*""" ++ [10%N]);
(lit "                        }" ++ [10%N]);
(lit "                      ]" ++ [10%N]);
(lit "                    }" ++ [10%N]);
(lit "                  ]" ++ [10%N]);
(lit "                }" ++ [10%N]);
(lit "              ]" ++ [10%N]);
(lit "            }," ++ [10%N]);
(lit "            {" ++ [10%N]);
(lit "              ""token_type"": 9," ++ [10%N]);
(lit "              ""token_name"": ""OR""," ++ [10%N]);
(lit "              ""text"": ""|""" ++ [10%N]);
(lit "            }," ++ [10%N]);
(lit "            {" ++ [10%N]);
(lit "              ""rule_index"": 3," ++ [10%N]);
(lit "              ""rule_name"": ""alternative""," ++ [10%N]);
(lit "              ""children"": [" ++ [10%N]);
(lit "                {" ++ [10%N]);
(lit "                  ""rule_index"": 5," ++ [10%N]);
(lit "                  ""rule_name"": ""element""," ++ [10%N]);
(lit "                  ""children"": [" ++ [10%N]);
(lit "                    {" ++ [10%N]);
(lit "                      ""token_type"": 7," ++ [10%N]);
(lit "                      ""token_name"": ""RULE_REF""," ++ [10%N]);
(lit "                      ""text"": ""epsilon""" ++ [10%N]);
(lit "                    }" ++ [10%N]);
(lit "                  ]" ++ [10%N]);
(lit "                }" ++ [10%N]);
(lit "              ]" ++ [10%N]);
(lit "            }" ++ [10%N]);
(lit "          ]" ++ [10%N]);
(lit "        }," ++ [10%N]);
(lit "        {" ++ [10%N]);
(lit "          ""token_type"": 10," ++ [10%N]);
(lit "          ""token_name"": ""SEMI""," ++ [10%N]);
(lit "          ""text"": "";""" ++ [10%N]);
(lit "        }" ++ [10%N]);
(lit "      ]" ++ [10%N]);
(lit "    }," ++ [10%N]);
(lit "    {" ++ [10%N]);
(lit "      ""rule_index"": 1," ++ [10%N]);
(lit "      ""rule_name"": ""parser_rule""," ++ [10%N]);
(lit "      ""children"": [" ++ [10%N]);
(lit "        {" ++ [10%N]);
(lit "          ""token_type"": 7," ++ [10%N]);
(lit "          ""token_name"": ""RULE_REF""," ++ [10%N]);
(lit "          ""text"": ""epsilon""" ++ [10%N]);
(lit "        }," ++ [10%N]);
(lit "        {" ++ [10%N]);
(lit "          ""token_type"": 8," ++ [10%N]);
(lit "          ""token_name"": ""COLON""," ++ [10%N]);
(lit "          ""text"": "":""" ++ [10%N]);
(lit "        }," ++ [10%N]);
(lit "        {" ++ [10%N]);
(lit "          ""rule_index"": 2," ++ [10%N]);
(lit "          ""rule_name"": ""block""," ++ [10%N]);
(lit "          ""children"": [" ++ [10%N]);
(lit "            {" ++ [10%N]);
(lit "              ""rule_index"": 3," ++ [10%N]);
(lit "              ""rule_name"": ""alternative""," ++ [10%N]);
(lit "              ""children"": [" ++ [10%N]);
(lit "                {" ++ [10%N]);
(lit "                  ""rule_index"": 5," ++ [10%N]);
(lit "                  ""rule_name"": ""element""," ++ [10%N]);
(lit "                  ""children"": [" ++ [10%N]);
(lit "                    {" ++ [10%N]);
(lit "                      ""token_type"": 6," ++ [10%N]);
(lit "                      ""token_name"": ""TOKEN_REF""," ++ [10%N]);
(lit "                      ""text"": ""EPSILON""" ++ [10%N]);
(lit "                    }" ++ [10%N]);
(lit "                  ]" ++ [10%N]);
(lit "                }" ++ [10%N]);
(lit "              ]" ++ [10%N]);
(lit "            }" ++ [10%N]);
(lit "          ]" ++ [10%N]);
(lit "        }," ++ [10%N]);
(lit "        {" ++ [10%N]);
(lit "          ""token_type"": 10," ++ [10%N]);
(lit "          ""token_name"": ""SEMI""," ++ [10%N]);
(lit "          ""text"": "";""" ++ [10%N]);
(lit "        }" ++ [10%N]);
(lit "      ]" ++ [10%N]);
(lit "    }," ++ [10%N]);
(lit "    {" ++ [10%N]);
(lit "      ""rule_index"": 1," ++ [10%N]);
(lit "      ""rule_name"": ""parser_rule""," ++ [10%N]);
(lit "      ""children"": [" ++ [10%N]);
(lit "        {" ++ [10%N]);
(lit "          ""token_type"": 7," ++ [10%N]);
(lit "          ""token_name"": ""RULE_REF""," ++ [10%N]);
(lit "          ""text"": ""element""" ++ [10%N]);
(lit "        }," ++ [10%N]);
(lit "        {" ++ [10%N]);
(lit "          ""token_type"": 8," ++ [10%N]);
(lit "          ""token_name"": ""COLON""," ++ [10%N]);
(lit "          ""text"": "":""" ++ [10%N]);
(lit "        }," ++ [10%N]);
(lit "        {" ++ [10%N]);
(lit "          ""rule_index"": 2," ++ [10%N]);
(lit "          ""rule_name"": ""block""," ++ [10%N]);
(lit "          ""children"": [" ++ [10%N]);
(lit "            {" ++ [10%N]);
(lit "              ""rule_index"": 3," ++ [10%N]);
(lit "              ""rule_name"": ""alternative""," ++ [10%N]);
(lit "              ""children"": [" ++ [10%N]);
(lit "                {" ++ [10%N]);
(lit "                  ""rule_index"": 5," ++ [10%N]);
(lit "                  ""rule_name"": ""element""," ++ [10%N]);
(lit "                  ""children"": [" ++ [10%N]);
(lit "                    {" ++ [10%N]);
(lit "                      ""token_type"": 16," ++ [10%N]);
(lit "                      ""token_name"": ""LPAREN""," ++ [10%N]);
(lit "                      ""text"": ""(""" ++ [10%N]);
(lit "                    }," ++ [10%N]);
(lit "                    {" ++ [10%N]);
(lit "                      ""rule_index"": 2," ++ [10%N]);
(lit "                      ""rule_name"": ""block""," ++ [10%N]);
(lit "                      ""children"": [" ++ [10%N]);
(lit "                        {" ++ [10%N]);
(lit "                          ""rule_index"": 3," ++ [10%N]);
(lit "                          ""rule_name"": ""alternative""," ++ [10%N]);
(lit "                          ""children"": [" ++ [10%N]);
(lit "                            {" ++ [10%N]);
(lit "                              ""rule_index"": 5," ++ [10%N]);
(lit "                              ""rule_name"": ""element""," ++ [10%N]);
(lit "                              ""children"": [" ++ [10%N]);
(lit "                                {" ++ [10%N]);
(lit "                                  ""token_type"": 6," ++ [10%N]);
(lit "                                  ""token_name"": ""TOKEN_REF""," ++ [10%N]);
(lit "                                  ""text"": ""TOKEN_REF""" ++ [10%N]);
(lit "                                }" ++ [10%N]);
(lit "                              ]" ++ [10%N]);
(lit "                            }" ++ [10%N]);
(lit "                          ]" ++ [10%N]);
(lit "                        }," ++ [10%N]);
(lit "                        {" ++ [10%N]);
(lit "                          ""token_type"": 9," ++ [10%N]);
(lit "                          ""token_name"": ""OR""," ++ [10%N]);
(lit "                          ""text"": ""|""" ++ [10%N]);
(lit "                        }," ++ [10%N]);
(lit "                        {" ++ [10%N]);
(lit "                          ""rule_index"": 3," ++ [10%N]);
(lit "                          ""rule_name"": ""alternative""," ++ [10%N]);
(lit "                          ""children"": [" ++ [10%N]);
(lit "                            {" ++ [10%N]);
(lit "                              ""rule_index"": 5," ++ [10%N]);
(lit "                              ""rule_name"": ""element""," ++ [10%N]);
(lit "                              ""children"": [" ++ [10%N]);
(lit "                                {" ++ [10%N]);
(lit "                                  ""token_type"": 6," ++ [10%N]);
(lit "                                  ""token_name"": ""TOKEN_REF""," ++ [10%N]);
(lit "                                  ""text"": ""STRING_LITERAL""" ++ [10%N]);
(lit "                                }" ++ [10%N]);
(lit "                              ]" ++ [10%N]);
(lit "                            }" ++ [10%N]);
(lit "                          ]" ++ [10%N]);
(lit "                        }," ++ [10%N]);
(lit "                        {" ++ [10%N]);
(lit "                          ""token_type"": 9," ++ [10%N]);
(lit "                          ""token_name"": ""OR""," ++ [10%N]);
(lit "                          ""text"": ""|""" ++ [10%N]);
(lit "                        }," ++ [10%N]);
(lit "                        {" ++ [10%N]);
(lit "                          ""rule_index"": 3," ++ [10%N]);
(lit "                          ""rule_name"": ""alternative""," ++ [10%N]);
(lit "                          ""children"": [" ++ [10%N]);
(lit "                            {" ++ [10%N]);
(lit "                              ""rule_index"": 5," ++ [10%N]);
(lit "                              ""rule_name"": ""element""," ++ [10%N]);
(lit "                              ""children"": [" ++ [10%N]);
(lit "                                {" ++ [10%N]);
(lit "                                  ""token_type"": 6," ++ [10%N]);
(lit "                                  ""token_name"": ""TOKEN_REF""," ++ [10%N]);
(lit "                                  ""text"": ""RULE_REF""" ++ [10%N]);
(lit "                                }" ++ [10%N]);
(lit "                              ]" ++ [10%N]);
(lit "                            }" ++ [10%N]);
(lit "                          ]" ++ [10%N]);
(lit "                        }," ++ [10%N]);
(lit "                        {" ++ [10%N]);
(lit "                          ""token_type"": 9," ++ [10%N]);
(lit "                          ""token_name"": ""OR""," ++ [10%N]);
(lit "                          ""text"": ""|""" ++ [10%N]);
(lit "                        }," ++ [10%N]);
(lit "                        {" ++ [10%N]);
(lit "                          ""rule_index"": 3," ++ [10%N]);
(lit "                          ""rule_name"": ""alternative""," ++ [10%N]);
(lit "                          ""children"": [" ++ [10%N]);
(lit "                            {" ++ [10%N]);
(lit "                              ""rule_index"": 5," ++ [10%N]);
(lit "                              ""rule_name"": ""element""," ++ [10%N]);
(lit "                              ""children"": [" ++ [10%N]);
(lit "                                {" ++ [10%N]);
(lit "                                  ""token_type"": 6," ++ [10%N]);
(lit "                                  ""token_name"": ""TOKEN_REF""," ++ [10%N]);
(lit "                                  ""text"": ""LPAREN""" ++ [10%N]);
(lit "                                }" ++ [10%N]);
(lit "                              ]" ++ [10%N]);
(lit "                            }," ++ [10%N]);
(lit "                            {" ++ [10%N]);
(lit "                              ""rule_index"": 5," ++ [10%N]);
(lit "                              ""rule_name"": ""element""," ++ [10%N]);
(lit "                              ""children"": [" ++ [10%N]);
(lit "                                {" ++ [10%N]);
(lit "                                  ""token_type"": 7," ++ [10%N]);
(lit "                                  ""token_name"": ""RULE_REF""," ++ [10%N]);
(lit "                                  ""text"": ""block""" ++ [10%N]);
(lit "                                }" ++ [10%N]);
(lit "                              ]" ++ [10%N]);
(lit "                            }," ++ [10%N]);
(lit "                            {" ++ [10%N]);
(lit "                              ""rule_index"": 5," ++ [10%N]);
(lit "                              ""rule_name"": ""element""," ++ [10%N]);
(lit "                              ""children"": [" ++ [10%N]);
(lit "                                {" ++ [10%N]);
(lit "                                  ""token_type"": 6," ++ [10%N]);
(lit "                                  ""token_name"": ""TOKEN_REF""," ++ [10%N]);
(lit "                                  ""text"": ""RPAREN""" ++ [10%N]);
(lit "                                }" ++ [10%N]);
(lit "                              ]" ++ [10%N]);
(lit "                            }" ++ [10%N]);
(lit "                          ]" ++ [10%N]);
(lit "                        }" ++ [10%N]);
(lit "                      ]" ++ [10%N]);
(lit "                    }," ++ [10%N]);
(lit "                    {" ++ [10%N]);
(lit "                      ""token_type"": 17," ++ [10%N]);
(lit "                      ""token_name"": ""RPAREN""," ++ [10%N]);
(lit "                      ""text"": "")""" ++ [10%N]);
(lit "                    }" ++ [10%N]);
(lit "                  ]" ++ [10%N]);
(lit "                }," ++ [10%N]);
(lit "                {" ++ [10%N]);
(lit "                  ""rule_index"": 5," ++ [10%N]);
(lit "                  ""rule_name"": ""element""," ++ [10%N]);
(lit "                  ""children"": [" ++ [10%N]);
(lit "                    {" ++ [10%N]);
(lit "                      ""token_type"": 7," ++ [10%N]);
(lit "                      ""token_name"": ""RULE_REF""," ++ [10%N]);
(lit "                      ""text"": ""ebnf_suffix""" ++ [10%N]);
(lit "                    }," ++ [10%N]);
(lit "                    {" ++ [10%N]);
(lit "                      ""rule_index"": 6," ++ [10%N]);
(lit "                      ""rule_name"": ""ebnf_suffix""," ++ [10%N]);
(lit "                      ""children"": [" ++ [10%N]);
(lit "                        {" ++ [10%N]);
(lit "                          ""token_type"": 13," ++ [10%N]);
(lit "                          ""token_name"": ""QUESTION""," ++ [10%N]);
(lit "                          ""text"": ""?""" ++ [10%N]);
(lit "                        }" ++ [10%N]);
(lit "                      ]" ++ [10%N]);
(lit "                    }" ++ [10%N]);
(lit "                  ]" ++ [10%N]);
(lit "                }" ++ [10%N]);
(lit "              ]" ++ [10%N]);
(lit "            }" ++ [10%N]);
(lit "          ]" ++ [10%N]);
(lit "        }," ++ [10%N]);
(lit "        {" ++ [10%N]);
(lit "          ""token_type"": 10," ++ [10%N]);
(lit "          ""token_name"": ""SEMI""," ++ [10%N]);
(lit "          ""text"": "";""" ++ [10%N]);
(lit "        }" ++ [10%N]);
(lit "      ]" ++ [10%N]);
(lit "    }," ++ [10%N]);
(lit "    {" ++ [10%N]);
(lit "      ""rule_index"": 1," ++ [10%N]);
(lit "      ""rule_name"": ""parser_rule""," ++ [10%N]);
(lit "      ""children"": [" ++ [10%N]);
(lit "        {" ++ [10%N]);
(lit "          ""token_type"": 7," ++ [10%N]);
(lit "          ""token_name"": ""RULE_REF""," ++ [10%N]);
(lit "          ""text"": ""ebnf_suffix""" ++ [10%N]);
(lit "        }," ++ [10%N]);
(lit "        {" ++ [10%N]);
(lit "          ""token_type"": 8," ++ [10%N]);
(lit "          ""token_name"": ""COLON""," ++ [10%N]);
(lit "          ""text"": "":""" ++ [10%N]);
(lit "        }," ++ [10%N]);
(lit "        {" ++ [10%N]);
(lit "          ""rule_index"": 2," ++ [10%N]);
(lit "          ""rule_name"": ""block""," ++ [10%N]);
(lit "          ""children"": [" ++ [10%N]);
(lit "            {" ++ [10%N]);
(lit "              ""rule_index"": 3," ++ [10%N]);
(lit "              ""rule_name"": ""alternative""," ++ [10%N]);
(lit "              ""children"": [" ++ [10%N]);
(lit "                {" ++ [10%N]);
(lit "                  ""rule_index"": 5," ++ [10%N]);
(lit "                  ""rule_name"": ""element""," ++ [10%N]);
(lit "                  ""children"": [" ++ [10%N]);
(lit "                    {" ++ [10%N]);
(lit "                      ""token_type"": 16," ++ [10%N]);
(lit "                      ""token_name"": ""LPAREN""," ++ [10%N]);
(lit "                      ""text"": ""(""" ++ [10%N]);
(lit "                    }," ++ [10%N]);
(lit "                    {" ++ [10%N]);
(lit "                      ""rule_index"": 2," ++ [10%N]);
(lit "                      ""rule_name"": ""block""," ++ [10%N]);
(lit "                      ""children"": [" ++ [10%N]);
(lit "                        {" ++ [10%N]);
(lit "                          ""rule_index"": 3," ++ [10%N]);
(lit "                          ""rule_name"": ""alternative""," ++ [10%N]);
(lit "                          ""children"": [" ++ [10%N]);
(lit "                            {" ++ [10%N]);
(lit "                              ""rule_index"": 5," ++ [10%N]);
(lit "                              ""rule_name"": ""element""," ++ [10%N]);
(lit "                              ""children"": [" ++ [10%N]);
(lit "                                {" ++ [10%N]);
(lit "                                  ""token_type"": 6," ++ [10%N]);
(lit "                                  ""token_name"": ""TOKEN_REF""," ++ [10%N]);
(lit "                                  ""text"": ""STAR""" ++ [10%N]);
(lit "                                }" ++ [10%N]);
(lit "                              ]" ++ [10%N]);
(lit "                            }" ++ [10%N]);
(lit "                          ]" ++ [10%N]);
(lit "                        }," ++ [10%N]);
(lit "                        {" ++ [10%N]);
(lit "                          ""token_type"": 9," ++ [10%N]);
(lit "                          ""token_name"": ""OR""," ++ [10%N]);
(lit "                          ""text"": ""|""" ++ [10%N]);
(lit "                        }," ++ [10%N]);
(lit "                        {" ++ [10%N]);
(lit "                          ""rule_index"": 3," ++ [10%N]);
(lit "                          ""rule_name"": ""alternative""," ++ [10%N]);
(lit "                          ""children"": [" ++ [10%N]);
(lit "                            {" ++ [10%N]);
(lit "                              ""rule_index"": 5," ++ [10%N]);
(lit "                              ""rule_name"": ""element""," ++ [10%N]);
(lit "                              ""children"": [" ++ [10%N]);
(lit "                                {" ++ [10%N]);
(lit "                                  ""token_type"": 6," ++ [10%N]);
(lit "                                  ""token_name"": ""TOKEN_REF""," ++ [10%N]);
(lit "                                  ""text"": ""PLUS""" ++ [10%N]);
(lit "                                }" ++ [10%N]);
(lit "                              ]" ++ [10%N]);
(lit "                            }" ++ [10%N]);
(lit "                          ]" ++ [10%N]);
(lit "                        }," ++ [10%N]);
(lit "                        {" ++ [10%N]);
(lit "                          ""token_type"": 9," ++ [10%N]);
(lit "                          ""token_name"": ""OR""," ++ [10%N]);
(lit "                          ""text"": ""|""" ++ [10%N]);
(lit "                        }," ++ [10%N]);
(lit "                        {" ++ [10%N]);
(lit "                          ""rule_index"": 3," ++ [10%N]);
(lit "                          ""rule_name"": ""alternative""," ++ [10%N]);
(lit "                          ""children"": [" ++ [10%N]);
(lit "                            {" ++ [10%N]);
(lit "                              ""rule_index"": 5," ++ [10%N]);
(lit "                              ""rule_name"": ""element""," ++ [10%N]);
(lit "                              ""children"": [" ++ [10%N]);
(lit "                                {" ++ [10%N]);
(lit "                                  ""token_type"": 6," ++ [10%N]);
(lit "                                  ""token_name"": ""TOKEN_REF""," ++ [10%N]);
(lit "                                  ""text"": ""QUESTION""" ++ [10%N]);
(lit "                                }" ++ [10%N]);
(lit "                              ]" ++ [10%N]);
(lit "                            }" ++ [10%N]);
(lit "                          ]" ++ [10%N]);
(lit "                        }" ++ [10%N]);
(lit "                      ]" ++ [10%N]);
(lit "                    }," ++ [10%N]);
(lit "                    {" ++ [10%N]);
(lit "                      ""token_type"": 17," ++ [10%N]);
(lit "                      ""token_name"": ""RPAREN""," ++ [10%N]);
(lit "                      ""text"": "")""" ++ [10%N]);
(lit "                    }" ++ [10%N]);
(lit "                  ]" ++ [10%N]);
(lit "                }," ++ [10%N]);
(lit "                {" ++ [10%N]);
(lit "                  ""rule_index"": 5," ++ [10%N]);
(lit "                  ""rule_name"": ""element""," ++ [10%N]);
(lit "                  ""children"": [" ++ [10%N]);
(lit "                    {" ++ [10%N]);
(lit "                      ""token_type"": 6," ++ [10%N]);
(lit "                      ""token_name"": ""TOKEN_REF""," ++ [10%N]);
(lit "                      ""text"": ""QUESTION""" ++ [10%N]);
(lit "                    }," ++ [10%N]);
(lit "                    {" ++ [10%N]);
(lit "                      ""rule_index"": 6," ++ [10%N]);
(lit "                      ""rule_name"": ""ebnf_suffix""," ++ [10%N]);
(lit "                      ""children"": [" ++ [10%N]);
(lit "                        {" ++ [10%N]);
(lit "                          ""token_type"": 13," ++ [10%N]);
(lit "                          ""token_name"": ""QUESTION""," ++ [10%N]);
(lit "                          ""text"": ""?""" ++ [10%N]);
(lit "                        }" ++ [10%N]);
(lit "                      ]" ++ [10%N]);
(lit "                    }" ++ [10%N]);
(lit "                  ]" ++ [10%N]);
(lit "                }" ++ [10%N]);
(lit "              ]" ++ [10%N]);
(lit "            }" ++ [10%N]);
(lit "          ]" ++ [10%N]);
(lit "        }," ++ [10%N]);
(lit "        {" ++ [10%N]);
(lit "          ""token_type"": 10," ++ [10%N]);
(lit "          ""token_name"": ""SEMI""," ++ [10%N]);
(lit "          ""text"": "";""" ++ [10%N]);
(lit "        }" ++ [10%N]);
(lit "      ]" ++ [10%N]);
(lit "    }," ++ [10%N]);
(lit "    {" ++ [10%N]);
(lit "      ""rule_index"": 1," ++ [10%N]);
(lit "      ""rule_name"": ""parser_rule""," ++ [10%N]);
(lit "      ""children"": [" ++ [10%N]);
(lit "        {" ++ [10%N]);
(lit "          ""token_type"": 7," ++ [10%N]);
(lit "          ""token_name"": ""RULE_REF""," ++ [10%N]);
(lit "          ""text"": ""lexer_rule""" ++ [10%N]);
(lit "        }," ++ [10%N]);
(lit "        {" ++ [10%N]);
(lit "          ""token_type"": 8," ++ [10%N]);
(lit "          ""token_name"": ""COLON""," ++ [10%N]);
(lit "          ""text"": "":""" ++ [10%N]);
(lit "        }," ++ [10%N]);
(lit "        {" ++ [10%N]);
(lit "          ""rule_index"": 2," ++ [10%N]);
(lit "          ""rule_name"": ""block""," ++ [10%N]);
(lit "          ""children"": [" ++ [10%N]);
(lit "            {" ++ [10%N]);
(lit "              ""rule_index"": 3," ++ [10%N]);
(lit "              ""rule_name"": ""alternative""," ++ [10%N]);
(lit "              ""children"": [" ++ [10%N]);
(lit "                {" ++ [10%N]);
(lit "                  ""rule_index"": 5," ++ [10%N]);
(lit "                  ""rule_name"": ""element""," ++ [10%N]);
(lit "                  ""children"": [" ++ [10%N]);
(lit "                    {" ++ [10%N]);
(lit "                      ""token_type"": 6," ++ [10%N]);
(lit "                      ""token_name"": ""TOKEN_REF""," ++ [10%N]);
(lit "                      ""text"": ""TOKEN_REF""" ++ [10%N]);
(lit "                    }" ++ [10%N]);
(lit "                  ]" ++ [10%N]);
(lit "                }," ++ [10%N]);
(lit "                {" ++ [10%N]);
(lit "                  ""rule_index"": 5," ++ [10%N]);
(lit "                  ""rule_name"": ""element""," ++ [10%N]);
(lit "                  ""children"": [" ++ [10%N]);
(lit "                    {" ++ [10%N]);
(lit "                      ""token_type"": 6," ++ [10%N]);
(lit "                      ""token_name"": ""TOKEN_REF""," ++ [10%N]);
(lit "                      ""text"": ""COLON""" ++ [10%N]);
(lit "                    }" ++ [10%N]);
(lit "                  ]" ++ [10%N]);
(lit "                }," ++ [10%N]);
(lit "                {" ++ [10%N]);
(lit "                  ""rule_index"": 5," ++ [10%N]);
(lit "                  ""rule_name"": ""element""," ++ [10%N]);
(lit "                  ""children"": [" ++ [10%N]);
(lit "                    {" ++ [10%N]);
(lit "                      ""token_type"": 7," ++ [10%N]);
(lit "                      ""token_name"": ""RULE_REF""," ++ [10%N]);
(lit "                      ""text"": ""regular""" ++ [10%N]);
(lit "                    }" ++ [10%N]);
(lit "                  ]" ++ [10%N]);
(lit "                }," ++ [10%N]);
(lit "                {" ++ [10%N]);
(lit "                  ""rule_index"": 5," ++ [10%N]);
(lit "                  ""rule_name"": ""element""," ++ [10%N]);
(lit "                  ""children"": [" ++ [10%N]);
(lit "                    {" ++ [10%N]);
(lit "                      ""token_type"": 6," ++ [10%N]);
(lit "                      ""token_name"": ""TOKEN_REF""," ++ [10%N]);
(lit "                      ""text"": ""SEMI""" ++ [10%N]);
(lit "                    }" ++ [10%N]);
(lit "                  ]" ++ [10%N]);
(lit "                }" ++ [10%N]);
(lit "              ]" ++ [10%N]);
(lit "            }" ++ [10%N]);
(lit "          ]" ++ [10%N]);
(lit "        }," ++ [10%N]);
(lit "        {" ++ [10%N]);
(lit "          ""token_type"": 10," ++ [10%N]);
(lit "          ""token_name"": ""SEMI""," ++ [10%N]);
(lit "          ""text"": "";""" ++ [10%N]);
(lit "        }" ++ [10%N]);
(lit "      ]" ++ [10%N]);
(lit "    }," ++ [10%N]);
(lit "    {" ++ [10%N]);
(lit "      ""rule_index"": 1," ++ [10%N]);
(lit "      ""rule_name"": ""parser_rule""," ++ [10%N]);
(lit "      ""children"": [" ++ [10%N]);
(lit "        {" ++ [10%N]);
(lit "          ""token_type"": 7," ++ [10%N]);
(lit "          ""token_name"": ""RULE_REF""," ++ [10%N]);
(lit "          ""text"": ""regular""" ++ [10%N]);
(lit "        }," ++ [10%N]);
(lit "        {" ++ [10%N]);
(lit "          ""token_type"": 8," ++ [10%N]);
(lit "          ""token_name"": ""COLON""," ++ [10%N]);
(lit "          ""text"": "":""" ++ [10%N]);
(lit "        }," ++ [10%N]);
(lit "        {" ++ [10%N]);
(lit "          ""rule_index"": 2," ++ [10%N]);
(lit "          ""rule_name"": ""block""," ++ [10%N]);
(lit "          ""children"": [" ++ [10%N]);
(lit "            {" ++ [10%N]);
(lit "              ""rule_index"": 3," ++ [10%N]);
(lit "              ""rule_name"": ""alternative""," ++ [10%N]);
(lit "              ""children"": [" ++ [10%N]);
(lit "                {" ++ [10%N]);
(lit "                  ""rule_index"": 5," ++ [10%N]);
(lit "                  ""rule_name"": ""element""," ++ [10%N]);
(lit "                  ""children"": [" ++ [10%N]);
(lit "                    {" ++ [10%N]);
(lit "                      ""token_type"": 6," ++ [10%N]);
(lit "                      ""token_name"": ""TOKEN_REF""," ++ [10%N]);
(lit "                      ""text"": ""REGULAR_LITERAL""" ++ [10%N]);
(lit "                    }" ++ [10%N]);
(lit "                  ]" ++ [10%N]);
(lit "                }" ++ [10%N]);
(lit "              ]" ++ [10%N]);
(lit "            }" ++ [10%N]);
(lit "          ]" ++ [10%N]);
(lit "        }," ++ [10%N]);
(lit "        {" ++ [10%N]);
(lit "          ""token_type"": 10," ++ [10%N]);
(lit "          ""token_name"": ""SEMI""," ++ [10%N]);
(lit "          ""text"": "";""" ++ [10%N]);
(lit "        }" ++ [10%N]);
(lit "      ]" ++ [10%N]);
(lit "    }," ++ [10%N]);
(lit "    {" ++ [10%N]);
(lit "      ""rule_index"": 7," ++ [10%N]);
(lit "      ""rule_name"": ""lexer_rule""," ++ [10%N]);
(lit "      ""children"": [" ++ [10%N]);
(lit "        {" ++ [10%N]);
(lit "          ""token_type"": 6," ++ [10%N]);
(lit "          ""token_name"": ""TOKEN_REF""," ++ [10%N]);
(lit "          ""text"": ""RULE_REF""" ++ [10%N]);
(lit "        }," ++ [10%N]);
(lit "        {" ++ [10%N]);
(lit "          ""token_type"": 8," ++ [10%N]);
(lit "          ""token_name"": ""COLON""," ++ [10%N]);
(lit "          ""text"": "":""" ++ [10%N]);
(lit "        }," ++ [10%N]);
(lit "        {" ++ [10%N]);
(lit "          ""rule_index"": 8," ++ [10%N]);
(lit "          ""rule_name"": ""regular""," ++ [10%N]);
(lit "          ""children"": [" ++ [10%N]);
(lit "            {" ++ [10%N]);
(lit "              ""token_type"": 21," ++ [10%N]);
(lit "              ""token_name"": ""REGULAR_LITERAL""," ++ [10%N]);
(lit "              ""text"": ""/[a-z][a-zA-Z0-9_]+/""" ++ [10%N]);
(lit "            }" ++ [10%N]);
(lit "          ]" ++ [10%N]);
(lit "        }," ++ [10%N]);
(lit "        {" ++ [10%N]);
(lit "          ""token_type"": 10," ++ [10%N]);
(lit "          ""token_name"": ""SEMI""," ++ [10%N]);
(lit "          ""text"": "";""" ++ [10%N]);
(lit "        }" ++ [10%N]);
(lit "      ]" ++ [10%N]);
(lit "    }," ++ [10%N]);
(lit "    {" ++ [10%N]);
(lit "      ""rule_index"": 7," ++ [10%N]);
(lit "      ""rule_name"": ""lexer_rule""," ++ [10%N]);
(lit "      ""children"": [" ++ [10%N]);
(lit "        {" ++ [10%N]);
(lit "          ""token_type"": 6," ++ [10%N]);
(lit "          ""token_name"": ""TOKEN_REF""," ++ [10%N]);
(lit "          ""text"": ""TOKEN_REF""" ++ [10%N]);
(lit "        }," ++ [10%N]);
(lit "        {" ++ [10%N]);
(lit "          ""token_type"": 8," ++ [10%N]);
(lit "          ""token_name"": ""COLON""," ++ [10%N]);
(lit "          ""text"": "":""" ++ [10%N]);
(lit "        }," ++ [10%N]);
(lit "        {" ++ [10%N]);
(lit "          ""rule_index"": 8," ++ [10%N]);
(lit "          ""rule_name"": ""regular""," ++ [10%N]);
(lit "          ""children"": [" ++ [10%N]);
(lit "            {" ++ [10%N]);
(lit "              ""token_type"": 21," ++ [10%N]);
(lit "              ""token_name"": ""REGULAR_LITERAL""," ++ [10%N]);
(lit "              ""text"": ""/[A-Z][a-zA-Z0-9_]+/""" ++ [10%N]);
(lit "            }" ++ [10%N]);
(lit "          ]" ++ [10%N]);
(lit "        }," ++ [10%N]);
(lit "        {" ++ [10%N]);
(lit "          ""token_type"": 10," ++ [10%N]);
(lit "          ""token_name"": ""SEMI""," ++ [10%N]);
(lit "          ""text"": "";""" ++ [10%N]);
(lit "        }" ++ [10%N]);
(lit "      ]" ++ [10%N]);
(lit "    }," ++ [10%N]);
(lit "    {" ++ [10%N]);
(lit "      ""rule_index"": 7," ++ [10%N]);
(lit "      ""rule_name"": ""lexer_rule""," ++ [10%N]);
(lit "      ""children"": [" ++ [10%N]);
(lit "        {" ++ [10%N]);
(lit "          ""token_type"": 6," ++ [10%N]);
(lit "          ""token_name"": ""TOKEN_REF""," ++ [10%N]);
(lit "          ""text"": ""COLON""" ++ [10%N]);
(lit "        }," ++ [10%N]);
(lit "        {" ++ [10%N]);
(lit "          ""token_type"": 8," ++ [10%N]);
(lit "          ""token_name"": ""COLON""," ++ [10%N]);
(lit "          ""text"": "":""" ++ [10%N]);
(lit "        }," ++ [10%N]);
(lit "        {" ++ [10%N]);
(lit "          ""rule_index"": 8," ++ [10%N]);
(lit "          ""rule_name"": ""regular""," ++ [10%N]);
(lit "          ""children"": [" ++ [10%N]);
(lit "            {" ++ [10%N]);
(lit "              ""token_type"": 21," ++ [10%N]);
(lit "              ""token_name"": ""REGULAR_LITERAL""," ++ [10%N]);
(lit "              ""text"": ""/::=|:=|->|=>|:|=/""" ++ [10%N]);
(lit "            }" ++ [10%N]);
(lit "          ]" ++ [10%N]);
(lit "        }," ++ [10%N]);
(lit "        {" ++ [10%N]);
(lit "          ""token_type"": 10," ++ [10%N]);
(lit "          ""token_name"": ""SEMI""," ++ [10%N]);
(lit "          ""text"": "";""" ++ [10%N]);
(lit "        }" ++ [10%N]);
(lit "      ]" ++ [10%N]);
(lit "    }," ++ [10%N]);
(lit "    {" ++ [10%N]);
(lit "      ""rule_index"": 7," ++ [10%N]);
(lit "      ""rule_name"": ""lexer_rule""," ++ [10%N]);
(lit "      ""children"": [" ++ [10%N]);
(lit "        {" ++ [10%N]);
(lit "          ""token_type"": 6," ++ [10%N]);
(lit "          ""token_name"": ""TOKEN_REF""," ++ [10%N]);
(lit "          ""text"": ""SEMI""" ++ [10%N]);
(lit "        }," ++ [10%N]);
(lit "        {" ++ [10%N]);
(lit "          ""token_type"": 8," ++ [10%N]);
(lit "          ""token_name"": ""COLON""," ++ [10%N]);
(lit "          ""text"": "":""" ++ [10%N]);
(lit "        }," ++ [10%N]);
(lit "        {" ++ [10%N]);
(lit "          ""rule_index"": 8," ++ [10%N]);
(lit "          ""rule_name"": ""regular""," ++ [10%N]);
(lit "          ""children"": [" ++ [10%N]);
(lit "            {" ++ [10%N]);
(lit "              ""token_type"": 21," ++ [10%N]);
(lit "              ""token_name"": ""REGULAR_LITERAL""," ++ [10%N]);
(lit "              ""text"": ""/;/""" ++ [10%N]);
(lit "            }" ++ [10%N]);
(lit "          ]" ++ [10%N]);
(lit "        }," ++ [10%N]);
(lit "        {" ++ [10%N]);
(lit "          ""token_type"": 10," ++ [10%N]);
(lit "          ""token_name"": ""SEMI""," ++ [10%N]);
(lit "          ""text"": "";""" ++ [10%N]);
(lit "        }" ++ [10%N]);
(lit "      ]" ++ [10%N]);
(lit "    }," ++ [10%N]);
(lit "    {" ++ [10%N]);
(lit "      ""rule_index"": 7," ++ [10%N]);
(lit "      ""rule_name"": ""lexer_rule""," ++ [10%N]);
(lit "      ""children"": [" ++ [10%N]);
(lit "        {" ++ [10%N]);
(lit "          ""token_type"": 6," ++ [10%N]);
(lit "          ""token_name"": ""TOKEN_REF""," ++ [10%N]);
(lit "          ""text"": ""OR""" ++ [10%N]);
(lit "        }," ++ [10%N]);
(lit "        {" ++ [10%N]);
(lit "          ""token_type"": 8," ++ [10%N]);
(lit "          ""token_name"": ""COLON""," ++ [10%N]);
(lit "          ""text"": "":""" ++ [10%N]);
(lit "        }," ++ [10%N]);
(lit "        {" ++ [10%N]);
(lit "          ""rule_index"": 8," ++ [10%N]);
(lit "          ""rule_name"": ""regular""," ++ [10%N]);
(lit "          ""children"": [" ++ [10%N]);
(lit "            {" ++ [10%N]);
(lit "              ""token_type"": 21," ++ [10%N]);
(lit "              ""token_name"": ""REGULAR_LITERAL""," ++ [10%N]);
(lit "              ""text"": ""/\\|/""" ++ [10%N]);
(lit "            }" ++ [10%N]);
(lit "          ]" ++ [10%N]);
(lit "        }," ++ [10%N]);
(lit "        {" ++ [10%N]);
(lit "          ""token_type"": 10," ++ [10%N]);
(lit "          ""token_name"": ""SEMI""," ++ [10%N]);
(lit "          ""text"": "";""" ++ [10%N]);
(lit "        }" ++ [10%N]);
(lit "      ]" ++ [10%N]);
(lit "    }," ++ [10%N]);
(lit "    {" ++ [10%N]);
(lit "      ""rule_index"": 7," ++ [10%N]);
(lit "      ""rule_name"": ""lexer_rule""," ++ [10%N]);
(lit "      ""children"": [" ++ [10%N]);
(lit "        {" ++ [10%N]);
(lit "          ""token_type"": 6," ++ [10%N]);
(lit "          ""token_name"": ""TOKEN_REF""," ++ [10%N]);
(lit "          ""text"": ""EPSILON""" ++ [10%N]);
(lit "        }," ++ [10%N]);
(lit "        {" ++ [10%N]);
(lit "          ""token_type"": 8," ++ [10%N]);
(lit "          ""token_name"": ""COLON""," ++ [10%N]);
(lit "          ""text"": "":""" ++ [10%N]);
(lit "        }," ++ [10%N]);
(lit "        {" ++ [10%N]);
(lit "          ""rule_index"": 8," ++ [10%N]);
(lit "          ""rule_name"": ""regular""," ++ [10%N]);
(lit "          ""children"": [" ++ [10%N]);
(lit "            {" ++ [10%N]);
(lit "              ""token_type"": 21," ++ [10%N]);
(lit "              ""token_name"": ""REGULAR_LITERAL""," ++ [10%N]);
(lit "              ""text"": ""/" ++ [949%N] ++ lit "|epsilon/""" ++ [10%N]);
(lit "            }" ++ [10%N]);
(lit "          ]" ++ [10%N]);
(lit "        }," ++ [10%N]);
(lit "        {" ++ [10%N]);
(lit "          ""token_type"": 10," ++ [10%N]);
(lit "          ""token_name"": ""SEMI""," ++ [10%N]);
(lit "          ""text"": "";""" ++ [10%N]);
(lit "        }" ++ [10%N]);
(lit "      ]" ++ [10%N]);
(lit "    }," ++ [10%N]);
(lit "    {" ++ [10%N]);
(lit "      ""rule_index"": 7," ++ [10%N]);
(lit "      ""rule_name"": ""lexer_rule""," ++ [10%N]);
(lit "      ""children"": [" ++ [10%N]);
(lit "        {" ++ [10%N]);
(lit "          ""token_type"": 6," ++ [10%N]);
(lit "          ""token_name"": ""TOKEN_REF""," ++ [10%N]);
(lit "          ""text"": ""STAR""" ++ [10%N]);
(lit "        }," ++ [10%N]);
(lit "        {" ++ [10%N]);
(lit "          ""token_type"": 8," ++ [10%N]);
(lit "          ""token_name"": ""COLON""," ++ [10%N]);
(lit "          ""text"": "":""" ++ [10%N]);
(lit "        }," ++ [10%N]);
(lit "        {" ++ [10%N]);
(lit "          ""rule_index"": 8," ++ [10%N]);
(lit "          ""rule_name"": ""regular""," ++ [10%N]);
(lit "          ""children"": [" ++ [10%N]);
(lit "            {" ++ [10%N]);
(lit "              ""token_type"": 21," ++ [10%N]);
(lit "              ""token_name"": ""REGULAR_LITERAL""," ++ [10%N]);
(lit "              ""text"": ""/\\*/""" ++ [10%N]);
(lit "            }" ++ [10%N]);
(lit "          ]" ++ [10%N]);
(lit "        }," ++ [10%N]);
(lit "        {" ++ [10%N]);
(lit "          ""token_type"": 10," ++ [10%N]);
(lit "          ""token_name"": ""SEMI""," ++ [10%N]);
(lit "          ""text"": "";""" ++ [10%N]);
(lit "        }" ++ [10%N]);
(lit "      ]" ++ [10%N]);
(lit "    }," ++ [10%N]);
(lit "    {" ++ [10%N]);
(lit "      ""rule_index"": 7," ++ [10%N]);
(lit "      ""rule_name"": ""lexer_rule""," ++ [10%N]);
(lit "      ""children"": [" ++ [10%N]);
(lit "        {" ++ [10%N]);
(lit "          ""token_type"": 6," ++ [10%N]);
(lit "          ""token_name"": ""TOKEN_REF""," ++ [10%N]);
(lit "          ""text"": ""PLUS""" ++ [10%N]);
(lit "        }," ++ [10%N]);
(lit "        {" ++ [10%N]);
(lit "          ""token_type"": 8," ++ [10%N]);
(lit "          ""token_name"": ""COLON""," ++ [10%N]);
(lit "          ""text"": "":""" ++ [10%N]);
(lit "        }," ++ [10%N]);
(lit "        {" ++ [10%N]);
(lit "          ""rule_index"": 8," ++ [10%N]);
(lit "          ""rule_name"": ""regular""," ++ [10%N]);
(lit "          ""children"": [" ++ [10%N]);
(lit "            {" ++ [10%N]);
(lit "              ""token_type"": 21," ++ [10%N]);
(lit "              ""token_name"": ""REGULAR_LITERAL""," ++ [10%N]);
(lit "              ""text"": ""/\\+/""" ++ [10%N]);
(lit "            }" ++ [10%N]);
(lit "          ]" ++ [10%N]);
(lit "        }," ++ [10%N]);
(lit "        {" ++ [10%N]);
(lit "          ""token_type"": 10," ++ [10%N]);
(lit "          ""token_name"": ""SEMI""," ++ [10%N]);
(lit "          ""text"": "";""" ++ [10%N]);
(lit "        }" ++ [10%N]);
(lit "      ]" ++ [10%N]);
(lit "    }," ++ [10%N]);
(lit "    {" ++ [10%N]);
(lit "      ""rule_index"": 7," ++ [10%N]);
(lit "      ""rule_name"": ""lexer_rule""," ++ [10%N]);
(lit "      ""children"": [" ++ [10%N]);
(lit "        {" ++ [10%N]);
(lit "          ""token_type"": 6," ++ [10%N]);
(lit "          ""token_name"": ""TOKEN_REF""," ++ [10%N]);
(lit "          ""text"": ""QUESTION""" ++ [10%N]);
(lit "        }," ++ [10%N]);
(lit "        {" ++ [10%N]);
(lit "          ""token_type"": 8," ++ [10%N]);
(lit "          ""token_name"": ""COLON""," ++ [10%N]);
(lit "          ""text"": "":""" ++ [10%N]);
(lit "        }," ++ [10%N]);
(lit "        {" ++ [10%N]);
(lit "          ""rule_index"": 8," ++ [10%N]);
(lit "          ""rule_name"": ""regular""," ++ [10%N]);
(lit "          ""children"": [" ++ [10%N]);
(lit "            {" ++ [10%N]);
(lit "              ""token_type"": 21," ++ [10%N]);
(lit "              ""token_name"": ""REGULAR_LITERAL""," ++ [10%N]);
(lit "              ""text"": ""/\\?/""" ++ [10%N]);
(lit "            }" ++ [10%N]);
(lit "          ]" ++ [10%N]);
(lit "        }," ++ [10%N]);
(lit "        {" ++ [10%N]);
(lit "          ""token_type"": 10," ++ [10%N]);
(lit "          ""token_name"": ""SEMI""," ++ [10%N]);
(lit "          ""text"": "";""" ++ [10%N]);
(lit "        }" ++ [10%N]);
(lit "      ]" ++ [10%N]);
(lit "    }," ++ [10%N]);
(lit "    {" ++ [10%N]);
(lit "      ""rule_index"": 7," ++ [10%N]);
(lit "      ""rule_name"": ""lexer_rule""," ++ [10%N]);
(lit "      ""children"": [" ++ [10%N]);
(lit "        {" ++ [10%N]);
(lit "          ""token_type"": 6," ++ [10%N]);
(lit "          ""token_name"": ""TOKEN_REF""," ++ [10%N]);
(lit "          ""text"": ""LPAREN""" ++ [10%N]);
(lit "        }," ++ [10%N]);
(lit "        {" ++ [10%N]);
(lit "          ""token_type"": 8," ++ [10%N]);
(lit "          ""token_name"": ""COLON""," ++ [10%N]);
(lit "          ""text"": "":""" ++ [10%N]);
(lit "        }," ++ [10%N]);
(lit "        {" ++ [10%N]);
(lit "          ""rule_index"": 8," ++ [10%N]);
(lit "          ""rule_name"": ""regular""," ++ [10%N]);
(lit "          ""children"": [" ++ [10%N]);
(lit "            {" ++ [10%N]);
(lit "              ""token_type"": 21," ++ [10%N]);
(lit "              ""token_name"": ""REGULAR_LITERAL""," ++ [10%N]);
(lit "              ""text"": ""/\\(/""" ++ [10%N]);
(lit "            }" ++ [10%N]);
(lit "          ]" ++ [10%N]);
(lit "        }," ++ [10%N]);
(lit "        {" ++ [10%N]);
(lit "          ""token_type"": 10," ++ [10%N]);
(lit "          ""token_name"": ""SEMI""," ++ [10%N]);
(lit "          ""text"": "";""" ++ [10%N]);
(lit "        }" ++ [10%N]);
(lit "      ]" ++ [10%N]);
(lit "    }," ++ [10%N]);
(lit "    {" ++ [10%N]);
(lit "      ""rule_index"": 7," ++ [10%N]);
(lit "      ""rule_name"": ""lexer_rule""," ++ [10%N]);
(lit "      ""children"": [" ++ [10%N]);
(lit "        {" ++ [10%N]);
(lit "          ""token_type"": 6," ++ [10%N]);
(lit "          ""token_name"": ""TOKEN_REF""," ++ [10%N]);
(lit "          ""text"": ""RPAREN""" ++ [10%N]);
(lit "        }," ++ [10%N]);
(lit "        {" ++ [10%N]);
(lit "          ""token_type"": 8," ++ [10%N]);
(lit "          ""token_name"": ""COLON""," ++ [10%N]);
(lit "          ""text"": "":""" ++ [10%N]);
(lit "        }," ++ [10%N]);
(lit "        {" ++ [10%N]);
(lit "          ""rule_index"": 8," ++ [10%N]);
(lit "          ""rule_name"": ""regular""," ++ [10%N]);
(lit "          ""children"": [" ++ [10%N]);
(lit "            {" ++ [10%N]);
(lit "              ""token_type"": 21," ++ [10%N]);
(lit "              ""token_name"": ""REGULAR_LITERAL""," ++ [10%N]);
(lit "              ""text"": ""/\\)/""" ++ [10%N]);
(lit "            }" ++ [10%N]);
(lit "          ]" ++ [10%N]);
(lit "        }," ++ [10%N]);
(lit "        {" ++ [10%N]);
(lit "          ""token_type"": 10," ++ [10%N]);
(lit "          ""token_name"": ""SEMI""," ++ [10%N]);
(lit "          ""text"": "";""" ++ [10%N]);
(lit "        }" ++ [10%N]);
(lit "      ]" ++ [10%N]);
(lit "    }," ++ [10%N]);
(lit "    {" ++ [10%N]);
(lit "      ""rule_index"": 7," ++ [10%N]);
(lit "      ""rule_name"": ""lexer_rule""," ++ [10%N]);
(lit "      ""children"": [" ++ [10%N]);
(lit "        {" ++ [10%N]);
(lit "          ""token_type"": 6," ++ [10%N]);
(lit "          ""token_name"": ""TOKEN_REF""," ++ [10%N]);
(lit "          ""text"": ""STRING_LITERAL""" ++ [10%N]);
(lit "        }," ++ [10%N]);
(lit "        {" ++ [10%N]);
(lit "          ""token_type"": 8," ++ [10%N]);
(lit "          ""token_name"": ""COLON""," ++ [10%N]);
(lit "          ""text"": "":""" ++ [10%N]);
(lit "        }," ++ [10%N]);
(lit "        {" ++ [10%N]);
(lit "          ""rule_index"": 8," ++ [10%N]);
(lit "          ""rule_name"": ""regular""," ++ [10%N]);
(lit "          ""children"": [" ++ [10%N]);
(lit "            {" ++ [10%N]);
(lit "              ""token_type"": 21," ++ [10%N]);
(lit "              ""token_name"": ""REGULAR_LITERAL""," ++ [10%N]);
(lit "              ""text"": ""/'([^\\a\\d\\n\\r\\t\\f\\v\\\\']|(\\\\\\\\|\\\\'|\\\\a|\\\\d|\\\\n|\\\\r|\\\\t|\\\\f|\\\\v|\\\\u\\{(0x|0)?[a-f0-9]+\\})|\\d)*'/""" ++ [10%N]);
(lit "            }" ++ [10%N]);
(lit "          ]" ++ [10%N]);
(lit "        }," ++ [10%N]);
(lit "        {" ++ [10%N]);
(lit "          ""token_type"": 10," ++ [10%N]);
(lit "          ""token_name"": ""SEMI""," ++ [10%N]);
(lit "          ""text"": "";""" ++ [10%N]);
(lit "        }" ++ [10%N]);
(lit "      ]" ++ [10%N]);
(lit "    }," ++ [10%N]);
(lit "    {" ++ [10%N]);
(lit "      ""rule_index"": 7," ++ [10%N]);
(lit "      ""rule_name"": ""lexer_rule""," ++ [10%N]);
(lit "      ""children"": [" ++ [10%N]);
(lit "        {" ++ [10%N]);
(lit "          ""token_type"": 6," ++ [10%N]);
(lit "          ""token_name"": ""TOKEN_REF""," ++ [10%N]);
(lit "          ""text"": ""REGULAR_LITERAL""" ++ [10%N]);
(lit "        }," ++ [10%N]);
(lit "        {" ++ [10%N]);
(lit "          ""token_type"": 8," ++ [10%N]);
(lit "          ""token_name"": ""COLON""," ++ [10%N]);
(lit "          ""text"": "":""" ++ [10%N]);
(lit "        }," ++ [10%N]);
(lit "        {" ++ [10%N]);
(lit "          ""rule_index"": 8," ++ [10%N]);
(lit "          ""rule_name"": ""regular""," ++ [10%N]);
(lit "          ""children"": [" ++ [10%N]);
(lit "            {" ++ [10%N]);
(lit "              ""token_type"": 21," ++ [10%N]);
(lit "              ""token_name"": ""REGULAR_LITERAL""," ++ [10%N]);
(lit "              ""text"": ""/\\/(\\\\\\/|[^\\/])+\\//""" ++ [10%N]);
(lit "            }" ++ [10%N]);
(lit "          ]" ++ [10%N]);
(lit "        }," ++ [10%N]);
(lit "        {" ++ [10%N]);
(lit "          ""token_type"": 10," ++ [10%N]);
(lit "          ""token_name"": ""SEMI""," ++ [10%N]);
(lit "          ""text"": "";""" ++ [10%N]);
(lit "        }" ++ [10%N]);
(lit "      ]" ++ [10%N]);
(lit "    }," ++ [10%N]);
(lit "    {" ++ [10%N]);
(lit "      ""rule_index"": 7," ++ [10%N]);
(lit "      ""rule_name"": ""lexer_rule""," ++ [10%N]);
(lit "      ""children"": [" ++ [10%N]);
(lit "        {" ++ [10%N]);
(lit "          ""token_type"": 6," ++ [10%N]);
(lit "          ""token_name"": ""TOKEN_REF""," ++ [10%N]);
(lit "          ""text"": ""WHITE_SPACE""" ++ [10%N]);
(lit "        }," ++ [10%N]);
(lit "        {" ++ [10%N]);
(lit "          ""token_type"": 8," ++ [10%N]);
(lit "          ""token_name"": ""COLON""," ++ [10%N]);
(lit "          ""text"": "":""" ++ [10%N]);
(lit "        }," ++ [10%N]);
(lit "        {" ++ [10%N]);
(lit "          ""rule_index"": 8," ++ [10%N]);
(lit "          ""rule_name"": ""regular""," ++ [10%N]);
(lit "          ""children"": [" ++ [10%N]);
(lit "            {" ++ [10%N]);
(lit "              ""token_type"": 21," ++ [10%N]);
(lit "              ""token_name"": ""REGULAR_LITERAL""," ++ [10%N]);
(lit "              ""text"": ""/[ \\r\\n\\t\\f]+/""" ++ [10%N]);
(lit "            }" ++ [10%N]);
(lit "          ]" ++ [10%N]);
(lit "        }," ++ [10%N]);
(lit "        {" ++ [10%N]);
(lit "          ""token_type"": 10," ++ [10%N]);
(lit "          ""token_name"": ""SEMI""," ++ [10%N]);
(lit "          ""text"": "";""" ++ [10%N]);
(lit "        }" ++ [10%N]);
(lit "      ]" ++ [10%N]);
(lit "    }" ++ [10%N]);
(lit "  ]" ++ [10%N]);
(lit "}")].
