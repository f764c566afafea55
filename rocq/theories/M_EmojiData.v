(** The table of src/extensions/emoji_data.h 17-939, in its order. *)
From Verif Require Import Base M_Emoji.

Definition U (n u : string) : entry := Entry (B n) (Some (B u)) None.
Definition I (n i : string) : entry := Entry (B n) None (Some (B i)).
Definition github : list entry :=
  [U "+1" "👍"; U "-1" "👎"; U "100" "💯"; U "1234" "🔢"; U "8ball" "🎱"; U "a" "🅰️"; U "ab" "🆎"; U "abc" "🔤"; U "abcd" "🔡"; U "accept" "🉑";
   U "aerial_tramway" "🚡"; U "airplane" "✈️"; U "alarm_clock" "⏰"; U "alien" "👽"; U "ambulance" "🚑"; U "anchor" "⚓"; U "angel" "👼"; U "anger" "💢";
   U "angry" "😠"; U "anguished" "😧"; U "ant" "🐜"; U "apple" "🍎"; U "aquarius" "♒"; U "aries" "♈"; U "arrow_backward" "◀️"; U "arrow_double_down" "⏬";
   U "arrow_double_up" "⏫"; U "arrow_down" "⬇️"; U "arrow_down_small" "🔽"; U "arrow_forward" "▶️"; U "arrow_heading_down" "⤵️";
   U "arrow_heading_up" "⤴️"; U "arrow_left" "⬅️"; U "arrow_lower_left" "↙️"; U "arrow_lower_right" "↘️"; U "arrow_right" "➡️";
   U "arrow_right_hook" "↪️"; U "arrow_up" "⬆️"; U "arrow_up_down" "↕️"; U "arrow_up_small" "🔼"; U "arrow_upper_left" "↖️"; U "arrow_upper_right" "↗️";
   U "arrows_clockwise" "🔃"; U "arrows_counterclockwise" "🔄"; U "art" "🎨"; U "articulated_lorry" "🚛"; U "astonished" "😲"; U "atm" "🏧"; U "b" "🅱️";
   U "baby" "👶"; U "baby_bottle" "🍼"; U "baby_chick" "🐤"; U "baby_symbol" "🚼"; U "baggage_claim" "🛄"; U "balloon" "🎈"; U "ballot_box_with_check" "☑️";
   U "bamboo" "🎍"; U "banana" "🍌"; U "bangbang" "‼️"; U "bank" "🏦"; U "bar_chart" "📊"; U "barber" "💈"; U "baseball" "⚾"; U "basketball" "🏀";
   U "bath" "🛀"; U "bathtub" "🛁"; U "battery" "🔋"; U "bear" "🐻"; U "beer" "🍺"; U "beers" "🍻"; U "beetle" "🪲"; U "beginner" "🔰"; U "bell" "🔔";
   U "bento" "🍱"; U "bicyclist" "🚴"; U "bike" "🚲"; U "bikini" "👙"; U "bird" "🐦"; U "birthday" "🎂"; U "black_circle" "⚫"; U "black_joker" "🃏";
   U "black_nib" "✒️"; U "black_square_button" "🔲"; U "blossom" "🌼"; U "blowfish" "🐡"; U "blue_book" "📘"; U "blue_car" "🚙"; U "blue_heart" "💙";
   U "blush" "😊"; U "boar" "🐗"; U "boat" "⛵"; U "bomb" "💣"; U "book" "📖"; U "bookmark" "🔖"; U "bookmark_tabs" "📑"; U "books" "📚"; U "boom" "💥";
   U "boot" "👢"; U "bouquet" "💐"; U "bow" "🙇"; U "bowling" "🎳"; I "bowtie" "https://github.githubassets.com/images/icons/emoji/bowtie.png"; U "boy" "👦";
   U "bread" "🍞"; U "bride_with_veil" "👰‍♀️"; U "bridge_at_night" "🌉"; U "briefcase" "💼"; U "broken_heart" "💔"; U "bug" "🐛"; U "bulb" "💡";
   U "bullettrain_front" "🚅"; U "bullettrain_side" "🚄"; U "bus" "🚌"; U "busstop" "🚏"; U "bust_in_silhouette" "👤"; U "busts_in_silhouette" "👥";
   U "cactus" "🌵"; U "cake" "🍰"; U "calendar" "📆"; U "calling" "📲"; U "camel" "🐫"; U "camera" "📷"; U "cancer" "♋"; U "candy" "🍬"; U "capital_abcd" "🔠";
   U "capricorn" "♑"; U "car" "🚗"; U "card_index" "📇"; U "carousel_horse" "🎠"; U "cat" "🐱"; U "cat2" "🐈"; U "cd" "💿"; U "chart" "💹";
   U "chart_with_downwards_trend" "📉"; U "chart_with_upwards_trend" "📈"; U "checkered_flag" "🏁"; U "cherries" "🍒"; U "cherry_blossom" "🌸";
   U "chestnut" "🌰"; U "chicken" "🐔"; U "children_crossing" "🚸"; U "chocolate_bar" "🍫"; U "christmas_tree" "🎄"; U "church" "⛪"; U "cinema" "🎦";
   U "circus_tent" "🎪"; U "city_sunrise" "🌇"; U "city_sunset" "🌆"; U "cl" "🆑"; U "clap" "👏"; U "clapper" "🎬"; U "clipboard" "📋"; U "clock1" "🕐";
   U "clock10" "🕙"; U "clock1030" "🕥"; U "clock11" "🕚"; U "clock1130" "🕦"; U "clock12" "🕛"; U "clock1230" "🕧"; U "clock130" "🕜"; U "clock2" "🕑";
   U "clock230" "🕝"; U "clock3" "🕒"; U "clock330" "🕞"; U "clock4" "🕓"; U "clock430" "🕟"; U "clock5" "🕔"; U "clock530" "🕠"; U "clock6" "🕕";
   U "clock630" "🕡"; U "clock7" "🕖"; U "clock730" "🕢"; U "clock8" "🕗"; U "clock830" "🕣"; U "clock9" "🕘"; U "clock930" "🕤"; U "closed_book" "📕";
   U "closed_lock_with_key" "🔐"; U "closed_umbrella" "🌂"; U "cloud" "☁️"; U "clubs" "♣️"; U "cn" "🇨🇳"; U "cocktail" "🍸"; U "coffee" "☕";
   U "cold_sweat" "😰"; U "collision" "💥"; U "computer" "💻"; U "confetti_ball" "🎊"; U "confounded" "😖"; U "confused" "😕"; U "congratulations" "㊗️";
   U "construction" "🚧"; U "construction_worker" "👷"; U "convenience_store" "🏪"; U "cookie" "🍪"; U "cool" "🆒"; U "cop" "👮"; U "copyright" "©️";
   U "corn" "🌽"; U "couple" "👫"; U "couple_with_heart" "💑"; U "couplekiss" "💏"; U "cow" "🐮"; U "cow2" "🐄"; U "credit_card" "💳"; U "crocodile" "🐊";
   U "crossed_flags" "🎌"; U "crown" "👑"; U "cry" "😢"; U "crying_cat_face" "😿"; U "crystal_ball" "🔮"; U "cupid" "💘"; U "curly_loop" "➰";
   U "currency_exchange" "💱"; U "curry" "🍛"; U "custard" "🍮"; U "customs" "🛃"; U "cyclone" "🌀"; U "dancer" "💃"; U "dancers" "👯"; U "dango" "🍡";
   U "dart" "🎯"; U "dash" "💨"; U "date" "📅"; U "de" "🇩🇪"; U "deciduous_tree" "🌳"; U "department_store" "🏬"; U "diamond_shape_with_a_dot_inside" "💠";
   U "diamonds" "♦️"; U "disappointed" "😞"; U "disappointed_relieved" "😥"; U "dizzy" "💫"; U "dizzy_face" "😵"; U "do_not_litter" "🚯"; U "dog" "🐶";
   U "dog2" "🐕"; U "dollar" "💵"; U "dolls" "🎎"; U "dolphin" "🐬"; U "door" "🚪"; U "doughnut" "🍩"; U "dragon" "🐉"; U "dragon_face" "🐲"; U "dress" "👗";
   U "dromedary_camel" "🐪"; U "droplet" "💧"; U "dvd" "📀"; U "e-mail" "📧"; U "ear" "👂"; U "ear_of_rice" "🌾"; U "earth_africa" "🌍"; U "earth_americas" "🌎";
   U "earth_asia" "🌏"; U "egg" "🥚"; U "eggplant" "🍆"; U "eight" "8️⃣"; U "eight_pointed_black_star" "✴️"; U "eight_spoked_asterisk" "✳️";
   U "electric_plug" "🔌"; U "elephant" "🐘"; U "email" "📧"; U "end" "🔚"; U "envelope" "✉️"; U "es" "🇪🇸"; U "euro" "💶"; U "european_castle" "🏰";
   U "european_post_office" "🏤"; U "evergreen_tree" "🌲"; U "exclamation" "❗"; U "expressionless" "😑"; U "eyeglasses" "👓"; U "eyes" "👀";
   U "facepunch" "👊"; U "factory" "🏭"; U "fallen_leaf" "🍂"; U "family" "👪"; U "fast_forward" "⏩"; U "fax" "📠"; U "fearful" "😨";
   I "feelsgood" "https://github.githubassets.com/images/icons/emoji/feelsgood.png"; U "feet" "🐾"; U "ferris_wheel" "🎡"; U "file_folder" "📁";
   I "finnadie" "https://github.githubassets.com/images/icons/emoji/finnadie.png"; U "fire" "🔥"; U "fire_engine" "🚒"; U "fireworks" "🎆";
   U "first_quarter_moon" "🌓"; U "first_quarter_moon_with_face" "🌛"; U "fish" "🐟"; U "fish_cake" "🍥"; U "fishing_pole_and_fish" "🎣"; U "fist" "✊";
   U "five" "5️⃣"; U "flags" "🎏"; U "flashlight" "🔦"; U "floppy_disk" "💾"; U "flower_playing_cards" "🎴"; U "flushed" "😳"; U "foggy" "🌁";
   U "football" "🏈"; U "fork_and_knife" "🍴"; U "fountain" "⛲"; U "four" "4️⃣"; U "four_leaf_clover" "🍀"; U "fr" "🇫🇷"; U "free" "🆓"; U "fried_shrimp" "🍤";
   U "fries" "🍟"; U "frog" "🐸"; U "frowning" "😦"; U "fu" "🖕"; U "fuelpump" "⛽"; U "full_moon" "🌕"; U "full_moon_with_face" "🌝"; U "game_die" "🎲";
   U "gb" "🇬🇧"; U "gem" "💎"; U "gemini" "♊"; U "ghost" "👻"; U "gift" "🎁"; U "gift_heart" "💝"; U "girl" "👧"; U "globe_with_meridians" "🌐"; U "goat" "🐐";
   I "goberserk" "https://github.githubassets.com/images/icons/emoji/goberserk.png";
   I "godmode" "https://github.githubassets.com/images/icons/emoji/godmode.png"; U "golf" "⛳"; U "grapes" "🍇"; U "green_apple" "🍏"; U "green_book" "📗";
   U "green_heart" "💚"; U "grey_exclamation" "❕"; U "grey_question" "❔"; U "grimacing" "😬"; U "grin" "😁"; U "grinning" "😀"; U "guardsman" "💂‍♂️";
   U "guitar" "🎸"; U "gun" "🔫"; U "haircut" "💇"; U "hamburger" "🍔"; U "hammer" "🔨"; U "hamster" "🐹"; U "hand" "✋"; U "handbag" "👜"; U "hankey" "💩";
   U "hash" "#️⃣"; U "hatched_chick" "🐥"; U "hatching_chick" "🐣"; U "headphones" "🎧"; U "hear_no_evil" "🙉"; U "heart" "❤️"; U "heart_decoration" "💟";
   U "heart_eyes" "😍"; U "heart_eyes_cat" "😻"; U "heartbeat" "💓"; U "heartpulse" "💗"; U "hearts" "♥️"; U "heavy_check_mark" "✔️";
   U "heavy_division_sign" "➗"; U "heavy_dollar_sign" "💲"; U "heavy_exclamation_mark" "❗"; U "heavy_minus_sign" "➖"; U "heavy_multiplication_x" "✖️";
   U "heavy_plus_sign" "➕"; U "helicopter" "🚁"; U "herb" "🌿"; U "hibiscus" "🌺"; U "high_brightness" "🔆"; U "high_heel" "👠"; U "hocho" "🔪";
   U "honey_pot" "🍯"; U "honeybee" "🐝"; U "horse" "🐴"; U "horse_racing" "🏇"; U "hospital" "🏥"; U "hotel" "🏨"; U "hotsprings" "♨️"; U "hourglass" "⌛";
   U "hourglass_flowing_sand" "⏳"; U "house" "🏠"; U "house_with_garden" "🏡";
   I "hurtrealbad" "https://github.githubassets.com/images/icons/emoji/hurtrealbad.png"; U "hushed" "😯"; U "ice_cream" "🍨"; U "icecream" "🍦"; U "id" "🆔";
   U "ideograph_advantage" "🉐"; U "imp" "👿"; U "inbox_tray" "📥"; U "incoming_envelope" "📨"; U "information_desk_person" "💁"; U "information_source" "ℹ️";
   U "innocent" "😇"; U "interrobang" "⁉️"; U "iphone" "📱"; U "it" "🇮🇹"; U "izakaya_lantern" "🏮"; U "jack_o_lantern" "🎃"; U "japan" "🗾";
   U "japanese_castle" "🏯"; U "japanese_goblin" "👺"; U "japanese_ogre" "👹"; U "jeans" "👖"; U "joy" "😂"; U "joy_cat" "😹"; U "jp" "🇯🇵"; U "key" "🔑";
   U "keycap_ten" "🔟"; U "kimono" "👘"; U "kiss" "💋"; U "kissing" "😗"; U "kissing_cat" "😽"; U "kissing_closed_eyes" "😚"; U "kissing_heart" "😘";
   U "kissing_smiling_eyes" "😙"; U "koala" "🐨"; U "koko" "🈁"; U "kr" "🇰🇷"; U "large_blue_circle" "🔵"; U "large_blue_diamond" "🔷";
   U "large_orange_diamond" "🔶"; U "last_quarter_moon" "🌗"; U "last_quarter_moon_with_face" "🌜"; U "laughing" "😆"; U "leaves" "🍃"; U "ledger" "📒";
   U "left_luggage" "🛅"; U "left_right_arrow" "↔️"; U "leftwards_arrow_with_hook" "↩️"; U "lemon" "🍋"; U "leo" "♌"; U "leopard" "🐆"; U "libra" "♎";
   U "light_rail" "🚈"; U "link" "🔗"; U "lips" "👄"; U "lipstick" "💄"; U "lock" "🔒"; U "lock_with_ink_pen" "🔏"; U "lollipop" "🍭"; U "loop" "➿";
   U "loudspeaker" "📢"; U "love_hotel" "🏩"; U "love_letter" "💌"; U "low_brightness" "🔅"; U "m" "Ⓜ️"; U "mag" "🔍"; U "mag_right" "🔎"; U "mahjong" "🀄";
   U "mailbox" "📫"; U "mailbox_closed" "📪"; U "mailbox_with_mail" "📬"; U "mailbox_with_no_mail" "📭"; U "man" "👨"; U "man_with_gua_pi_mao" "👲";
   U "man_with_turban" "👳‍♂️"; U "mans_shoe" "👞"; U "maple_leaf" "🍁"; U "mask" "😷"; U "massage" "💆"; U "meat_on_bone" "🍖"; U "mega" "📣"; U "melon" "🍈";
   U "memo" "📝"; U "mens" "🚹"; U "metal" "🤘"; U "metro" "🚇"; U "microphone" "🎤"; U "microscope" "🔬"; U "milky_way" "🌌"; U "minibus" "🚐";
   U "minidisc" "💽"; U "mobile_phone_off" "📴"; U "money_with_wings" "💸"; U "moneybag" "💰"; U "monkey" "🐒"; U "monkey_face" "🐵"; U "monorail" "🚝";
   U "moon" "🌔"; U "mortar_board" "🎓"; U "mount_fuji" "🗻"; U "mountain_bicyclist" "🚵"; U "mountain_cableway" "🚠"; U "mountain_railway" "🚞";
   U "mouse" "🐭"; U "mouse2" "🐁"; U "movie_camera" "🎥"; U "moyai" "🗿"; U "muscle" "💪"; U "mushroom" "🍄"; U "musical_keyboard" "🎹"; U "musical_note" "🎵";
   U "musical_score" "🎼"; U "mute" "🔇"; U "nail_care" "💅"; U "name_badge" "📛";
   I "neckbeard" "https://github.githubassets.com/images/icons/emoji/neckbeard.png"; U "necktie" "👔"; U "negative_squared_cross_mark" "❎";
   U "neutral_face" "😐"; U "new" "🆕"; U "new_moon" "🌑"; U "new_moon_with_face" "🌚"; U "newspaper" "📰"; U "ng" "🆖"; U "nine" "9️⃣"; U "no_bell" "🔕";
   U "no_bicycles" "🚳"; U "no_entry" "⛔"; U "no_entry_sign" "🚫"; U "no_good" "🙅"; U "no_mobile_phones" "📵"; U "no_mouth" "😶"; U "no_pedestrians" "🚷";
   U "no_smoking" "🚭"; U "non-potable_water" "🚱"; U "nose" "👃"; U "notebook" "📓"; U "notebook_with_decorative_cover" "📔"; U "notes" "🎶";
   U "nut_and_bolt" "🔩"; U "o" "⭕"; U "o2" "🅾️"; U "ocean" "🌊"; I "octocat" "https://github.githubassets.com/images/icons/emoji/octocat.png";
   U "octopus" "🐙"; U "oden" "🍢"; U "office" "🏢"; U "ok" "🆗"; U "ok_hand" "👌"; U "ok_woman" "🙆‍♀️"; U "older_man" "👴"; U "older_woman" "👵"; U "on" "🔛";
   U "oncoming_automobile" "🚘"; U "oncoming_bus" "🚍"; U "oncoming_police_car" "🚔"; U "oncoming_taxi" "🚖"; U "one" "1️⃣"; U "open_file_folder" "📂";
   U "open_hands" "👐"; U "open_mouth" "😮"; U "ophiuchus" "⛎"; U "orange_book" "📙"; U "outbox_tray" "📤"; U "ox" "🐂"; U "page_facing_up" "📄";
   U "page_with_curl" "📃"; U "pager" "📟"; U "palm_tree" "🌴"; U "panda_face" "🐼"; U "paperclip" "📎"; U "parking" "🅿️"; U "part_alternation_mark" "〽️";
   U "partly_sunny" "⛅"; U "passport_control" "🛂"; U "paw_prints" "🐾"; U "peach" "🍑"; U "pear" "🍐"; U "pencil" "📝"; U "pencil2" "✏️"; U "penguin" "🐧";
   U "pensive" "😔"; U "performing_arts" "🎭"; U "persevere" "😣"; U "phone" "☎️"; U "pig" "🐷"; U "pig2" "🐖"; U "pig_nose" "🐽"; U "pill" "💊";
   U "pineapple" "🍍"; U "pisces" "♓"; U "pizza" "🍕"; U "point_down" "👇"; U "point_left" "👈"; U "point_right" "👉"; U "point_up" "☝️"; U "point_up_2" "👆";
   U "police_car" "🚓"; U "poodle" "🐩"; U "poop" "💩"; U "post_office" "🏣"; U "postal_horn" "📯"; U "postbox" "📮"; U "potable_water" "🚰"; U "pouch" "👝";
   U "poultry_leg" "🍗"; U "pound" "💷"; U "pouting_cat" "😾"; U "pray" "🙏"; U "princess" "👸"; U "punch" "👊"; U "purple_heart" "💜"; U "purse" "👛";
   U "pushpin" "📌"; U "put_litter_in_its_place" "🚮"; U "question" "❓"; U "rabbit" "🐰"; U "rabbit2" "🐇"; U "racehorse" "🐎"; U "radio" "📻";
   U "radio_button" "🔘"; U "rage" "😡"; I "rage1" "https://github.githubassets.com/images/icons/emoji/rage1.png";
   I "rage2" "https://github.githubassets.com/images/icons/emoji/rage2.png"; I "rage3" "https://github.githubassets.com/images/icons/emoji/rage3.png";
   I "rage4" "https://github.githubassets.com/images/icons/emoji/rage4.png"; U "railway_car" "🚃"; U "rainbow" "🌈"; U "raised_hand" "✋";
   U "raised_hands" "🙌"; U "raising_hand" "🙋"; U "ram" "🐏"; U "ramen" "🍜"; U "rat" "🐀"; U "recycle" "♻️"; U "red_car" "🚗"; U "red_circle" "🔴";
   U "registered" "®️"; U "relaxed" "☺️"; U "relieved" "😌"; U "repeat" "🔁"; U "repeat_one" "🔂"; U "restroom" "🚻"; U "revolving_hearts" "💞";
   U "rewind" "⏪"; U "ribbon" "🎀"; U "rice" "🍚"; U "rice_ball" "🍙"; U "rice_cracker" "🍘"; U "rice_scene" "🎑"; U "ring" "💍"; U "rocket" "🚀";
   U "roller_coaster" "🎢"; U "rooster" "🐓"; U "rose" "🌹"; U "rotating_light" "🚨"; U "round_pushpin" "📍"; U "rowboat" "🚣"; U "ru" "🇷🇺";
   U "rugby_football" "🏉"; U "runner" "🏃"; U "running" "🏃"; U "running_shirt_with_sash" "🎽"; U "sa" "🈂️"; U "sagittarius" "♐"; U "sailboat" "⛵";
   U "sake" "🍶"; U "sandal" "👡"; U "santa" "🎅"; U "satellite" "📡"; U "satisfied" "😆"; U "saxophone" "🎷"; U "school" "🏫"; U "school_satchel" "🎒";
   U "scissors" "✂️"; U "scorpius" "♏"; U "scream" "😱"; U "scream_cat" "🙀"; U "scroll" "📜"; U "seat" "💺"; U "secret" "㊙️"; U "see_no_evil" "🙈";
   U "seedling" "🌱"; U "seven" "7️⃣"; U "shaved_ice" "🍧"; U "sheep" "🐑"; U "shell" "🐚"; U "ship" "🚢"; U "shirt" "👕"; U "shit" "💩"; U "shoe" "👞";
   U "shower" "🚿"; U "signal_strength" "📶"; U "six" "6️⃣"; U "six_pointed_star" "🔯"; U "ski" "🎿"; U "skull" "💀"; U "sleeping" "😴"; U "sleepy" "😪";
   U "slot_machine" "🎰"; U "small_blue_diamond" "🔹"; U "small_orange_diamond" "🔸"; U "small_red_triangle" "🔺"; U "small_red_triangle_down" "🔻";
   U "smile" "😄"; U "smile_cat" "😸"; U "smiley" "😃"; U "smiley_cat" "😺"; U "smiling_imp" "😈"; U "smirk" "😏"; U "smirk_cat" "😼"; U "smoking" "🚬";
   U "snail" "🐌"; U "snake" "🐍"; U "snowboarder" "🏂"; U "snowflake" "❄️"; U "snowman" "⛄"; U "sob" "😭"; U "soccer" "⚽"; U "soon" "🔜"; U "sos" "🆘";
   U "sound" "🔉"; U "space_invader" "👾"; U "spades" "♠️"; U "spaghetti" "🍝"; U "sparkler" "🎇"; U "sparkles" "✨"; U "sparkling_heart" "💖";
   U "speak_no_evil" "🙊"; U "speaker" "🔈"; U "speech_balloon" "💬"; U "speedboat" "🚤"; U "star" "⭐"; U "star2" "🌟"; U "stars" "🌠"; U "station" "🚉";
   U "statue_of_liberty" "🗽"; U "steam_locomotive" "🚂"; U "stew" "🍲"; U "straight_ruler" "📏"; U "strawberry" "🍓"; U "stuck_out_tongue" "😛";
   U "stuck_out_tongue_closed_eyes" "😝"; U "stuck_out_tongue_winking_eye" "😜"; U "sun_with_face" "🌞"; U "sunflower" "🌻"; U "sunglasses" "😎";
   U "sunny" "☀️"; U "sunrise" "🌅"; U "sunrise_over_mountains" "🌄"; U "surfer" "🏄"; U "sushi" "🍣";
   I "suspect" "https://github.githubassets.com/images/icons/emoji/suspect.png"; U "suspension_railway" "🚟"; U "sweat" "😓"; U "sweat_drops" "💦";
   U "sweat_smile" "😅"; U "sweet_potato" "🍠"; U "swimmer" "🏊"; U "symbols" "🔣"; U "syringe" "💉"; U "tada" "🎉"; U "tanabata_tree" "🎋"; U "tangerine" "🍊";
   U "taurus" "♉"; U "taxi" "🚕"; U "tea" "🍵"; U "telephone" "☎️"; U "telephone_receiver" "📞"; U "telescope" "🔭"; U "tennis" "🎾"; U "tent" "⛺";
   U "thought_balloon" "💭"; U "three" "3️⃣"; U "thumbsdown" "👎"; U "thumbsup" "👍"; U "ticket" "🎫"; U "tiger" "🐯"; U "tiger2" "🐅"; U "tired_face" "😫";
   U "tm" "™️"; U "toilet" "🚽"; U "tokyo_tower" "🗼"; U "tomato" "🍅"; U "tongue" "👅"; U "top" "🔝"; U "tophat" "🎩"; U "tractor" "🚜"; U "traffic_light" "🚥";
   U "train" "🚋"; U "train2" "🚆"; U "tram" "🚊"; U "triangular_flag_on_post" "🚩"; U "triangular_ruler" "📐"; U "trident" "🔱"; U "triumph" "😤";
   U "trolleybus" "🚎"; I "trollface" "https://github.githubassets.com/images/icons/emoji/trollface.png"; U "trophy" "🏆"; U "tropical_drink" "🍹";
   U "tropical_fish" "🐠"; U "truck" "🚚"; U "trumpet" "🎺"; U "tshirt" "👕"; U "tulip" "🌷"; U "turtle" "🐢"; U "tv" "📺"; U "twisted_rightwards_arrows" "🔀";
   U "two" "2️⃣"; U "two_hearts" "💕"; U "two_men_holding_hands" "👬"; U "two_women_holding_hands" "👭"; U "u5272" "🈹"; U "u5408" "🈴"; U "u55b6" "🈺";
   U "u6307" "🈯"; U "u6708" "🈷️"; U "u6709" "🈶"; U "u6e80" "🈵"; U "u7121" "🈚"; U "u7533" "🈸"; U "u7981" "🈲"; U "u7a7a" "🈳"; U "uk" "🇬🇧";
   U "umbrella" "☔"; U "unamused" "😒"; U "underage" "🔞"; U "unlock" "🔓"; U "up" "🆙"; U "us" "🇺🇸"; U "v" "✌️"; U "vertical_traffic_light" "🚦";
   U "vhs" "📼"; U "vibration_mode" "📳"; U "video_camera" "📹"; U "video_game" "🎮"; U "violin" "🎻"; U "virgo" "♍"; U "volcano" "🌋"; U "vs" "🆚";
   U "walking" "🚶"; U "waning_crescent_moon" "🌘"; U "waning_gibbous_moon" "🌖"; U "warning" "⚠️"; U "watch" "⌚"; U "water_buffalo" "🐃";
   U "watermelon" "🍉"; U "wave" "👋"; U "wavy_dash" "〰️"; U "waxing_crescent_moon" "🌒"; U "waxing_gibbous_moon" "🌔"; U "wc" "🚾"; U "weary" "😩";
   U "wedding" "💒"; U "whale" "🐳"; U "whale2" "🐋"; U "wheelchair" "♿"; U "white_check_mark" "✅"; U "white_circle" "⚪"; U "white_flower" "💮";
   U "white_square_button" "🔳"; U "wind_chime" "🎐"; U "wine_glass" "🍷"; U "wink" "😉"; U "wolf" "🐺"; U "woman" "👩"; U "womans_clothes" "👚";
   U "womans_hat" "👒"; U "womens" "🚺"; U "worried" "😟"; U "wrench" "🔧"; U "x" "❌"; U "yellow_heart" "💛"; U "yen" "💴"; U "yum" "😋"; U "zap" "⚡";
   U "zero" "0️⃣"; U "zzz" "💤"]%string.
