*.vo
*.vos
*.vok
*.glob
*.aux
.*.aux
.lia.cache
rocq/Makefile
rocq/Makefile.conf
rocq/.Makefile.d
*.pyc
__pycache__/
*.cache
